(** Theorems C135 and C136: the adapter where there is no fanotify.  C135: built for Android or
    for an old kernel ([AndroidModel]).  C136: run by root where fanotify cannot be used, as
    in a container (include/wtr/watcher.hpp:1699-1716). *)
From Verif Require Import Base PathModel EventModel Sys SysFacts LinuxModel InotifyModel FanotifyModel LinuxWatch InotifySpec InotifyFacts InotifyRun
  ExampleOs KernelSpec KernelFacts KernelRun DeepSpec DeepFacts DeepRun DeepLog DeepWatch PropsDeep AndroidModel AndroidSpec AndroidFacts LinuxSpec LinuxFacts LinuxChoice.

(** What the Android adapter does on the system [e] of C122. *)
Definition arun (e : denv) (fuel : nat) (path : text) (il : Z) : trace := fst (android_watch (dsystem e) fuel path il []).

Section Facts.
  Variable e : denv.
  Hypothesis start : exists D F, de_start e = dk_start D F.
  (** The end of a watch: inotify, and the message of a failure. *)
  Lemma di_tail fuel path il tr : di e tr nowhere ->
    exists known, di e (tr ++ fst (android_watch (dsystem e) fuel path il tr)) known.
  Proof.
    intros A0. unfold android_watch. cbn [r_eqb code N.eqb Pos.eqb].
    destruct (di_run e start fuel path il tr A0) as (o & r & E & known & A). unfold bind at 1. rewrite E. exists known.
    destruct r as [r|u| |]; try exact A. destruct (r_ge r r_e) eqn:Rr.
    - cbn -[to_str]. rewrite app_assoc. apply di_quiet; auto; [repeat constructor|repeat constructor|].
      unfold news. cbn -[to_str text_eqb lit]. destruct r; try discriminate Rr; reflexivity.
    - cbn. rewrite app_nil_r. exact A.
  Qed.
End Facts.
Lemma account e D F o known : de_start e = dk_start D F -> di e o known ->
  (forall a b, o = a ++ b -> exists rest, told_of (due (dstate e a)) (news a ++ rest)) /\
  (dk_queue (dstate e o) = [] -> told_of (due (dstate e o)) (news o)).
Proof.
  intros S A. split.
  - intros a b E. destruct (dv_told _ _ _ A a b E) as (l2 & l3 & mid & _ & T & _).
    destruct (told_each (map snd (dk_queue (dstate e a)))) as (lq & Tq). exists (l2 ++ lq). rewrite <- (kg_due _ (lo_good _ (log_ok_state e D F S a))). unfold everything. rewrite map_app, app_assoc.
    now apply told_app.
  - intros Q. pose proof (told_here _ _ _ A) as T.
    rewrite <- (kg_due _ (lo_good _ (log_ok_state e D F S o))). unfold everything. rewrite Q, app_nil_r. exact T.
Qed.
(** Without fanotify the Linux adapter is the Android adapter after some calls. *)
Lemma no_fanotify s fuel path il : (os_geteuid s [] = 0%Z -> fuel <> O /\ (os_fan_init s [OGeteuid 0] < 1)%Z) ->
  exists pre, ((os_geteuid s [] <> 0%Z /\ pre = [OGeteuid (os_geteuid s [])]) \/ (os_geteuid s [] = 0%Z /\ pre = [OGeteuid 0; OFanInit (os_fan_init s [OGeteuid 0]); OClose (-1); OClose (-1)])) /\
    linux_watch s fuel path il [] = (pre ++ fst (android_watch s fuel path il pre), snd (android_watch s fuel path il pre)).
Proof.
  intros H. destruct (Z.eq_dec (os_geteuid s []) 0) as [E|E].
  - destruct (H E) as [Hf Hi]. destruct fuel as [|n]; [contradiction|]. clear Hf.
    exists [OGeteuid 0; OFanInit (os_fan_init s [OGeteuid 0]); OClose (-1); OClose (-1)]. split; [right; auto|].
    unfold linux_watch. unfold bind at 1. unfold try_fanotify. unfold bind at 1. unfold geteuid. rewrite E. cbn [Z.eqb].
    unfold run_fanotify, platform_watch. unfold bind at 1. unfold fa_make_sysres. unfold bind at 1. unfold fanotify_init. cbn [app].
    apply Z.ltb_lt in Hi. rewrite Hi. cbn [ret]. unfold bind at 1. cbn [ep_loop r_lt code N.ltb N.compare Pos.compare Pos.compare_cont negb ret app].
    unfold bind at 1 2, sys_close. cbn [app ret kfa_fd r_eqb code N.eqb Pos.eqb].
    unfold android_watch. cbn [r_eqb code N.eqb Pos.eqb]. unfold bind. 
    match goal with |- (let (_, _) := ?X in _) = _ => destruct X; reflexivity end.
  - exists [OGeteuid (os_geteuid s [])]. split; [left; auto|].
    unfold linux_watch. unfold bind at 1. unfold try_fanotify. unfold bind at 1. unfold geteuid.
    apply Z.eqb_neq in E. rewrite E. cbn [ret app r_eqb code N.eqb Pos.eqb].
    unfold android_watch. cbn [r_eqb code N.eqb Pos.eqb]. unfold bind.
    match goal with |- (let (_, _) := ?X in _) = _ => destruct X; reflexivity end.
Qed.

(** ** C135: Android *)
(** On every system: what an unprivileged user's watcher does, without its first question. *)
Theorem C135_android_watches_as_an_unprivileged_user :
  forall s fuel path il u f, u <> 0%Z ->
    linux_watch (behind 1 s u f) fuel path il [] =
      (OGeteuid u :: fst (android_watch s fuel path il []), snd (android_watch s fuel path il [])).
Proof.
  intros s fuel path il u f Hu.
  destruct (no_fanotify (behind 1 s u f) fuel path il) as (pre & Hp & E); [intros E0; now apply Hu in E0|].
  destruct Hp as [[_ ->]|[E0 _]]; [|now apply Hu in E0]. rewrite E. cbn [os_geteuid behind].
  pose proof (sim_android 1 s u f fuel path il [OGeteuid u] [] eq_refl) as Hs. cbn [app] in Hs. rewrite Hs. reflexivity.
Qed.
Print Assumptions C135_android_watches_as_an_unprivileged_user.
(** It opens one inotify instance, at once, and nothing of fanotify. *)
Theorem C135_android_opens_only_inotify :
  forall s fuel path il, (0 < fuel)%nat ->
    exists fd rest, fst (android_watch s fuel path il []) = OInotifyInit fd :: rest /\
      none_of uses_fanotify rest /\ none_of uses_inotify rest.
Proof.
  intros s fuel path il Hn. destruct (linux_watch_choice (behind 1 s 1 0) fuel path il []) as (uid & rest & E & H & _); [lia|].
  rewrite C135_android_watches_as_an_unprivileged_user in E by discriminate. cbn [fst] in E. injection E as <- <-. apply H. discriminate.
Qed.
Print Assumptions C135_android_opens_only_inotify.
(** On the filesystem of C122, whoever the user is. *)
Theorem C135_android_account_of_all_changes :
  forall e D F fuel path il, de_start e = dk_start D F ->
    let o := arun e fuel path il in
    (forall a b, o = a ++ b -> exists rest, told_of (due (dstate e a)) (news a ++ rest)) /\
    (dk_queue (dstate e o) = [] -> told_of (due (dstate e o)) (news o)).
Proof.
  intros e D F fuel path il S. cbv zeta.
  assert (S' : exists D F, de_start e = dk_start D F) by eauto.
  destruct (di_tail e S' fuel path il [] (di_nil e S')) as (known & A). exact (account e D F _ known S A).
Qed.
Print Assumptions C135_android_account_of_all_changes.

(** ** C136: root without fanotify *)
Theorem C136_root_without_fanotify_watches_as_anyone :
  forall s fuel path il f, (f < 1)%Z -> (0 < fuel)%nat ->
    linux_watch (behind 4 s 0 f) fuel path il [] =
      ([OGeteuid 0; OFanInit f; OClose (-1); OClose (-1)] ++ fst (android_watch s fuel path il []),
       snd (android_watch s fuel path il [])).
Proof.
  intros s fuel path il f Hf Hn.
  destruct (no_fanotify (behind 4 s 0 f) fuel path il) as (pre & Hp & E); [intros _; split; [lia|exact Hf]|].
  destruct Hp as [[E0 _]|[_ ->]]; [now contradiction E0|].
  rewrite E. cbn [os_geteuid os_fan_init behind].
    pose proof (sim_android 4 s 0 f fuel path il [OGeteuid 0; OFanInit f; OClose (-1); OClose (-1)] [] eq_refl) as Hs. rewrite app_nil_r in Hs. rewrite Hs. reflexivity.
Qed.
Print Assumptions C136_root_without_fanotify_watches_as_anyone.
(** On the filesystem of C122: root, or anyone, where fanotify_init never gives a descriptor. *)
Theorem C136_account_without_fanotify :
  forall e D F fuel path il, de_start e = dk_start D F -> (0 < fuel)%nat ->
    (forall k tr, (os_fan_init (de_base e k) tr < 1)%Z) ->
    let o := drun e fuel path il in
    (forall a b, o = a ++ b -> exists rest, told_of (due (dstate e a)) (news a ++ rest)) /\
    (dk_queue (dstate e o) = [] -> told_of (due (dstate e o)) (news o)).
Proof.
  intros e D F fuel path il S Hn Hf. cbv zeta.
  assert (S' : exists D F, de_start e = dk_start D F) by eauto.
  destruct (no_fanotify (dsystem e) fuel path il) as (pre & Hp & E); [intros _; split; [lia|apply Hf]|].
  assert (A0 : di e pre nowhere). { destruct Hp as [[_ ->]|[_ ->]]; apply (di_quiet e S' [] _ nowhere); try apply (di_nil e S'); repeat constructor. }
  destruct (di_tail e S' fuel path il pre A0) as (known & A). unfold drun. rewrite E. cbn [fst]. exact (account e D F _ known S A).
Qed.
Print Assumptions C136_account_without_fanotify.

(** A directory is renamed, then used, as in the example of C122; the first reading of each
    adapter tells the same.  [contained] is a container: root, without fanotify. *)
Definition contained : denv := {|
  de_fd := de_fd moving; de_max := de_max moving; de_start := de_start moving; de_ops := de_ops moving; de_deny := de_deny moving; de_want := de_want moving;
  de_base := fun k => behind 0 (de_base moving k) 0 (-1) |}.
Example C135_example : let o := arun moving 20 (lit "/w") 5 in
  de_start moving = dk_start tree [lit "/w/d/old"] /\ dk_queue (dstate moving o) = [] /\
  snd (android_watch (dsystem moving) 20 (lit "/w") 5 []) = Ok true /\ length (due (dstate moving o)) = 8%nat /\
  news o = news (drun moving 20 (lit "/w") 5) /\ length (news o) = 5%nat.
Proof. cbv zeta. split; [reflexivity|]. vm_compute. repeat split; reflexivity. Qed.
Example C136_example : let o := drun contained 20 (lit "/w") 5 in
  de_start contained = dk_start tree [lit "/w/d/old"] /\ (forall k tr, (os_fan_init (de_base contained k) tr < 1)%Z) /\
  (forall k tr, os_geteuid (de_base contained k) tr = 0%Z) /\ dk_queue (dstate contained o) = [] /\
  snd (linux_watch (dsystem contained) 20 (lit "/w") 5 []) = Ok true /\ length (due (dstate contained o)) = 8%nat /\
  firstn 5 o = [OGeteuid 0; OFanInit (-1); OClose (-1); OClose (-1); OInotifyInit 3] /\
  news o = news (drun moving 20 (lit "/w") 5).
Proof. cbv zeta. split; [reflexivity|]. split; [intros; reflexivity|]. split; [intros; reflexivity|]. vm_compute. repeat split; reflexivity. Qed.

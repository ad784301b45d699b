(** Theorems C77-C81: the inotify adapter (include/wtr/watcher.hpp:1299-1726) on a
    filesystem that others change at any time, with the kernel of [KernelSpec]
    between the two.  The adapter is that of [LinuxWatch], unchanged. *)
From Verif Require Import Base PathModel EventModel Sys SysFacts LinuxWatch InotifySpec InotifyFacts InotifyRun
  ExampleOs KernelSpec KernelFacts KernelRun KernelWatch.

(** What an unprivileged watcher on [path] does on the system [e]; [il] is the stop descriptor. *)
Definition run (e : env) (fuel : nat) (path : text) (il : Z) : trace := fst (linux_watch (system e) fuel path il []).
Definition unprivileged (e : env) : Prop := forall k tr, os_geteuid (e_base e k) tr <> 0%Z.

Section Facts.
  Variables (e : env) (D F : list text) (fuel : nat) (path : text) (il : Z).
  Hypothesis start : e_start e = kern_start D F.
  Hypothesis unpriv : unprivileged e.
  Notation o := (run e fuel path il).
  Lemma Hstart : exists d f, e_start e = kern_start d f. Proof. eauto. Qed.
  Lemma the_invariant : exists known, ai e o known.
  Proof. apply ai_watch; [exact Hstart|]. intros tr. apply unpriv. Qed.
  Lemma told_from tr l2 : grp (kn_given (state e tr)) (kn_read (state e tr)) (fs_shapes tr ++ l2) ->
    exists rest, told (owed (state e tr)) (fs_shapes tr ++ rest) /\ (kn_queue (state e tr) = [] -> rest = l2).
  Proof.
    intros H. pose proof (kinv_state e Hstart tr) as K. destruct (ki_log _ K) as (all & L & Dd).
    assert (W : Forall (fun r => exists p, In (k_wd r, p) (kn_given (state e tr))) (kn_queue (state e tr))).
    { pose proof (ki_wds _ K) as W. unfold sofar in W. now apply Forall_app in W as [_ W]. }
    destruct (grp_each _ _ W) as (lq & Hq). exists (l2 ++ lq). split.
    - rewrite app_assoc. eapply told_log; [exact (ki_fun _ K)|apply le_n| |exact Dd|exact L]. unfold sofar. now apply grp_app.
    - intros E. rewrite E in Hq. apply grp_nil in Hq. subst lq. apply app_nil_r.
  Qed.
  Lemma told_always a b : o = a ++ b -> exists rest, told (owed (state e a)) (fs_shapes a ++ rest).
  Proof.
    intros E. destruct the_invariant as (known & A). destruct (ai_always _ _ _ A a b E) as (l2 & H).
    destruct (told_from a l2 H) as (rest & T & _). eauto.
  Qed.
  Lemma told_end : kn_queue (state e o) = [] -> told (owed (state e o)) (fs_shapes o).
  Proof.
    intros Q. destruct the_invariant as (known & A). pose proof (ai_told _ _ _ A) as H. rewrite <- (app_nil_r (fs_shapes o)) in H.
    destruct (told_from _ _ H) as (rest & T & E). rewrite (E Q), app_nil_r in T. exact T.
  Qed.
End Facts.

(** ** C77: every change, once, in order *)
Theorem C77_every_change_reported_once_in_order :
  forall e D F fuel path il, e_start e = kern_start D F -> unprivileged e ->
    let o := run e fuel path il in
    (forall a b, o = a ++ b -> exists rest, told (owed (state e a)) (fs_shapes a ++ rest)) /\
    (kn_queue (state e o) = [] -> told (owed (state e o)) (fs_shapes o)).
Proof.
  intros e D F fuel path il S U. cbv zeta. split; [intros a b; now apply (told_always e D F)|now apply (told_end e D F)].
Qed.
Print Assumptions C77_every_change_reported_once_in_order.

(** ** C78: no event without a change *)
(** [ev] reports the change [c], or one half of it. *)
Definition reports (ev c : shape) : Prop :=
  ev = c \/ exists p q t, c = Sh p EtRename t (Some (Sh q EtRename t None)) /\ (ev = Sh p EtRename t None \/ ev = Sh q EtRename t None).
Lemma told_reports cs l : told cs l -> forall ev, In ev l -> exists c, In c cs /\ reports ev c.
Proof.
  induction 1 as [|c cs l _ IH|p q t cs l _ IH|p t cs l _ IH]; intros ev Hin.
  - destruct Hin.
  - destruct Hin as [<-|Hin]; [exists c; split; [now left|now left]|]. destruct (IH _ Hin) as (c' & H1 & H2). exists c'. split; [now right|exact H2].
  - destruct Hin as [<-|[<-|Hin]]; [eexists; split; [now left|right; eauto 10]..|]. destruct (IH _ Hin) as (c' & H1 & H2). exists c'. split; [now right|exact H2].
  - destruct (IH _ Hin) as (c & H1 & H2). exists c. split; [now right|exact H2].
Qed.
Theorem C78_no_event_without_a_change :
  forall e D F fuel path il, e_start e = kern_start D F -> unprivileged e ->
    forall a ev b, run e fuel path il = a ++ OCallback ev :: b -> ev_ptype ev <> PtWatcher ->
    exists c, In (c, true) (kn_log (at_call e a)) /\ reports (shape_of ev) (change c).
Proof.
  intros e D F fuel path il S U a ev b E Hp.
  replace (a ++ OCallback ev :: b) with ((a ++ [OCallback ev]) ++ b) in E by (rewrite <- app_assoc; reflexivity).
  destruct (told_always e D F fuel path il S U _ _ E) as (rest & T).
  assert (Hin : In (shape_of ev) (fs_shapes (a ++ [OCallback ev]) ++ rest)).
  { apply in_app_iff. left. rewrite fs_shapes_app. apply in_app_iff. right. unfold fs_shapes. cbn.
    destruct ev as [p et pt t asc]. cbn in Hp. destruct pt; cbn; auto; congruence. }
  destruct (told_reports _ _ T _ Hin) as (c & H1 & H2).
  rewrite (state_snoc e a (OCallback ev)) in H1. cbn [effect_on] in H1. unfold owed in H1. apply in_map_iff in H1 as ([c' w] & Ec & H1).
  apply filter_In in H1 as [H1 Hw]. cbn in Hw, Ec. subst w c. eauto.
Qed.
Print Assumptions C78_no_event_without_a_change.

(** ** C79: directories there at the start *)
Theorem C79_changes_in_the_tree_are_reported :
  forall e D F fuel path root il, e_start e = kern_start D F -> unprivileged e -> still_start e ->
    (forall k, kn_dirs k = D -> shows k (e_base e k)) ->
    (forall k, kn_dirs k = D -> leads k (e_base e k) path root) -> (Z.of_nat (length D) < 2147483647)%Z ->
    let k := state e (run e fuel path il) in
    (* changes in a directory that was there at the start and was not removed are owed *)
    (forall x c w y, kn_log k = x ++ (c, w) :: y -> under D root (place c) -> ~ Exists (removes (place c)) x -> w = true) /\
    (* if there were no other changes, all changes were reported *)
    ((forall c w, In (c, w) (kn_log k) -> under D root (place c)) ->
     (forall c w, In (c, w) (kn_log k) -> forall p n b, c <> RemoveDir p n b) ->
     kn_queue k = [] -> told (map (fun c => change (fst c)) (kn_log k)) (fs_shapes (run e fuel path il))).
Proof.
  intros e D F fuel path root il S U St Sh Ld Few. cbv zeta.
  assert (Fl : forall x c w y, kn_log (state e (run e fuel path il)) = x ++ (c, w) :: y -> under D root (place c) -> ~ Exists (removes (place c)) x -> w = true).
  { apply (watch_at_start e D F S St Sh Few path root Ld fuel il). intros tr. apply U. }
  split; [exact Fl|]. intros HU HR Q. pose proof (told_end e D F fuel path il S U Q) as T. unfold owed in T.
  replace (filter snd (kn_log (state e (run e fuel path il)))) with (kn_log (state e (run e fuel path il))) in T; [exact T|].
  symmetry. assert (All : forall l x, kn_log (state e (run e fuel path il)) = x ++ l -> filter snd l = l); [|now apply (All _ [])].
  induction l as [|[c w] l IH]; intros x E; [reflexivity|].
  assert (w = true) as ->.
  { eapply Fl; [exact E|apply (HU c w); rewrite E; apply in_elt|]. intros X. apply Exists_exists in X as ([c' w'] & Hin & (d & n & b & Ec & _)).
    cbn in Ec. apply (HR c' w') with (p := d) (n := n) (b := b); [rewrite E; apply in_app_iff; now left|exact Ec]. }
  cbn. f_equal. apply (IH (x ++ [(c, true)])). rewrite <- app_assoc. exact E.
Qed.
Print Assumptions C79_changes_in_the_tree_are_reported.

(** ** C80: new directories *)
Lemma logged_dir G E all : logged G E all -> forall q, In (Sh q EtCreate PtDir None) E ->
  exists r p, In r all /\ k_kind r = KCreate /\ k_dir r = true /\ In (k_wd r, p) G /\ q = entry p (k_name r).
Proof.
  induction 1 as [|r p f E rs Hin Hp Hf _ IH|r n p E rs Hin Hp Hw Hd Hd' _ IH|r E rs Hf _ IH|r p E rs Hin Hh Hn _ IH]; intros q Hq; [destruct Hq|..].
  - destruct Hq as [Hq|Hq].
    + injection Hq as <- -> Ht. exists r, p. split; [now left|]. unfold type_of in Ht. destruct (k_dir r); [|discriminate]. repeat split; auto. destruct (k_kind r); try discriminate; reflexivity.
    + destruct (IH _ Hq) as (r' & p' & H1 & H2). exists r', p'. split; [now right|exact H2].
  - destruct Hq as [Hq|Hq]; [discriminate|]. destruct (IH _ Hq) as (r' & p' & H1 & H2). exists r', p'. split; [right; now right|exact H2].
  - destruct (IH _ Hq) as (r' & p' & H1 & H2). exists r', p'. split; [now right|exact H2].
  - destruct Hq as [Hq|Hq]; [discriminate|]. destruct (IH _ Hq) as (r' & p' & H1 & H2). exists r', p'. split; [now right|exact H2].
Qed.
Lemma items_shown (l : trace) x : In (Shown x) (items l) -> exists ev, In (OCallback ev) l /\ shape_of ev = x.
Proof.
  induction l as [|y l IH]; [intros []|]. intros H. destruct y; cbn in H;
    try (destruct (IH H) as (ev & H1 & H2); exists ev; split; [now right|exact H2]).
  - destruct H as [[= <-]|H]; [eexists; split; [now left|reflexivity]|]. destruct (IH H) as (ev & H1 & H2); exists ev; split; [now right|exact H2].
  - destruct (0 <? wd)%Z; [destruct H as [H|H]; [discriminate|]|]; destruct (IH H) as (ev & H1 & H2); exists ev; (split; [now right|exact H2]).
Qed.
Lemma items_marked (l : trace) wd q : In (Marked wd q) (items l) -> exists a fd m b, l = a ++ OAddWatch fd q m wd :: b /\ (0 < wd)%Z.
Proof.
  induction l as [|y l IH]; [intros []|]. intros H.
  assert (Later : In (Marked wd q) (items l) -> exists a fd m b, y :: l = a ++ OAddWatch fd q m wd :: b /\ (0 < wd)%Z).
  { intros H'. destruct (IH H') as (a & fd & m & b & -> & Hw). exists (y :: a), fd, m, b. auto. }
  destruct y; cbn in H; auto.
  - destruct H as [H|H]; [discriminate|auto].
  - destruct (Z.ltb_spec 0 wd0); [|auto]. destruct H as [[= -> ->]|H]; [|auto]. exists []. do 3 eexists. split; [reflexivity|assumption].
Qed.
Theorem C80_new_directories_are_watched_or_warned :
  forall e D F fuel path il, e_start e = kern_start D F -> unprivileged e ->
    let o := run e fuel path il in
    forall p n, In (Make true p n, true) (kn_log (state e o)) -> kn_queue (state e o) = [] ->
    (* no links *)
    (forall k tr r, os_realpath (e_base e k) tr (entry p n) = Some r -> r = entry p n) ->
    (exists ev, In (OCallback ev) o /\ shape_of ev = warning "w/sys/not_watched@" (entry p n)) \/
    (exists a fd m wd b, o = a ++ OAddWatch fd (entry p n) m wd :: b /\ (0 < wd)%Z /\
       (* from then on, until it is removed, changes in it are owed *)
       exists later, kn_log (state e o) = kn_log (at_call e a) ++ later /\
         forall x c w y, later = x ++ (c, w) :: y -> place c = entry p n -> ~ Exists (removes (entry p n)) x -> w = true).
Proof.
  intros e D F fuel path il S U. cbv zeta. intros p n Hl Q Hr.
  destruct (the_invariant e D F fuel path il S U) as (known & A). set (o := run e fuel path il) in *.
  assert (HS : exists d f, e_start e = kern_start d f) by eauto. pose proof (kinv_state e HS o) as K.
  destruct (ki_log _ K) as (all & L & Dd).
  assert (Ho : In (Sh (entry p n) EtCreate PtDir None) (owed (state e o))).
  { unfold owed. apply in_map_iff. exists (Make true p n, true). split; [reflexivity|]. apply filter_In. auto. }
  destruct (logged_dir _ _ _ L _ Ho) as (r & p' & Hin & Kc & Kd & HG & Eq). apply (dedup_in _ _ Dd) in Hin. unfold sofar in Hin. rewrite Q, app_nil_r in Hin.
  pose proof (ai_new _ _ _ A r p' Hin Kc Kd HG) as At. rewrite <- Eq in At. destruct At as [At|(wd & real & At & tr & Hres)].
  - left. now apply items_shown in At.
  - right. cbn [os_realpath system] in Hres. apply Hr in Hres. subst real.
    apply items_marked in At as (a & fd & m & b & Eo & Hw). exists a, fd, m, wd, b. split; [exact Eo|]. split; [exact Hw|].
    pose proof (ai_answers _ _ _ A) as An. rewrite Eo in An. apply answers_app in An as [_ [An _]]. cbn [app] in An.
    pose proof (marked_watched e a fd (entry p n) m wd An Hw) as W.
    destruct (kept_state e (entry p n) b (a ++ [OAddWatch fd (entry p n) m wd])) as (l & El & Kp).
    replace ((a ++ [OAddWatch fd (entry p n) m wd]) ++ b) with o in El by (rewrite Eo, <- app_assoc; reflexivity).
    exists l. split; [|apply (proj1 (Kp W))]. rewrite El, state_snoc. cbn [effect_on]. unfold adding. destruct (negb (_ =? _)%Z); [reflexivity|]. destruct (asks_all _); [|reflexivity]. unfold marking. destruct (negb _ && _); [|reflexivity]. destruct (watched _ _); [reflexivity|]. now destruct (_ <? _)%Z.
Qed.
Print Assumptions C80_new_directories_are_watched_or_warned.

(** ** Concrete systems *)
(** The other answers: what the directories of [k] look like; descriptors 3
    (inotify) and 4 (epoll), and 5 for the stop; the waits as scripted. *)
Definition ends_in (p q : text) : list dirent :=
  let d := entry p [] in
  if text_eqb d (firstn (length d) q) && good_name (skipn (length d) q) then [{| de_name := skipn (length d) q; de_type := 4 |}] else [].
Definition fs_base (waits : list (option (list Z))) (k : kern) : os := {|
  os_now := fun tr => Z.of_nat (length tr);
  os_geteuid := fun _ => 1000%Z;
  os_realpath := fun _ p => if has p (kn_dirs k) || has p (kn_files k) then Some p else None;
  os_is_dir := fun _ p => has p (kn_dirs k);
  os_opendir := fun _ p => if has p (kn_dirs k) then Some (sub "." :: sub ".." :: flat_map (ends_in p) (kn_dirs k)) else None;
  os_inotify_init := fun _ => 3%Z;
  os_add_watch := fun _ _ _ _ => (-1)%Z;
  os_fan_init := fun _ => (-1)%Z;
  os_fan_mark := fun _ _ _ _ => (-1)%Z;
  os_epoll_create := fun _ => 4%Z;
  os_epoll_ctl := fun _ _ _ => 0%Z;
  os_epoll_wait := fun tr _ => nth (count is_wait tr) waits (Some [5%Z]);
  os_read := fun _ _ _ => again;
  os_open_handle := fun _ _ => (-1, 0)%Z;
  os_readlink := fun _ _ => None |}.
(** Changes after the n-th wait and after the n-th read. *)
Definition scripted_env (D F : list text) (waits : list (option (list Z))) (ws rs : list (list op)) : env := {|
  e_fd := 3; e_start := kern_start D F;
  e_ops := fun tr => match count is_wait tr with
                     | O => []
                     | S i => match rev tr with OEpollWait _ _ :: _ => nth i ws [] | ORead _ _ :: _ => nth i rs [] | _ => [] end
                     end;
  e_deny := fun _ => false; e_want := fun _ => 256%nat; e_base := fs_base waits |}.
Lemma scripted_still D F w ws rs : still_start (scripted_env D F w ws rs).
Proof.
  intros tr H. cbn. split; [|reflexivity]. replace (count is_wait tr) with 0%nat; [reflexivity|]. unfold count. symmetry. induction H as [|x tr H _ IH]; [reflexivity|]. cbn. destruct x; cbn; auto; contradiction.
Qed.
Definition ready : option (list Z) := Some [3%Z].

Definition w_dirs : list text := [lit "/w"; lit "/w/d"].
Lemma w_shows w k : kn_dirs k = w_dirs -> shows k (fs_base w k).
Proof.
  intros E. constructor.
  - rewrite E. intros p Hp. assert (Eh : has p w_dirs = true) by (destruct Hp as [<-|[<-|[]]]; reflexivity).
    constructor; cbn [os_opendir os_realpath os_is_dir fs_base]; rewrite ?E, ?Eh; [reflexivity| |].
    + intros tr. eexists. split; [reflexivity|].
      intros n Hn Hin. right. right. apply in_flat_map. exists (entry p n). split; [exact Hin|]. unfold ends_in.
      assert (En : entry p n = entry p [] ++ n) by (destruct Hp as [<-|[<-|[]]]; reflexivity).
      rewrite En, firstn_app, Nat.sub_diag, firstn_all, skipn_app, Nat.sub_diag, skipn_all. cbn [firstn skipn app]. rewrite app_nil_r, text_eqb_refl, Hn. now left.
    + intros tr n Hin. assert (En : p ++ lit "/" ++ n = entry p n) by (destruct Hp as [<-|[<-|[]]]; reflexivity). rewrite En.
      assert (Eh' : has (entry p n) w_dirs = true). { apply existsb_exists. exists (entry p n). split; [exact Hin|apply text_eqb_refl]. } rewrite Eh'. split; [|reflexivity].
      destruct Hin as [<-|[<-|[]]]; apply Nat.leb_le; vm_compute; reflexivity.
  - cbn [os_is_dir fs_base]. rewrite E. intros tr p Hp. destruct Hp as [<-|[<-|[]]]; reflexivity.
Qed.
Lemma w_leads w k : kn_dirs k = w_dirs -> leads k (fs_base w k) (lit "/w") (lit "/w").
Proof. intros E. apply (sh_leads _ _ (w_shows w k E)). rewrite E. now left. Qed.

(** A busy day: files made, written twice, renamed and removed; a directory made,
    used and removed while the watcher looks. *)
Definition busy_env : env := scripted_env w_dirs [lit "/w/d/old"] [ready; ready; ready; ready]
  [[Make false (lit "/w/d") (lit "f"); Write (lit "/w/d") (lit "f"); Write (lit "/w/d") (lit "f"); Rename (lit "/w/d") (lit "f") (lit "g")];
   [Make true (lit "/w") (lit "n")];
   [Make false (lit "/w/n") (lit "x"); Remove (lit "/w/n") (lit "x"); RemoveDir (lit "/w") (lit "n") true];
   [Remove (lit "/w/d") (lit "old")]] [].
Example C77_example : let o := run busy_env 20 (lit "/w") 5 in
  e_start busy_env = kern_start w_dirs [lit "/w/d/old"] /\ unprivileged busy_env /\
  length (owed (state busy_env o)) = 9%nat /\ kn_queue (state busy_env o) = [] /\
  fs_shapes o =
    [Sh (lit "/w/d/f") EtCreate PtFile None; Sh (lit "/w/d/f") EtModify PtFile None;
     Sh (lit "/w/d/f") EtRename PtFile (Some (Sh (lit "/w/d/g") EtRename PtFile None));
     Sh (lit "/w/n") EtCreate PtDir None; Sh (lit "/w/n/x") EtCreate PtFile None; Sh (lit "/w/n/x") EtDestroy PtFile None;
     Sh (lit "/w/n") EtDestroy PtDir None; Sh (lit "/w/d/old") EtDestroy PtFile None].
Proof. cbv zeta. split; [reflexivity|]. split; [intros k tr; discriminate|]. vm_compute. repeat split; reflexivity. Qed.
Example C79_example :
  still_start busy_env /\ (forall k, kn_dirs k = w_dirs -> shows k (e_base busy_env k)) /\ (Z.of_nat (length w_dirs) < 2147483647)%Z /\
  (forall k, kn_dirs k = w_dirs -> leads k (e_base busy_env k) (lit "/w") (lit "/w")) /\ under w_dirs (lit "/w") (lit "/w/d") /\
  In (Make false (lit "/w/d") (lit "f"), true) (kn_log (state busy_env (run busy_env 20 (lit "/w") 5))).
Proof.
  split; [apply scripted_still|]. split; [intros; now apply w_shows|]. split; [reflexivity|]. split; [|split].
  - intros k E. now apply w_leads.
  - apply (UnderSub _ _ (lit "d")); [now left|reflexivity|]. apply UnderHere. right. now left.
  - vm_compute. now left.
Qed.
Example C80_example : let o := run busy_env 20 (lit "/w") 5 in
  In (Make true (lit "/w") (lit "n"), true) (kn_log (state busy_env o)) /\ kn_queue (state busy_env o) = [] /\
  (forall k tr r, os_realpath (e_base busy_env k) tr (entry (lit "/w") (lit "n")) = Some r -> r = entry (lit "/w") (lit "n")) /\
  exists fd m, In (OAddWatch fd (lit "/w/n") m 3) o.
Proof.
  cbv zeta. split; [vm_compute; tauto|]. split; [vm_compute; reflexivity|]. split.
  - intros k tr r. cbn [e_base busy_env scripted_env os_realpath fs_base]. destruct (_ || _); [|discriminate]. congruence.
  - exists 3%Z, 4034%N. vm_compute. tauto.
Qed.

(** ** C81: `mkdir -p` *)
(** The full claim of C79 with new directories: a change anywhere below the watched
    path is owed.  It fails without a warning, without an event: a directory made in
    a new directory before that is marked is never marked. *)
Definition race_env : env := scripted_env w_dirs [] [ready; ready; ready]
  [[Make true (lit "/w") (lit "a")]; []; [Make false (lit "/w/a/b") (lit "f")]] [[Make true (lit "/w/a") (lit "b")]].
Theorem C81_new_trees_are_watched_refuted :
  exists e, e_start e = kern_start w_dirs [] /\ unprivileged e /\ still_start e /\ (forall k, kn_dirs k = w_dirs -> shows k (e_base e k)) /\
    (forall tr, e_deny e tr = false) /\ (forall k tr p, os_realpath (e_base e k) tr p = None \/ os_realpath (e_base e k) tr p = Some p) /\
    let o := run e 20 (lit "/w") 5 in
    kn_queue (state e o) = [] /\ snd (linux_watch (system e) 20 (lit "/w") 5 []) = Ok true /\
    map fst (kn_log (state e o)) = [Make true (lit "/w") (lit "a"); Make true (lit "/w/a") (lit "b"); Make false (lit "/w/a/b") (lit "f")] /\
    map shape_of (callbacks o) = [Sh (lit "/w/a") EtCreate PtDir None] /\ is_watched (state e o) (lit "/w/a/b") = false.
Proof.
  exists race_env. split; [reflexivity|]. split; [intros k tr; discriminate|]. split; [apply scripted_still|]. split; [intros; now apply w_shows|].
  split; [reflexivity|]. split; [|vm_compute; repeat split; reflexivity].
  intros k tr p. cbn [e_base race_env scripted_env os_realpath fs_base]. destruct (_ || _); auto.
Qed.
Print Assumptions C81_new_trees_are_watched_refuted.

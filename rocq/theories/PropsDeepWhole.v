(** Theorems C131 and C132: the whole library on Linux without privileges: class watch
    (include/wtr/watcher.hpp:2239-2282), its stop flag, the inotify adapter (:1299-1726), on
    the filesystem and kernel of [DeepSpec], where directories are moved and the kernel's
    queue is limited. *)
From Verif Require Import WatchFacts.
From Verif Require Import Base PathModel EventModel Sys SysFacts LinuxWatch LinuxSpec LinuxProps PropsLinux InotifySpec InotifyRun ExampleOs KernelSpec
  DeepSpec DeepTimeSpec DeepFacts DeepRun DeepLog DeepTime PropsDeep SemabinModel WatchModel WatchSpec WholeLife WatchExamples.
From Verif Require PropsWhole.

(** The runs of the adapter on the system [e], as class watch sees them; [il]: the stop descriptor. *)
Definition deep_on (e : denv) (il : Z) (path : text) (st : list act) (r : option bool) : Prop :=
  exists fuel o out, linux_watch (dsystem e) fuel path il [] = (o, out) /\ st = map (act_of il) o /\
    ((exists b, out = Ok b /\ r = Some b) \/ (out = Fuel /\ r = None)).
Lemma news_in_app a b : news_in (a ++ b) = news_in a ++ news_in b.
Proof. unfold news_in. now rewrite map_app, filter_app. Qed.
Lemma news_in_run o : news_in (callbacks o) = news o.
Proof. reflexivity. Qed.
Lemma message_no_news txt eff path ev : life_event txt eff path ev -> text_eqb (lit txt ++ path) (lit "w/sys/phantom@") = false ->
  warns_of (lit "w/sys/q_overflow@") (lit txt ++ path) = false -> news_in [ev] = [].
Proof.
  destruct ev as [p f t n a]. intros (Ep & _ & Et & _) H1 H2. cbn [ev_path ev_ptype] in *. subst t. unfold news_in. cbn [map].
  assert (Es : exists x, shape_of (Ev p f PtWatcher n a) = Sh p f PtWatcher x) by (destruct a as [[]|]; cbn; eauto). destruct Es as (x & ->).
  cbn [filter is_news]. rewrite Ep, H1, H2. reflexivity.
Qed.
Lemma live_no_news path ev : live_ok path ev -> news_in [ev] = [].
Proof. intros H. eapply message_no_news; [exact H|reflexivity|reflexivity]. Qed.
Lemma die_no_news path ev : die_ok path ev \/ die_bad path ev -> news_in [ev] = [].
Proof. intros [H|H]; (eapply message_no_news; [exact H|reflexivity|reflexivity]). Qed.
Lemma news_in_life path live l die : live_ok path live -> (die = [] \/ exists d, die = [d] /\ (die_ok path d \/ die_bad path d)) ->
  news_in (live :: l ++ die) = news_in l.
Proof.
  intros Hl Hd. change (live :: l ++ die) with ([live] ++ l ++ die). rewrite !news_in_app, (live_no_news path live Hl).
  assert (Ed : news_in die = []) by (destruct Hd as [->|(d & -> & Hd)]; [reflexivity|now apply (die_no_news path)]).
  rewrite Ed. cbn [app]. now rewrite app_nil_r.
Qed.

(** The runs [deep_on] leaves out do not exist: no run of the adapter on such a system is undefined. *)
Theorem C131_no_undefined_behaviour :
  forall e D F fuel path il, de_start e = dk_start D F -> dunprivileged e ->
    match snd (linux_watch (dsystem e) fuel path il []) with Ok _ | Fuel => True | _ => False end.
Proof.
  intros e D F fuel path il S U.
  destruct (linux_watch_session (dsystem e) true fuel path il []) as (a & b & c & r & rss & E & H & _).
  - intros t. apply U.
  - apply dsystem_kernel. eauto.
  - rewrite E. exact H.
Qed.
Print Assumptions C131_no_undefined_behaviour.

(** ** C131 *)
(** At any point [w] of any life of a watcher on [e]: either nothing is watched and only
    messages were received; or what the callback received is the live message, what the
    adapter gave it up to some point [a] of its run, and the die message if the life is over;
    the filesystem events and warnings of gaps among that tell of what the kernel kept of
    the changes so far, each once and in order ([rest]: what is still on the way).  Once
    close() has returned true the run is over, nothing more is received, and nothing is
    missing unless it was still in the kernel's queue. *)
Theorem C131_a_watchers_life :
  forall blk e il D F re w, de_start e = dk_start D F -> dunprivileged e -> reach (Linux blk) (deep_on e il) re constructed w ->
    (Forall (fun ev => ev_ptype ev = PtWatcher) (received (log w)) /\ (forall p, ~ In (LWatch p) (log w)) /\ (forall v, ~ In (LClosed v true) (log w))) \/
    exists path fuel a b, In (LWatch path) (log w) /\ drun e fuel path il = a ++ b /\
      (exists live die, received (log w) = live :: callbacks a ++ die /\ live_ok path live /\
         (die = [] \/ exists d, die = [d] /\ (die_ok path d \/ die_bad path d))) /\
      (exists rest, told_of (due (dstate e a)) (news_in (received (log w)) ++ rest)) /\
      forall l1 v l2, log w = l1 ++ LClosed v true :: l2 ->
        b = [] /\ received l2 = [] /\ (dk_queue (dstate e a) = [] -> told_of (due (dstate e a)) (news_in (received l1))).
Proof.
  intros blk e il D F re w S U R.
  destruct (whole_life _ (Linux blk) re w R) as [H|(path & dn & rest & r & Hin & Hr & (live & die & E & Hl & Hd & Hc))]; [left; exact H|right].
  destruct Hr as (fuel & o & out & Eo & Em & Hout). symmetry in Em. apply PropsWhole.map_split in Em as (a & b & -> & <- & <-).
  rewrite PropsWhole.received_acts in E. exists path, fuel, a, b.
  assert (Er : drun e fuel path il = a ++ b) by (unfold drun; now rewrite Eo).
  split; [exact Hin|]. split; [exact Er|]. split; [exists live, die; auto|]. split.
  - rewrite E, (news_in_life path live _ die Hl Hd), news_in_run. exact (deep_told e D F fuel path il S U a b Er).
  - intros l1 v l2 El. destruct (Hc _ _ _ El) as (Hb & _ & Hr & _). destruct b; [|discriminate Hb]. split; [reflexivity|]. split; [exact Hr|]. rewrite app_nil_r in *.
    assert (E1 : received l1 = live :: callbacks a ++ die) by (rewrite <- E, El, WatchFacts.received_app; cbn [received]; now rewrite Hr, app_nil_r).
    rewrite E1, (news_in_life path live _ die Hl Hd), news_in_run, <- Er. exact (deep_end e D F fuel path il S U).
Qed.
Print Assumptions C131_a_watchers_life.

Lemma deep_closed e fuel path : snd (linux_watch (dsystem e) fuel path 5 []) = Ok true ->
  let o := drun e fuel path 5 in
  let l1 := [LLook (Some path) (Some true); LCheck pending; LRequest; LReleased released; LCb (live_event true path 1); LWatch path] ++
    acts_log (map (act_of 5) o) ++ [LCb (die_event true path 2)] in
  exists w, reach (Linux true) (deep_on e 5) false constructed w /\ log w = l1 ++ [LClosed released true] /\ news_in (received l1) = news o.
Proof.
  intros H o l1.
  assert (R : deep_on e 5 path (map (act_of 5) o) (Some true)).
  { exists fuel, o, (Ok true). split; [|split; [reflexivity|eauto]]. unfold o, drun. destruct (linux_watch _ _ _ _ _) as [o' r]. cbn in H. now subst r. }
  eexists. split; [exact (full_life true _ false _ _ R)|]. split; [cbn [log]; unfold full_log, l1; rewrite <- !app_assoc; reflexivity|].
  unfold l1. rewrite !WatchFacts.received_app, PropsWhole.received_acts, !news_in_app, news_in_run.
  change (received [LLook (Some path) (Some true); LCheck pending; LRequest; LReleased released; LCb (live_event true path 1); LWatch path]) with [live_event true path 1].
  change (received [LCb (die_event true path 2)]) with [die_event true path 2].
  rewrite (live_no_news path) by (repeat split). rewrite (die_no_news path) by (left; repeat split). cbn [app]. now rewrite app_nil_r.
Qed.
(** Lives with all of that, closed with success: directories are moved (C122), records are lost (C124). *)
Example C131_example : exists w l1 v w' l1' v',
  dunprivileged moving /\ reach (Linux true) (deep_on moving 5) false constructed w /\ log w = l1 ++ [LClosed v true] /\ length (news_in (received l1)) = 5%nat /\
  dunprivileged PropsDeep.flood /\ reach (Linux true) (deep_on PropsDeep.flood 5) false constructed w' /\ log w' = l1' ++ [LClosed v' true] /\ In lost_warning (news_in (received l1')).
Proof.
  destruct (deep_closed moving 20 (lit "/w")) as (w & R & E & F); [vm_compute; reflexivity|].
  destruct (deep_closed PropsDeep.flood 20 (lit "/w")) as (w' & R' & E' & F'); [vm_compute; reflexivity|].
  exists w. eexists. exists released, w'. eexists. exists released. split; [intros k tr; discriminate|]. split; [exact R|]. split; [exact E|]. split; [rewrite F; vm_compute; reflexivity|].
  split; [intros k tr; discriminate|]. split; [exact R'|]. split; [exact E'|]. rewrite F'. vm_compute. tauto.
Qed.

(** ** C132: everything kept is reported before the watcher waits again, and before close() returns *)
(** [b]: what the adapter does after a wait, until the next one ([c]) or the end.  What the
    kernel kept of every change up to the wait, and every loss up to then, is told by then,
    if the records that wait fit into one read. *)
Theorem C132_reported_before_the_next_wait_partial :
  forall e D F fuel path il, de_start e = dk_start D F -> dunprivileged e -> dhonest e il ->
    forall a ep fds b c, drun e fuel path il = a ++ OEpollWait ep (Some fds) :: b ++ c ->
      (forall x, In x b -> ~ PropsWhole.is_wait_call x) -> (c = [] \/ exists x c', c = x :: c' /\ PropsWhole.is_wait_call x) ->
      (dwaiting (dat_call e a) <= N.to_nat 4096)%nat ->
      let o := a ++ OEpollWait ep (Some fds) :: b in
      (exists l l', news o = l ++ l' /\ told_of (due (dat_call e a)) l) /\
      ((0 < losses (dat_call e a))%nat -> In lost_warning (news o)).
Proof.
  intros e D F fuel path il S U Hh a ep fds b c E Hb Hc Hs. cbv zeta.
  assert (T : exists l l', news (a ++ OEpollWait ep (Some fds) :: b) = l ++ l' /\ told_of (due (dat_call e a)) l).
  { apply (dtold_by_next_wait e ltac:(eauto) fuel path il (fun tr => U _ tr) Hh a ep fds b c E); [| |exact Hs].
    - apply Forall_forall. intros x Hx. specialize (Hb x Hx). destruct x; try exact Coq.Init.Logic.I. apply Hb. red. eauto.
    - destruct Hc as [->|(x & c' & -> & ep' & r & ->)]; [now left|right; eauto]. }
  split; [exact T|]. intros L. destruct T as (l & l' & -> & T). apply in_app_iff. left. apply (told_gap _ _ T).
  assert (Fo : fates_ok (dat_call e a)).
  { apply always_at; [rewrite S; apply fates_start|intros; now apply fates_happen|intros; now apply fates_mark|intros; now apply fates_read]. }
  destruct Fo as [_ Fo]. unfold losses in L. destruct (filter is_lost (recorded (dat_call e a))) as [|[nt f] q] eqn:Q; [cbn in L; lia|].
  assert (X : In (nt, f) (filter is_lost (recorded (dat_call e a)))) by (rewrite Q; now left). apply filter_In in X as [X Y]. destruct f; try discriminate Y.
  exact (Fo _ _ X).
Qed.
Print Assumptions C132_reported_before_the_next_wait_partial.
(** When close() has returned true, the last wait of the adapter had seen the stop signal, which
    close() gives: what was changed before close() was called had happened by then. *)
Theorem C132_changes_before_close_are_reported_partial :
  forall blk e il D F re w, de_start e = dk_start D F -> dunprivileged e -> dhonest e il -> reach (Linux blk) (deep_on e il) re constructed w ->
    forall l1 v l2, log w = l1 ++ LClosed v true :: l2 ->
    exists path fuel a ep fds b, let o := drun e fuel path il in
      o = a ++ OEpollWait ep (Some fds) :: b /\ In il fds /\ (forall x, In x b -> ~ PropsWhole.is_wait_call x) /\
      In (LWatch path) (log w) /\ (exists live die, received l1 = live :: callbacks o ++ [die]) /\
      ((dwaiting (dat_call e a) <= N.to_nat 4096)%nat ->
       (exists l l', news_in (received l1) = l ++ l' /\ told_of (due (dat_call e a)) l) /\
       ((0 < losses (dat_call e a))%nat -> In lost_warning (news_in (received l1)))).
Proof.
  intros blk e il D F re w S U Hh R l1 v l2 El.
  destruct (whole_life _ (Linux blk) re w R) as [(_ & _ & H)|(path & dn & rest & r & Hin & Hr & (live & die & E & Hl & Hd & Hc))].
  { exfalso. apply (H v). rewrite El. apply in_elt. }
  destruct (Hc _ _ _ El) as (-> & -> & Hr2 & Hdie). destruct Hr as (fuel & o & out & Eo & Em & Hout). rewrite app_nil_r in Em. subst dn.
  rewrite PropsWhole.received_acts in E. destruct Hout as [(b0 & -> & [= <-])|[_ [=]]].
  destruct (C04_success_only_on_request _ _ _ _ _ _ Eo) as (a & ep & fds & b & Eab & Hil & Hb).
  assert (Er : drun e fuel path il = o) by (unfold drun; now rewrite Eo).
  assert (E1 : received l1 = live :: callbacks o ++ die) by (rewrite <- E, El, WatchFacts.received_app; cbn [received]; now rewrite Hr2, app_nil_r).
  assert (Hb' : forall x, In x b -> ~ PropsWhole.is_wait_call x) by (intros x Hx (ep' & r & ->); eapply Hb, Hx).
  exists path, fuel, a, ep, fds, b. cbv zeta. rewrite Er. split; [exact Eab|]. split; [exact Hil|]. split; [exact Hb'|]. split; [exact Hin|].
  split. { destruct Hd as [->|(d & -> & _)]; [now contradiction Hdie|]. exists live, d. exact E1. }
  intros Hs. rewrite E1, (news_in_life path live _ die Hl Hd), news_in_run.
  rewrite Eab. apply (C132_reported_before_the_next_wait_partial e D F fuel path il S U Hh a ep fds b []); [rewrite Er, app_nil_r; exact Eab|exact Hb'|now left|exact Hs].
Qed.
Print Assumptions C132_changes_before_close_are_reported_partial.

(** Systems in which the changes are made after the n-th wait, waits tell the truth
    about the records and, from the [n]-th on, about the stop descriptor 5. *)
Definition dtrue_base (n : nat) (k : dkern) : os :=
  let b := dfs_base [] k in {|
  os_now := os_now b; os_geteuid := os_geteuid b; os_realpath := os_realpath b; os_is_dir := os_is_dir b; os_opendir := os_opendir b;
  os_inotify_init := os_inotify_init b; os_add_watch := os_add_watch b; os_fan_init := os_fan_init b; os_fan_mark := os_fan_mark b;
  os_epoll_create := os_epoll_create b; os_epoll_ctl := os_epoll_ctl b;
  os_epoll_wait := fun tr _ => Some ((match dk_queue k with [] => [] | _ => [3%Z] end) ++ (if (n <=? count is_wait tr)%nat then [5%Z] else []));
  os_read := os_read b; os_open_handle := os_open_handle b; os_readlink := os_readlink b |}.
Definition dtrue (max : nat) (D F : list text) (n : nat) (ws : list (list dop)) : denv :=
  let e := dscripted max 256 D F [] ws in
  {| de_fd := de_fd e; de_max := de_max e; de_start := de_start e; de_ops := de_ops e; de_deny := de_deny e; de_want := de_want e; de_base := dtrue_base n |}.
Lemma dtrue_honest max D F n ws : dhonest (dtrue max D F n ws) 5.
Proof.
  constructor; [discriminate| |intros tr; apply Nat.le_refl].
  intros tr ep fds E Q. cbn [de_base dtrue os_epoll_wait dtrue_base] in E. injection E as <-.
  destruct (dk_queue _); [congruence|]. now left.
Qed.
Lemma dtrue_unpriv max D F n ws : dunprivileged (dtrue max D F n ws).
Proof. intros k tr. discriminate. Qed.
(** A directory is moved and records are lost just before close(). *)
Definition dlast : denv := dtrue 3 tree [] 1
  [[DMake false (lit "/w") (lit "a"); DMove true (lit "/w") (lit "d") (lit "/w/e") (lit "D"); DMake false (lit "/w/e/D") (lit "b"); DMake false (lit "/w") (lit "c")]].
Example C132_example : exists a ep b, drun dlast 20 (lit "/w") 5 = a ++ OEpollWait ep (Some [3; 5]%Z) :: b /\ dunprivileged dlast /\ dhonest dlast 5 /\
  (forall x, In x b -> ~ PropsWhole.is_wait_call x) /\ dwaiting (dat_call dlast a) = 112%nat /\ losses (dat_call dlast a) = 3%nat /\
  news (a ++ OEpollWait ep (Some [3; 5]%Z) :: b) =
    [Sh (lit "/w/a") EtCreate PtFile None; Sh (lit "/w/d") EtRename PtDir (Some (Sh (lit "/w/D") EtRename PtDir None)); lost_warning].
Proof.
  set (o := drun dlast 20 (lit "/w") 5).
  assert (X : o = firstn 23 o ++ OEpollWait 4 (Some [3; 5]%Z) :: skipn 24 o /\ forallb (fun x => negb (is_wait x)) (skipn 24 o) = true /\
    dwaiting (dat_call dlast (firstn 23 o)) = 112%nat /\ losses (dat_call dlast (firstn 23 o)) = 3%nat).
  { unfold o. split; [|split; [|split]]; vm_compute; reflexivity. }
  destruct X as (Eo & Hb & Hw & Hl). exists (firstn 23 o), 4%Z, (skipn 24 o). split; [exact Eo|]. split; [apply dtrue_unpriv|]. split; [apply dtrue_honest|]. split.
  { intros x Hx (ep & r & ->). rewrite forallb_forall in Hb. specialize (Hb _ Hx). discriminate Hb. }
  split; [exact Hw|]. split; [exact Hl|]. rewrite <- Eo. unfold o. vm_compute. reflexivity.
Qed.
Example C132_closed : exists w l1, reach (Linux true) (deep_on dlast 5) false constructed w /\ log w = l1 ++ [LClosed released true] /\ length (news_in (received l1)) = 3%nat.
Proof.
  destruct (deep_closed dlast 20 (lit "/w")) as (w & R & E & Ef); [vm_compute; reflexivity|].
  exists w. eexists. split; [exact R|]. split; [exact E|]. rewrite Ef. vm_compute. reflexivity.
Qed.

(** In general it is false.  Forty files with long names are made just before close(), which
    returns true; the kernel's queue has room for twenty records.  The user is told of
    fifteen, and never that anything was lost. *)
Definition drowned : denv := dtrue 20 tree [] 1 [map (fun i => DMake false (lit "/w") (PropsWhole.long_name i)) (seq 0 40)].
Lemma deep_late pl e fuel path a b : snd (linux_watch (dsystem e) fuel path 5 []) = Ok true -> drun e fuel path 5 = a ++ b ->
  ~ In AStop (map (act_of 5) a) ->
  let l1 := [LLook (Some path) (Some true); LCheck pending; LCb (live_event true path 1); LWatch path] ++ acts_log (map (act_of 5) a) in
  let l2 := LReleased released :: acts_log (map (act_of 5) b) ++ [LCb (die_event true path 2)] in
  exists w, reach pl (deep_on e 5) false constructed w /\ log w = l1 ++ LRequest :: l2 ++ [LClosed released true] /\
    received l1 = live_event true path 1 :: callbacks a /\ news_in (received (log w)) = news (a ++ b).
Proof.
  intros H E Hn l1 l2.
  assert (R : deep_on e 5 path (map (act_of 5) a ++ map (act_of 5) b) (Some true)).
  { exists fuel, (a ++ b), (Ok true). split; [|split; [now rewrite map_app|eauto]]. rewrite <- E. unfold drun. destruct (linux_watch _ _ _ _ _) as [o' r]. cbn in H. now subst r. }
  destruct (late_life pl _ false _ _ _ R Hn) as (m & Hr). eexists. split; [exact Hr|]. cbn [log]. unfold late_log. fold l1 l2. split; [reflexivity|].
  split; [unfold l1; rewrite WatchFacts.received_app, PropsWhole.received_acts; reflexivity|].
  rewrite !WatchFacts.received_app. unfold l1, l2. cbn [received app]. rewrite !WatchFacts.received_app. cbn [received]. rewrite !PropsWhole.received_acts, !app_nil_r.
  rewrite <- news_in_run, callbacks_app. cbn [app].
  match goal with |- news_in ?x = _ => replace x with (live_event true path 1 :: (callbacks a ++ callbacks b) ++ [die_event true path 2]) by (cbn [app]; now rewrite <- ?app_assoc) end.
  apply (news_in_life path); [repeat split|]. right. eexists. split; [reflexivity|]. left. repeat split.
Qed.
Lemma drowned_split : let o := drun drowned 20 (lit "/w") 5 in o = firstn 23 o ++ OEpollWait 4 (Some [3; 5]%Z) :: skipn 24 o.
Proof. vm_compute. reflexivity. Qed.
Lemma drowned_ends : snd (linux_watch (dsystem drowned) 20 (lit "/w") 5 []) = Ok true.
Proof. vm_compute. reflexivity. Qed.
Lemma drowned_quiet : existsb (fun a => match a with AStop => true | _ => false end) (map (act_of 5) (firstn 23 (drun drowned 20 (lit "/w") 5))) = false.
Proof. vm_compute. reflexivity. Qed.
Lemma drowned_lost : losses (dat_call drowned (firstn 23 (drun drowned 20 (lit "/w") 5))) = 20%nat.
Proof. vm_compute. reflexivity. Qed.
Lemma drowned_told : news (drun drowned 20 (lit "/w") 5) = map (fun i => Sh (InotifySpec.entry (lit "/w") (PropsWhole.long_name i)) EtCreate PtFile None) (seq 0 15).
Proof. vm_compute. reflexivity. Qed.
Lemma drowned_due : length (due (dat_call drowned (firstn 23 (drun drowned 20 (lit "/w") 5)))) = 21%nat.
Proof. vm_compute. reflexivity. Qed.
Theorem C132_changes_before_close_are_reported_refuted :
  exists e w l1 l2 a b, de_start e = dk_start tree [] /\ dunprivileged e /\ dhonest e 5 /\
    reach (Linux false) (deep_on e 5) false constructed w /\ log w = l1 ++ LRequest :: l2 ++ [LClosed released true] /\
    (* close() is called when the adapter has done [a] and is about to wait *)
    drun e 20 (lit "/w") 5 = a ++ OEpollWait 4 (Some [3; 5]%Z) :: b /\ received l1 = live_event true (lit "/w") 1 :: callbacks a /\
    losses (dat_call e a) = 20%nat /\ length (due (dat_call e a)) = 21%nat /\
    length (news_in (received (log w))) = 15%nat /\ ~ In lost_warning (news_in (received (log w))).
Proof.
  set (o := drun drowned 20 (lit "/w") 5).
  pose proof drowned_split as Ho. fold o in Ho. pose proof drowned_ends as Hok.
  destruct (deep_late (Linux false) drowned 20 (lit "/w") _ _ Hok Ho) as (w & R & E & Er & Ef).
  { intros H. assert (X : existsb (fun a => match a with AStop => true | _ => false end) (map (act_of 5) (firstn 23 o)) = true).
    { apply existsb_exists. exists AStop. split; [exact H|reflexivity]. } pose proof drowned_quiet as Y. fold o in Y. rewrite X in Y. discriminate Y. }
  rewrite <- Ho in Ef.
  exists drowned, w. eexists. eexists. exists (firstn 23 o), (skipn 24 o).
  split; [reflexivity|]. split; [apply dtrue_unpriv|]. split; [apply dtrue_honest|]. split; [exact R|]. split; [exact E|]. split; [exact Ho|]. split; [exact Er|].
  split; [exact drowned_lost|]. split; [exact drowned_due|]. rewrite Ef. pose proof drowned_told as Es. fold o in Es. rewrite Es, map_length, seq_length. clear. split; [reflexivity|].
  intros H. apply in_map_iff in H as (i & H & _). discriminate H.
Qed.
Print Assumptions C132_changes_before_close_are_reported_refuted.

(** Theorems C113 and C114: the whole library on Linux as root: class watch
    (include/wtr/watcher.hpp:2239-2282), its stop flag, the fanotify adapter (:873-1297), the
    kernel and a filesystem that others change ([FanWorldSpec]). *)
From Verif Require Import WatchFacts.
From Verif Require Import Base PathModel EventModel Sys SysFacts LinuxWatch LinuxSpec LinuxProps PropsLinux InotifySpec InotifyRun FanotifySpec ExampleOs FanWorldSpec FanWorldFacts
  FanWorldRun FanLifeSpec FanLife PropsFanWorld SemabinModel WatchModel WatchSpec WholeLife WatchExamples.
From Verif Require PropsWhole PropsKernel.

(** The runs of the adapter on the system [e], as class watch sees them; [il]: the stop descriptor. *)
Definition fan_on (e : fenv) (il : Z) (path : text) (st : list act) (r : option bool) : Prop :=
  exists fuel o out, linux_watch (system e) fuel path il [] = (o, out) /\ st = map (act_of il) o /\
    ((exists b, out = Ok b /\ r = Some b) \/ (out = Fuel /\ r = None)).
Lemma fan_linux e il path st r : fan_on e il path st r -> linux_runs path st r.
Proof. intros (fuel & o & out & H). exists (system e), fuel, il, [], o, out. exact H. Qed.
Lemma fan_on_ok e il : adapter_ok (fan_on e il).
Proof.
  destruct linux_adapter_ok as [Q S]. split.
  - intros abs st r ev H. apply (Q abs st r). now apply fan_linux in H.
  - intros abs st H. apply (S abs). now apply fan_linux in H.
Qed.
(** The filesystem events among these. *)
Definition files_told (l : list event) : list InotifySpec.shape := filter about_fs (map shape_of l).
Lemma files_told_app a b : files_told (a ++ b) = files_told a ++ files_told b.
Proof. unfold files_told. now rewrite map_app, filter_app. Qed.
Lemma files_told_run o : files_told (callbacks o) = fs_events o.
Proof. reflexivity. Qed.
Lemma files_told_message ev : ev_ptype ev = PtWatcher -> files_told [ev] = [].
Proof. destruct ev as [p f t n a]. cbn. intros ->. reflexivity. Qed.
Lemma files_told_life path live l die : live_ok path live -> (die = [] \/ exists d, die = [d] /\ (die_ok path d \/ die_bad path d)) ->
  files_told (live :: l ++ die) = files_told l.
Proof.
  intros Hl Hd. change (live :: l ++ die) with ([live] ++ l ++ die). rewrite !files_told_app.
  rewrite (files_told_message live) by (destruct Hl as (_ & _ & P & _); exact P).
  assert (Ed : files_told die = []).
  { destruct Hd as [->|(d & -> & [(_ & _ & P & _)|(_ & _ & P & _)])]; [reflexivity|apply files_told_message, P..]. }
  rewrite Ed. cbn [app]. now rewrite app_nil_r.
Qed.

(** The runs [fan_on] leaves out do not exist: no run of the adapter on such a system is undefined. *)
Theorem C113_fanotify_no_undefined_behaviour :
  forall e fuel path il, fenv_ok e -> match snd (linux_watch (system e) fuel path il []) with Ok _ | Fuel => True | _ => False end.
Proof.
  intros e fuel path il He. destruct (linux_watch (system e) fuel path il []) as [o r] eqn:E.
  destruct (run_facts e He fuel path il o r E) as (H & _). exact H.
Qed.
Print Assumptions C113_fanotify_no_undefined_behaviour.

(** ** C113 *)
(** At any point [w] of any life of a watcher on [e]: either nothing is watched and only messages were
    received; or what the callback received is the live message, what the adapter gave it up to some
    point [a] of its run, and the die message if the life is over.  What an event about a file tells
    had happened when it was sent.  And once close() has returned true the run is over, and every
    change in a watched directory is told by an event about that file, or its record was still in
    the queue, or was read in one batch after an end of a move that was directly before a beginning (as C107 says). *)
Theorem C113_fanotify_a_watchers_life :
  forall blk e il re w, fenv_ok e -> reach (Linux blk) (fan_on e il) re constructed w ->
    (files_told (received (log w)) = [] /\ (forall p, ~ In (LWatch p) (log w)) /\ (forall v, ~ In (LClosed v true) (log w))) \/
    exists path fuel a b, In (LWatch path) (log w) /\ fan_run e fuel path il = a ++ b /\
      (exists live die, received (log w) = live :: callbacks a ++ die /\ live_ok path live /\
         (die = [] \/ exists d, die = [d] /\ (die_ok path d \/ die_bad path d))) /\
      (forall a1 ev a2, a = a1 ++ OCallback ev :: a2 -> about_fs (shape_of ev) = true -> happened (fw_log (state e a1)) (shape_of ev)) /\
      forall l1 v l2, log w = l1 ++ LClosed v true :: l2 ->
        b = [] /\ received l2 = [] /\
        forall p k d, In (p, k, d) (fw_log (state e a)) ->
          (exists x, In x (files_told (received l1)) /\ mentions p x) \/ pending_for (state e a) p k d \/ behind_crossing (state e a) p k d.
Proof.
  intros blk e il re w He R.
  destruct (whole_life _ (Linux blk) re w R) as [(H & H2 & H3)|(path & dn & rest & r & Hin & Hr & (live & die & E & Hl & Hd & Hc))]; [left|right].
  { split; [|now split]. clear -H. induction H as [|ev l H _ IH]; [reflexivity|]. change (ev :: l) with ([ev] ++ l). rewrite files_told_app, IH, (files_told_message ev H). reflexivity. }
  destruct Hr as (fuel & o & out & Eo & Em & Hout). symmetry in Em. apply PropsWhole.map_split in Em as (a & b & -> & <- & <-).
  rewrite PropsWhole.received_acts in E. exists path, fuel, a, b.
  assert (Er : fan_run e fuel path il = a ++ b) by (unfold fan_run; now rewrite Eo).
  split; [exact Hin|]. split; [exact Er|]. split; [exists live, die; auto|]. split.
  - intros a1 ev a2 Ea. apply (run_sound e He fuel path il _ _ Eo a1 ev (a2 ++ b)). rewrite Ea, <- app_assoc. reflexivity.
  - intros l1 v l2 El. destruct (Hc _ _ _ El) as (Hb & _ & Hr & _). destruct b; [|discriminate Hb]. split; [reflexivity|]. split; [exact Hr|]. rewrite app_nil_r in *.
    assert (E1 : received l1 = live :: callbacks a ++ die) by (rewrite <- E, El, WatchFacts.received_app; cbn [received]; now rewrite Hr, app_nil_r).
    rewrite E1, (files_told_life path live _ die Hl Hd), files_told_run. exact (all_accounted e He fuel path il a out Eo).
Qed.
Print Assumptions C113_fanotify_a_watchers_life.

Lemma fan_closed e fuel path : snd (linux_watch (system e) fuel path 5 []) = Ok true ->
  let o := fan_run e fuel path 5 in
  let l1 := [LLook (Some path) (Some true); LCheck pending; LRequest; LReleased released; LCb (live_event true path 1); LWatch path] ++
    acts_log (map (act_of 5) o) ++ [LCb (die_event true path 2)] in
  exists w, reach (Linux true) (fan_on e 5) false constructed w /\ log w = l1 ++ [LClosed released true] /\ files_told (received l1) = fs_events o.
Proof.
  intros H o l1.
  assert (R : fan_on e 5 path (map (act_of 5) o) (Some true)).
  { exists fuel, o, (Ok true). split; [|split; [reflexivity|eauto]]. unfold o, fan_run. destruct (linux_watch _ _ _ _ _) as [o' r]. cbn in H. now subst r. }
  eexists. split; [exact (full_life true _ false _ _ R)|]. split; [cbn [log]; unfold full_log, l1; rewrite <- !app_assoc; reflexivity|].
  unfold l1. rewrite !WatchFacts.received_app, PropsWhole.received_acts, !files_told_app, files_told_run. cbn. now rewrite app_nil_r.
Qed.
(** A life with all of that: the busy system of C107, closed with success. *)
Example C113_example : exists w l1 v, fenv_ok busy_env /\ reach (Linux true) (fan_on busy_env 5) false constructed w /\ log w = l1 ++ [LClosed v true] /\
  length (files_told (received l1)) = 6%nat.
Proof.
  destruct (fan_closed busy_env 20 (lit "/w")) as (w & R & E & F); [vm_compute; reflexivity|].
  exists w. eexists. exists released. split; [exact busy_ok|]. split; [exact R|]. split; [exact E|]. rewrite F. vm_compute. reflexivity.
Qed.

(** ** C114: changes are reported before the watcher waits again, and before close() returns *)
(** The claim: a change in a watched directory is reported before the next wait, and so, if it was made before close()
    was called, before close() returns.  It holds if the records that wait fit into one read, except for
    changes read after an end of a move directly before a beginning (C107).  [b]: what the adapter does after a
    wait, until the next one ([c]) or the end. *)
Theorem C114_fanotify_reported_before_the_next_wait_partial :
  forall e fuel path il, fenv_ok e -> fan_honest e il ->
    forall a ep fds b c, fan_run e fuel path il = a ++ OEpollWait ep (Some fds) :: b ++ c ->
      (forall x, In x b -> ~ PropsWhole.is_wait_call x) -> (c = [] \/ exists x c', c = x :: c' /\ PropsWhole.is_wait_call x) ->
      (fan_waiting (at_call e a) <= 4095)%nat ->
      let o := a ++ OEpollWait ep (Some fds) :: b in
      (forall p k d, In (p, k, d) (fw_log (at_call e a)) -> (exists x, In x (fs_events o) /\ mentions p x) \/ behind_crossing (state e o) p k d) /\
      (Forall uncrossed (fw_batches (state e o)) -> forall p k d, In (p, k, d) (fw_log (at_call e a)) -> exists x, In x (fs_events o) /\ mentions p x) /\
      (no_renames e -> forall p k d, In (p, k, d) (fw_log (at_call e a)) -> exists x, In x (fs_events o) /\ told_as p k d x).
Proof.
  intros e fuel path il He Hh a ep fds b c E Hb Hc Hs o.
  destruct (mentioned_by_next_wait e He fuel path il Hh a ep fds b c E) as [X Y]; [| |exact Hs|].
  3: { split; [exact X|]. split; [|exact Y]. intros Hu p k d Hin. destruct (X p k d Hin) as [H|H]; [exact H|]. destruct (uncrossed_not_behind _ p k d Hu H). }
  - apply Forall_forall. intros x Hx. specialize (Hb x Hx). destruct x; try exact Coq.Init.Logic.I. apply Hb. red. eauto.
  - destruct Hc as [->|(x & c' & -> & ep' & r & ->)]; [now left|right; eauto].
Qed.
Print Assumptions C114_fanotify_reported_before_the_next_wait_partial.
(** When close() has returned true, the last wait of the adapter had seen the stop signal, which
    close() gives: what was changed before close() was called had happened by then. *)
Theorem C114_fanotify_changes_before_close_are_reported_partial :
  forall blk e il re w, fenv_ok e -> fan_honest e il -> reach (Linux blk) (fan_on e il) re constructed w ->
    forall l1 v l2, log w = l1 ++ LClosed v true :: l2 ->
    exists path fuel a ep fds b, let o := fan_run e fuel path il in
      o = a ++ OEpollWait ep (Some fds) :: b /\ In il fds /\ (forall x, In x b -> ~ PropsWhole.is_wait_call x) /\
      In (LWatch path) (log w) /\ (exists live die, received l1 = live :: callbacks o ++ [die]) /\
      ((fan_waiting (at_call e a) <= 4095)%nat ->
       (forall p k d, In (p, k, d) (fw_log (at_call e a)) ->
          (exists x, In x (files_told (received l1)) /\ mentions p x) \/ behind_crossing (state e o) p k d) /\
       (Forall uncrossed (fw_batches (state e o)) ->
          forall p k d, In (p, k, d) (fw_log (at_call e a)) -> exists x, In x (files_told (received l1)) /\ mentions p x) /\
       (no_renames e ->
          forall p k d, In (p, k, d) (fw_log (at_call e a)) -> exists x, In x (files_told (received l1)) /\ told_as p k d x)).
Proof.
  intros blk e il re w He Hh R l1 v l2 El.
  destruct (whole_life _ (Linux blk) re w R) as [(_ & _ & H)|(path & dn & rest & r & Hin & Hr & (live & die & E & Hl & Hd & Hc))].
  { exfalso. apply (H v). rewrite El. apply in_elt. }
  destruct (Hc _ _ _ El) as (-> & -> & Hr2 & Hdie). destruct Hr as (fuel & o & out & Eo & Em & Hout). rewrite app_nil_r in Em. subst dn.
  rewrite PropsWhole.received_acts in E. destruct Hout as [(b0 & -> & [= <-])|[_ [=]]].
  destruct (C04_success_only_on_request _ _ _ _ _ _ Eo) as (a & ep & fds & b & Eab & Hil & Hb).
  assert (Er : fan_run e fuel path il = o) by (unfold fan_run; now rewrite Eo).
  assert (E1 : received l1 = live :: callbacks o ++ die) by (rewrite <- E, El, WatchFacts.received_app; cbn [received]; now rewrite Hr2, app_nil_r).
  assert (Hb' : forall x, In x b -> ~ PropsWhole.is_wait_call x) by (intros x Hx (ep' & r & ->); eapply Hb, Hx).
  exists path, fuel, a, ep, fds, b. cbv zeta. rewrite Er. split; [exact Eab|]. split; [exact Hil|]. split; [exact Hb'|]. split; [exact Hin|].
  split. { destruct Hd as [->|(d & -> & _)]; [now contradiction Hdie|]. exists live, d. exact E1. }
  intros Hs. rewrite E1, (files_told_life path live _ die Hl Hd), files_told_run.
  rewrite Eab. apply (C114_fanotify_reported_before_the_next_wait_partial e fuel path il He Hh a ep fds b []); [rewrite Er, app_nil_r; exact Eab|exact Hb'|now left|exact Hs].
Qed.
Print Assumptions C114_fanotify_changes_before_close_are_reported_partial.

(** Systems in which the changes are made after the n-th wait, waits tell the truth
    about the records and, from the [n]-th on, about the stop descriptor 5. *)
Definition fan_true_base (n : nat) (w : fworld) : os :=
  let b := fan_base [] w in {|
  os_now := os_now b; os_geteuid := os_geteuid b; os_realpath := os_realpath b; os_is_dir := os_is_dir b; os_opendir := os_opendir b;
  os_inotify_init := os_inotify_init b; os_add_watch := os_add_watch b; os_fan_init := os_fan_init b; os_fan_mark := os_fan_mark b;
  os_epoll_create := os_epoll_create b; os_epoll_ctl := os_epoll_ctl b;
  os_epoll_wait := fun tr _ => Some ((match fw_queue w with [] => [] | _ => [3%Z] end) ++ (if (n <=? count is_wait tr)%nat then [5%Z] else []));
  os_read := os_read b; os_open_handle := os_open_handle b; os_readlink := os_readlink b |}.
Definition fan_true (D F : list text) (n : nat) (changes : list (list fop)) : fenv :=
  let e := fan_script D F changes in
  {| fe_fd := fe_fd e; fe_start := fe_start e; fe_ops := fe_ops e; fe_deny := fe_deny e; fe_want := fun _ => 300%nat; fe_base := fan_true_base n |}.
Lemma fan_true_honest D F n ws : fan_honest (fan_true D F n ws) 5.
Proof.
  constructor; [discriminate| |intros tr; apply Nat.leb_le; vm_compute; reflexivity].
  intros tr ep fds E Q. cbn [fe_base fan_true os_epoll_wait fan_true_base] in E. injection E as <-.
  destruct (fw_queue _); [congruence|]. now left.
Qed.
Lemma fan_true_ok F n c : (forall p, In p w_dirs -> ~ In p F) -> fenv_ok (fan_true w_dirs F n c).
Proof. intros H. destruct (fan_script_ok F c H) as [A B]. split; [exact A|exact B]. Qed.

(** Some changes just before close(). *)
Definition fan_last_minute : fenv := fan_true w_dirs [lit "/w/g"] 1
  [[FMake 7 false (lit "/w") (lit "a"); FWrite 8 (lit "/w") (lit "a"); FRename 7 (lit "/w") (lit "g") (lit "/w/d") (lit "h")]].
Lemma fan_last_ok : fenv_ok fan_last_minute.
Proof. apply fan_true_ok. intros p [<-|[<-|[<-|[]]]] [?|[]]; discriminate. Qed.
Example C114_example : exists a ep b, fan_run fan_last_minute 20 (lit "/w") 5 = a ++ OEpollWait ep (Some [3; 5]%Z) :: b /\
  (forall x, In x b -> ~ PropsWhole.is_wait_call x) /\ fan_waiting (at_call fan_last_minute a) = 224%nat /\
  length (fw_log (at_call fan_last_minute a)) = 4%nat /\ let o := a ++ OEpollWait ep (Some [3; 5]%Z) :: b in
  Forall uncrossed (fw_batches (state fan_last_minute o)) /\
  fs_events o = [Sh (lit "/w/a") EtCreate PtFile None; Sh (lit "/w/a") EtModify PtFile None;
    Sh (lit "/w/g") EtRename PtFile (Some (Sh (lit "/w/d/h") EtRename PtFile None))].
Proof.
  set (o := fan_run fan_last_minute 20 (lit "/w") 5).
  assert (X : exists n, o = firstn n o ++ OEpollWait 4 (Some [3; 5]%Z) :: skipn (S n) o /\ forallb (fun x => negb (is_wait x)) (skipn (S n) o) = true /\
    fan_waiting (at_call fan_last_minute (firstn n o)) = 224%nat /\ length (fw_log (at_call fan_last_minute (firstn n o))) = 4%nat).
  { exists 17%nat. unfold o. split; [|split; [|split]]; vm_compute; reflexivity. }
  destruct X as (n & Eo & Hb & Hw & Hl). exists (firstn n o), 4%Z, (skipn (S n) o). split; [exact Eo|]. split.
  { intros x Hx (ep & r & ->). rewrite forallb_forall in Hb. specialize (Hb _ Hx). discriminate Hb. }
  split; [exact Hw|]. split; [exact Hl|]. cbv zeta. rewrite <- Eo. split; [|unfold o; vm_compute; reflexivity].
  set (bs := fw_batches _). unfold o in bs. vm_compute in bs. subst bs. repeat constructor; unfold crossed; cbn; intros (H1 & H2 & H3 & H4); try discriminate H1; try discriminate H2; discriminate H3.
Qed.

(** In general it is false: forty files with long names are made just before close(), which returns
    true; only one read's worth of them is reported. *)
Definition fan_flood : fenv := fan_true w_dirs [] 1 [map (fun i => FMake 7 false (lit "/w") (PropsWhole.long_name i)) (seq 0 40)].
Lemma fan_late pl e fuel path a b : snd (linux_watch (system e) fuel path 5 []) = Ok true -> fan_run e fuel path 5 = a ++ b ->
  ~ In AStop (map (act_of 5) a) ->
  let l1 := [LLook (Some path) (Some true); LCheck pending; LCb (live_event true path 1); LWatch path] ++ acts_log (map (act_of 5) a) in
  let l2 := LReleased released :: acts_log (map (act_of 5) b) ++ [LCb (die_event true path 2)] in
  exists w, reach pl (fan_on e 5) false constructed w /\ log w = l1 ++ LRequest :: l2 ++ [LClosed released true] /\
    received l1 = live_event true path 1 :: callbacks a /\ files_told (received (log w)) = fs_events (a ++ b).
Proof.
  intros H E Hn l1 l2.
  assert (R : fan_on e 5 path (map (act_of 5) a ++ map (act_of 5) b) (Some true)).
  { exists fuel, (a ++ b), (Ok true). split; [|split; [now rewrite map_app|eauto]]. rewrite <- E. unfold fan_run. destruct (linux_watch _ _ _ _ _) as [o' r]. cbn in H. now subst r. }
  destruct (late_life pl _ false _ _ _ R Hn) as (m & Hr). eexists. split; [exact Hr|]. cbn [log]. unfold late_log. fold l1 l2. split; [reflexivity|].
  split; [unfold l1; rewrite WatchFacts.received_app, PropsWhole.received_acts; reflexivity|].
  rewrite !WatchFacts.received_app. unfold l1, l2. cbn [received app]. rewrite !WatchFacts.received_app. cbn [received]. rewrite !PropsWhole.received_acts, !app_nil_r.
  rewrite <- files_told_run, callbacks_app, !files_told_app.
  change (live_event true path 1 :: callbacks a ++ callbacks b ++ [die_event true path 2]) with ([live_event true path 1] ++ callbacks a ++ callbacks b ++ [die_event true path 2]).
  rewrite !files_told_app. cbn. now rewrite app_nil_r.
Qed.
Lemma flood_split : let o := fan_run fan_flood 20 (lit "/w") 5 in o = firstn 17 o ++ OEpollWait 4 (Some [3; 5]%Z) :: skipn 18 o.
Proof. vm_compute. reflexivity. Qed.
Lemma flood_ends : snd (linux_watch (system fan_flood) 20 (lit "/w") 5 []) = Ok true.
Proof. vm_compute. reflexivity. Qed.
Lemma flood_quiet : existsb (fun a => match a with AStop => true | _ => false end) (map (act_of 5) (firstn 17 (fan_run fan_flood 20 (lit "/w") 5))) = true -> False.
Proof. assert (E : existsb (fun a => match a with AStop => true | _ => false end) (map (act_of 5) (firstn 17 (fan_run fan_flood 20 (lit "/w") 5))) = false) by (vm_compute; reflexivity). rewrite E. discriminate. Qed.
Lemma flood_log : fw_log (at_call fan_flood (firstn 17 (fan_run fan_flood 20 (lit "/w") 5))) = map (fun i => (at_path (lit "/w") (PropsWhole.long_name i), FCreate, false)) (seq 0 40).
Proof. vm_compute. reflexivity. Qed.
Lemma flood_told : fs_events (fan_run fan_flood 20 (lit "/w") 5) = map (fun i => Sh (at_path (lit "/w") (PropsWhole.long_name i)) EtCreate PtFile None) (seq 0 13).
Proof. vm_compute. reflexivity. Qed.
Theorem C114_fanotify_changes_before_close_are_reported_refuted :
  exists e w l1 l2 a b lost, fenv_ok e /\ fan_honest e 5 /\ no_renames e /\
    reach (Linux false) (fan_on e 5) false constructed w /\ log w = l1 ++ LRequest :: l2 ++ [LClosed released true] /\
    (* close() is called when the adapter has done [a] and is about to wait *)
    fan_run e 20 (lit "/w") 5 = a ++ OEpollWait 4 (Some [3; 5]%Z) :: b /\ received l1 = live_event true (lit "/w") 1 :: callbacks a /\
    In (lost, FCreate, false) (fw_log (at_call e a)) /\
    (forall x, In x (files_told (received (log w))) -> ~ mentions lost x) /\
    length (fw_log (at_call e a)) = 40%nat /\ length (files_told (received (log w))) = 13%nat.
Proof.
  set (o := fan_run fan_flood 20 (lit "/w") 5).
  pose proof flood_split as Ho. fold o in Ho. pose proof flood_ends as Hok.
  destruct (fan_late (Linux false) fan_flood 20 (lit "/w") _ _ Hok Ho) as (w & R & E & Er & Ef).
  { intros H. assert (X : existsb (fun a => match a with AStop => true | _ => false end) (map (act_of 5) (firstn 17 o)) = true).
    { apply existsb_exists. exists AStop. split; [exact H|reflexivity]. } exact (flood_quiet X). }
  rewrite <- Ho in Ef.
  exists fan_flood, w. eexists. eexists. exists (firstn 17 o), (skipn 18 o), (at_path (lit "/w") (PropsWhole.long_name 39)).
  split; [apply fan_true_ok; intros p _ []|]. split; [apply fan_true_honest|].
  split. { unfold no_renames. apply (script_ops w_dirs [] [map (fun i => FMake 7 false (lit "/w") (PropsWhole.long_name i)) (seq 0 40)]). constructor; [|constructor].
    apply Forall_forall. intros x Hx. apply in_map_iff in Hx as (i & <- & _). exact Coq.Init.Logic.I. }
  split; [exact R|]. split; [exact E|]. split; [exact Ho|]. split; [exact Er|]. rewrite Ef.
  assert (Eo : fw_log (at_call fan_flood (firstn 17 o)) = map (fun i => (at_path (lit "/w") (PropsWhole.long_name i), FCreate, false)) (seq 0 40)) by exact flood_log.
  assert (Es : fs_events o = map (fun i => Sh (at_path (lit "/w") (PropsWhole.long_name i)) EtCreate PtFile None) (seq 0 13)) by exact flood_told.
  rewrite Eo, Es, !map_length, !seq_length. clear. split; [apply in_map_iff; exists 39%nat; split; [reflexivity|apply in_seq; lia]|].
  split; [|split; reflexivity]. intros s Hs. apply in_map_iff in Hs as (i & <- & Hi). apply in_seq in Hi.
  assert (Hd : forallb (fun i => negb (text_eqb (at_path (lit "/w") (PropsWhole.long_name i)) (at_path (lit "/w") (PropsWhole.long_name 39)))) (seq 0 13) = true) by (vm_compute; reflexivity).
  rewrite forallb_forall in Hd. specialize (Hd i ltac:(apply in_seq; lia)). intros [Heq|(q & f & t & x & Heq & _)]; [|discriminate Heq].
  rewrite Heq in Hd. rewrite text_eqb_refl in Hd. discriminate Hd.
Qed.
Print Assumptions C114_fanotify_changes_before_close_are_reported_refuted.
Example C114_closed : exists w l1, fenv_ok fan_last_minute /\ fan_honest fan_last_minute 5 /\
  reach (Linux true) (fan_on fan_last_minute 5) false constructed w /\ log w = l1 ++ [LClosed released true] /\ length (files_told (received l1)) = 3%nat.
Proof.
  destruct (fan_closed fan_last_minute 20 (lit "/w")) as (w & R & E & Ef); [vm_compute; reflexivity|].
  exists w. eexists. split; [exact fan_last_ok|]. split; [apply fan_true_honest|]. split; [exact R|]. split; [exact E|]. rewrite Ef. vm_compute. reflexivity.
Qed.

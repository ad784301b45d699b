(** Theorems C148 and C149: the whole library on Linux as root (as C113, C114), while directories
    come and go and are moved ([FanDeepSpec]). *)
From Verif Require Import WatchFacts.
From Verif Require Import Base PathModel EventModel Sys SysFacts LinuxWatch LinuxSpec LinuxProps PropsLinux InotifySpec InotifyRun FanotifySpec ExampleOs FanWorldSpec
  FanDeepSpec FanDeepFacts FanDeepRun FanDeepLifeSpec FanDeepLife PropsFanDeep SemabinModel WatchModel WatchSpec WholeLife WatchExamples.
From Verif Require PropsWhole PropsKernel PropsFanWhole.
Notation files_told := PropsFanWhole.files_told.

(** The runs of the adapter on the system [e], as class watch sees them; [il]: the stop descriptor. *)
Definition deep_on (e : genv) (il : Z) (path : text) (st : list act) (r : option bool) : Prop :=
  exists fuel o out, linux_watch (gsystem e) fuel path il [] = (o, out) /\ st = map (act_of il) o /\
    ((exists b, out = Ok b /\ r = Some b) \/ (out = Fuel /\ r = None)).
Lemma deep_linux e il path st r : deep_on e il path st r -> linux_runs path st r.
Proof. intros (fuel & o & out & H). exists (gsystem e), fuel, il, [], o, out. exact H. Qed.
Lemma deep_on_ok e il : adapter_ok (deep_on e il).
Proof.
  destruct linux_adapter_ok as [Q S]. split.
  - intros abs st r ev H. apply (Q abs st r). now apply deep_linux in H.
  - intros abs st H. apply (S abs). now apply deep_linux in H.
Qed.

(** The runs [deep_on] leaves out do not exist: no run of the adapter on such a system is undefined. *)
Theorem C148_fanotify_no_undefined_behaviour :
  forall e fuel path il, genv_ok e -> match snd (linux_watch (gsystem e) fuel path il []) with Ok _ | Fuel => True | _ => False end.
Proof.
  intros e fuel path il He. destruct (watch_went e He fuel path il) as (a & b & c & r' & E & H & _). rewrite E. exact H.
Qed.
Print Assumptions C148_fanotify_no_undefined_behaviour.

(** ** C148 *)
(** At any point [w] of any life of a watcher on [e]: either nothing is watched and only messages were
    received; or what the callback received is the live message, what the adapter gave it up to some
    point [a] of its run, and the die message if the life is over.  An event about a file tells of
    a change that happened, with a path its directory had since the records were last read (as C145).
    And once close() has returned true the run is over, and every change whose record was
    kept is told, or waited to be read, or was cut (as C146 says; not if the run is steady and all
    batches are tidy). *)
Theorem C148_fanotify_a_watchers_life_among_moving_directories :
  forall blk e il re w, genv_ok e -> reach (Linux blk) (deep_on e il) re constructed w ->
    (files_told (received (log w)) = [] /\ (forall p, ~ In (LWatch p) (log w)) /\ (forall v, ~ In (LClosed v true) (log w))) \/
    exists path fuel a b, In (LWatch path) (log w) /\ deep_run e fuel path il = a ++ b /\
      (exists live die, received (log w) = live :: callbacks a ++ die /\ live_ok path live /\
         (die = [] \/ exists d, die = [d] /\ (die_ok path d \/ die_bad path d))) /\
      (forall a1 ev a2, a = a1 ++ OCallback ev :: a2 -> about_fs (shape_of ev) = true -> truly e a1 (shape_of ev)) /\
      forall l1 v l2, log w = l1 ++ LClosed v true :: l2 ->
        b = [] /\ received l2 = [] /\ files_told (received l1) = fs_events a /\
        forall i n k d, In (Did i n k d true) (gw_log (gstate e a)) ->
          mentioned e [] a i n \/ still_pending (gstate e a) i n k d \/ cut e a i n k d.
Proof.
  intros blk e il re w He R.
  destruct (whole_life _ (Linux blk) re w R) as [(H & H2 & H3)|(path & dn & rest & r & Hin & Hr & (live & die & E & Hl & Hd & Hc))]; [left|right].
  { split; [|now split]. clear -H. induction H as [|ev l H _ IH]; [reflexivity|]. change (ev :: l) with ([ev] ++ l). rewrite PropsFanWhole.files_told_app, IH, (PropsFanWhole.files_told_message ev H). reflexivity. }
  destruct Hr as (fuel & o & out & Eo & Em & Hout). symmetry in Em. apply PropsWhole.map_split in Em as (a & b & -> & <- & <-).
  rewrite PropsWhole.received_acts in E. exists path, fuel, a, b.
  assert (Er : deep_run e fuel path il = a ++ b) by (unfold deep_run; now rewrite Eo).
  split; [exact Hin|]. split; [exact Er|]. split; [exists live, die; auto|]. split.
  - intros a1 ev a2 Ea. apply (all_truly e He fuel path il _ _ Eo a1 ev (a2 ++ b)). rewrite Ea, <- app_assoc. reflexivity.
  - intros l1 v l2 El. destruct (Hc _ _ _ El) as (Hb & _ & Hr & _). destruct b; [|discriminate Hb]. split; [reflexivity|]. split; [exact Hr|]. rewrite app_nil_r in *.
    assert (E1 : received l1 = live :: callbacks a ++ die) by (rewrite <- E, El, WatchFacts.received_app; cbn [received]; now rewrite Hr, app_nil_r).
    split; [rewrite E1, (PropsFanWhole.files_told_life path live _ die Hl Hd), PropsFanWhole.files_told_run; reflexivity|].
    exact (all_accounted e He fuel path il a out Eo).
Qed.
Print Assumptions C148_fanotify_a_watchers_life_among_moving_directories.

(** A watcher that is closed when its run is over: the callback has got the run's events. *)
Lemma deep_closed e fuel path : snd (linux_watch (gsystem e) fuel path 5 []) = Ok true ->
  let o := deep_run e fuel path 5 in
  let l1 := [LLook (Some path) (Some true); LCheck pending; LRequest; LReleased released; LCb (live_event true path 1); LWatch path] ++
    acts_log (map (act_of 5) o) ++ [LCb (die_event true path 2)] in
  exists w, reach (Linux true) (deep_on e 5) false constructed w /\ log w = l1 ++ [LClosed released true] /\ files_told (received l1) = fs_events o.
Proof.
  intros H o l1.
  assert (R : deep_on e 5 path (map (act_of 5) o) (Some true)).
  { exists fuel, o, (Ok true). split; [|split; [reflexivity|eauto]]. unfold o, deep_run. destruct (linux_watch _ _ _ _ _) as [o' r]. cbn in H. now subst r. }
  eexists. split; [exact (full_life true _ false _ _ R)|]. split; [cbn [log]; unfold full_log, l1; rewrite <- !app_assoc; reflexivity|].
  unfold l1. rewrite !WatchFacts.received_app, PropsWhole.received_acts, !PropsFanWhole.files_told_app, PropsFanWhole.files_told_run. cbn. now rewrite app_nil_r.
Qed.
(** A life with all of that: the lively system of C146, closed with success. *)
Example C148_example : exists w l1 v, genv_ok lively_env /\ reach (Linux true) (deep_on lively_env 5) false constructed w /\ log w = l1 ++ [LClosed v true] /\
  let o := deep_run lively_env 20 (lit "/w") 5 in steady lively_env [] o /\ Forall tidy (gw_batches (gstate lively_env o)) /\
  length (gw_log (gstate lively_env o)) = 8%nat /\ files_told (received l1) = fs_events o /\ length (fs_events o) = 6%nat.
Proof.
  destruct (deep_closed lively_env 20 (lit "/w")) as (w & R & E & F); [vm_compute; reflexivity|].
  destruct C146_example as (_ & S & T & L & _ & V). cbv zeta in *.
  exists w. eexists. exists released. split; [apply deep_script_ok|]. split; [exact R|]. split; [exact E|]. split; [exact S|]. split; [exact T|].
  rewrite L, V. split; [reflexivity|]. split; [rewrite F; exact V|reflexivity].
Qed.

(** ** C149 *)
(** The claim: a change in a watched directory is reported before the next wait, and so, if it was made before close()
    was called, before close() returns.  It holds of a change whose record was kept, if the records that
    wait fit into one read, unless it was cut (as C146 says; not if the run so far is steady and all
    batches are tidy).  [b]: what the adapter
    does after a wait, until the next one ([c]) or the end. *)
Theorem C149_fanotify_reported_before_the_next_wait_partial :
  forall e fuel path il, genv_ok e -> deep_honest e il ->
    forall a ep fds b c, deep_run e fuel path il = a ++ OEpollWait ep (Some fds) :: b ++ c ->
      (forall x, In x b -> ~ PropsWhole.is_wait_call x) -> (c = [] \/ exists x c', c = x :: c' /\ PropsWhole.is_wait_call x) ->
      (deep_waiting (gat_call e a) <= 4095)%nat ->
      let o := a ++ OEpollWait ep (Some fds) :: b in
      (forall i n k d, In (Did i n k d true) (gw_log (gat_call e a)) -> mentioned e [] o i n \/ cut e o i n k d) /\
      (steady e [] o -> Forall tidy (gw_batches (gstate e o)) ->
       forall i n k d, In (Did i n k d true) (gw_log (gat_call e a)) -> mentioned e [] o i n).
Proof.
  intros e fuel path il He Hh a ep fds b c E Hb Hc Hs o.
  assert (X : forall i n k d, In (Did i n k d true) (gw_log (gat_call e a)) -> mentioned e [] o i n \/ cut e o i n k d).
  2: { split; [exact X|]. intros S T i n k d Hin. destruct (X i n k d Hin) as [H|H]; [exact H|]. destruct (steady_not_cut e o i n k d S T H). }
  apply (told_by_next_wait e He fuel path il Hh a ep fds b c E); [| |exact Hs].
  - apply Forall_forall. intros x Hx. specialize (Hb x Hx). destruct x; try exact Coq.Init.Logic.I. apply Hb. red. eauto.
  - destruct Hc as [->|(x & c' & -> & ep' & r & ->)]; [now left|right; eauto].
Qed.
Print Assumptions C149_fanotify_reported_before_the_next_wait_partial.
(** When close() has returned true, the last wait of the adapter had seen the stop signal, which
    close() gives: what was changed before close() was called had happened by then, and the
    callback has got all of the run's events. *)
Theorem C149_fanotify_changes_before_close_are_reported_partial :
  forall blk e il re w, genv_ok e -> deep_honest e il -> reach (Linux blk) (deep_on e il) re constructed w ->
    forall l1 v l2, log w = l1 ++ LClosed v true :: l2 ->
    exists path fuel a ep fds b, let o := deep_run e fuel path il in
      o = a ++ OEpollWait ep (Some fds) :: b /\ In il fds /\ (forall x, In x b -> ~ PropsWhole.is_wait_call x) /\
      In (LWatch path) (log w) /\ (exists live die, received l1 = live :: callbacks o ++ [die]) /\ files_told (received l1) = fs_events o /\
      ((deep_waiting (gat_call e a) <= 4095)%nat ->
       (forall i n k d, In (Did i n k d true) (gw_log (gat_call e a)) -> mentioned e [] o i n \/ cut e o i n k d) /\
       (steady e [] o -> Forall tidy (gw_batches (gstate e o)) ->
        forall i n k d, In (Did i n k d true) (gw_log (gat_call e a)) -> mentioned e [] o i n)).
Proof.
  intros blk e il re w He Hh R l1 v l2 El.
  destruct (whole_life _ (Linux blk) re w R) as [(_ & _ & H)|(path & dn & rest & r & Hin & Hr & (live & die & E & Hl & Hd & Hc))].
  { exfalso. apply (H v). rewrite El. apply in_elt. }
  destruct (Hc _ _ _ El) as (-> & -> & Hr2 & Hdie). destruct Hr as (fuel & o & out & Eo & Em & Hout). rewrite app_nil_r in Em. subst dn.
  rewrite PropsWhole.received_acts in E. destruct Hout as [(b0 & -> & [= <-])|[_ [=]]].
  destruct (C04_success_only_on_request _ _ _ _ _ _ Eo) as (a & ep & fds & b & Eab & Hil & Hb).
  assert (Er : deep_run e fuel path il = o) by (unfold deep_run; now rewrite Eo).
  assert (E1 : received l1 = live :: callbacks o ++ die) by (rewrite <- E, El, WatchFacts.received_app; cbn [received]; now rewrite Hr2, app_nil_r).
  assert (Hb' : forall x, In x b -> ~ PropsWhole.is_wait_call x) by (intros x Hx (ep' & r & ->); eapply Hb, Hx).
  exists path, fuel, a, ep, fds, b. cbv zeta. rewrite Er. split; [exact Eab|]. split; [exact Hil|]. split; [exact Hb'|]. split; [exact Hin|].
  split. { destruct Hd as [->|(d & -> & _)]; [now contradiction Hdie|]. exists live, d. exact E1. }
  split; [rewrite E1, (PropsFanWhole.files_told_life path live _ die Hl Hd), PropsFanWhole.files_told_run; reflexivity|].
  intros Hs. rewrite Eab. apply (C149_fanotify_reported_before_the_next_wait_partial e fuel path il He Hh a ep fds b []); [rewrite Er, app_nil_r; exact Eab|exact Hb'|now left|exact Hs].
Qed.
Print Assumptions C149_fanotify_changes_before_close_are_reported_partial.

(** Systems in which the changes are made after the n-th wait, waits tell the truth
    about the records and, from the [n]-th on, about the stop descriptor 5. *)
Definition deep_true_base (n : nat) (w : gworld) : os :=
  let b := deep_base [] w in {|
  os_now := os_now b; os_geteuid := os_geteuid b; os_realpath := os_realpath b; os_is_dir := os_is_dir b; os_opendir := os_opendir b;
  os_inotify_init := os_inotify_init b; os_add_watch := os_add_watch b; os_fan_init := os_fan_init b; os_fan_mark := os_fan_mark b;
  os_epoll_create := os_epoll_create b; os_epoll_ctl := os_epoll_ctl b;
  os_epoll_wait := fun tr _ => Some ((match gw_queue w with [] => [] | _ => [3%Z] end) ++ (if (n <=? count is_wait tr)%nat then [5%Z] else []));
  os_read := os_read b; os_open_handle := os_open_handle b; os_readlink := os_readlink b |}.
Definition deep_true (F : list text) (n : nat) (changes : list (list gop)) : genv :=
  let e := deep_script 100 F changes [] in
  {| ge_fd := ge_fd e; ge_max := ge_max e; ge_start := ge_start e; ge_ops := ge_ops e; ge_deny := ge_deny e; ge_want := fun _ => 300%nat; ge_base := deep_true_base n |}.
Lemma deep_true_honest F n ws : deep_honest (deep_true F n ws) 5.
Proof.
  constructor; [discriminate| |intros tr; apply Nat.leb_le; vm_compute; reflexivity].
  intros tr ep fds E Q. cbn [ge_base deep_true os_epoll_wait deep_true_base] in E. injection E as <-.
  destruct (gw_queue _); [congruence|]. now left.
Qed.
Lemma deep_true_ok F n c : genv_ok (deep_true F n c).
Proof. destruct (deep_script_ok 100 F c []) as [A B]. split; [exact A|exact B]. Qed.

(** Some changes just before close(): a file is written, and its directory renamed. *)
Definition deep_last_minute : genv := deep_true [lit "/w/d/f"] 1
  [[GWrite 7 (lit "/w/d") (lit "f"); GMove 8 true (lit "/w") (lit "d") (lit "/o") (lit "e")]].
Example C149_example : exists a ep b, deep_run deep_last_minute 20 (lit "/w") 5 = a ++ OEpollWait ep (Some [3; 5]%Z) :: b /\
  (forall x, In x b -> ~ PropsWhole.is_wait_call x) /\ (0 < deep_waiting (gat_call deep_last_minute a) <= 4095)%nat /\
  gw_log (gat_call deep_last_minute a) = [Did 1 (lit "f") FModify false true; Did 0 (lit "d") FFrom true true] /\ let o := a ++ OEpollWait ep (Some [3; 5]%Z) :: b in
  steady deep_last_minute [] o /\ Forall tidy (gw_batches (gstate deep_last_minute o)) /\
  fs_events o = [Sh (lit "/o/e/f") EtModify PtFile None; Sh (lit "/w/d") EtRename PtDir None].
Proof.
  set (o := deep_run deep_last_minute 20 (lit "/w") 5).
  assert (X : exists n, o = firstn n o ++ OEpollWait 4 (Some [3; 5]%Z) :: skipn (S n) o /\ forallb (fun x => negb (is_wait x)) (skipn (S n) o) = true /\
    ((0 <? deep_waiting (gat_call deep_last_minute (firstn n o))) && (deep_waiting (gat_call deep_last_minute (firstn n o)) <=? 4095))%nat = true /\
    gw_log (gat_call deep_last_minute (firstn n o)) = [Did 1 (lit "f") FModify false true; Did 0 (lit "d") FFrom true true]).
  { exists 17%nat. unfold o. split; [|split; [|split]]; vm_compute; reflexivity. }
  destruct X as (n & Eo & Hb & Hw & Hl). exists (firstn n o), 4%Z, (skipn (S n) o). split; [exact Eo|]. split.
  { intros x Hx (ep & r & ->). rewrite forallb_forall in Hb. specialize (Hb _ Hx). discriminate Hb. }
  apply andb_true_iff in Hw as [Hw1 Hw2]. apply Nat.ltb_lt in Hw1. apply Nat.leb_le in Hw2.
  split; [lia|]. split; [exact Hl|]. cbv zeta. rewrite <- Eo. split; [|split; [|unfold o; vm_compute; reflexivity]].
  - apply (steady_all_there _ (deep_true_ok _ _ _)). vm_compute. reflexivity.
  - set (b := gw_batches _). assert (Eb : exists l, b = map (map Chg) l /\ Forall uncrossed l).
    { set (l := map (flat_map (fun x => match x with Chg r => [r] | Ovf => [] end)) b). exists l. split; [vm_compute; reflexivity|].
      vm_compute in l. subst l. repeat constructor; unfold crossed; cbn; intros (H1 & H2 & H3 & H4); discriminate. }
    destruct Eb as (l & -> & Hl'). apply Forall_map. eapply Forall_impl; [|exact Hl']. intros r Hr. exists r, []. rewrite app_nil_r. auto.
Qed.
Example C149_closed : exists w l1, genv_ok deep_last_minute /\ deep_honest deep_last_minute 5 /\
  reach (Linux true) (deep_on deep_last_minute 5) false constructed w /\ log w = l1 ++ [LClosed released true] /\ length (files_told (received l1)) = 2%nat.
Proof.
  destruct (deep_closed deep_last_minute 20 (lit "/w")) as (w & R & E & Ef); [vm_compute; reflexivity|].
  exists w. eexists. split; [apply deep_true_ok|]. split; [apply deep_true_honest|]. split; [exact R|]. split; [exact E|]. rewrite Ef. vm_compute. reflexivity.
Qed.

(** In general it is false: just before close() a directory is removed with the file in it, and then
    another file written; close() returns true, and the callback has got nothing about any of them. *)
Definition deep_gone : genv := deep_true [lit "/w/d/f"; lit "/w/g"] 1
  [[GRemove 7 (lit "/w/d") (lit "f"); GRmdir 7 (lit "/w") (lit "d"); GWrite 8 (lit "/w") (lit "g")]].
Lemma deep_late pl e fuel path a b : snd (linux_watch (gsystem e) fuel path 5 []) = Ok true -> deep_run e fuel path 5 = a ++ b ->
  ~ In AStop (map (act_of 5) a) ->
  let l1 := [LLook (Some path) (Some true); LCheck pending; LCb (live_event true path 1); LWatch path] ++ acts_log (map (act_of 5) a) in
  let l2 := LReleased released :: acts_log (map (act_of 5) b) ++ [LCb (die_event true path 2)] in
  exists w, reach pl (deep_on e 5) false constructed w /\ log w = l1 ++ LRequest :: l2 ++ [LClosed released true] /\
    received l1 = live_event true path 1 :: callbacks a /\ files_told (received (log w)) = fs_events (a ++ b).
Proof.
  intros H E Hn l1 l2.
  assert (R : deep_on e 5 path (map (act_of 5) a ++ map (act_of 5) b) (Some true)).
  { exists fuel, (a ++ b), (Ok true). split; [|split; [now rewrite map_app|eauto]]. rewrite <- E. unfold deep_run. destruct (linux_watch _ _ _ _ _) as [o' r]. cbn in H. now subst r. }
  destruct (late_life pl _ false _ _ _ R Hn) as (m & Hr). eexists. split; [exact Hr|]. cbn [log]. unfold late_log. fold l1 l2. split; [reflexivity|].
  split; [unfold l1; rewrite WatchFacts.received_app, PropsWhole.received_acts; reflexivity|].
  rewrite !WatchFacts.received_app. unfold l1, l2. cbn [received app]. rewrite !WatchFacts.received_app. cbn [received]. rewrite !PropsWhole.received_acts, !app_nil_r.
  rewrite <- PropsFanWhole.files_told_run, callbacks_app, !PropsFanWhole.files_told_app.
  change (live_event true path 1 :: callbacks a ++ callbacks b ++ [die_event true path 2]) with ([live_event true path 1] ++ callbacks a ++ callbacks b ++ [die_event true path 2]).
  rewrite !PropsFanWhole.files_told_app. cbn. now rewrite app_nil_r.
Qed.
Lemma gone_split : let o := deep_run deep_gone 20 (lit "/w") 5 in o = firstn 17 o ++ OEpollWait 4 (Some [3; 5]%Z) :: skipn 18 o.
Proof. vm_compute. reflexivity. Qed.
Lemma gone_ends : snd (linux_watch (gsystem deep_gone) 20 (lit "/w") 5 []) = Ok true.
Proof. vm_compute. reflexivity. Qed.
Lemma gone_quiet : existsb (fun a => match a with AStop => true | _ => false end) (map (act_of 5) (firstn 17 (deep_run deep_gone 20 (lit "/w") 5))) = false.
Proof. vm_compute. reflexivity. Qed.
Theorem C149_fanotify_changes_before_close_are_reported_refuted :
  exists e w l1 l2 a b, genv_ok e /\ deep_honest e 5 /\
    reach (Linux false) (deep_on e 5) false constructed w /\ log w = l1 ++ LRequest :: l2 ++ [LClosed released true] /\
    (* close() is called when the adapter has done [a] and is about to wait *)
    deep_run e 20 (lit "/w") 5 = a ++ OEpollWait 4 (Some [3; 5]%Z) :: b /\ received l1 = live_event true (lit "/w") 1 :: callbacks a /\
    (deep_waiting (gat_call e a) <= 4095)%nat /\
    gw_log (gat_call e a) = [Did 1 (lit "f") FDelete false true; Did 0 (lit "d") FDelete true true; Did 0 (lit "g") FModify false true] /\
    files_told (received (log w)) = [].
Proof.
  set (o := deep_run deep_gone 20 (lit "/w") 5). pose proof gone_split as Ho. fold o in Ho.
  destruct (deep_late (Linux false) deep_gone 20 (lit "/w") _ _ gone_ends Ho) as (w & R & E & Er & Ef).
  { intros H. pose proof gone_quiet as Q. fold o in Q. assert (X : existsb (fun a => match a with AStop => true | _ => false end) (map (act_of 5) (firstn 17 o)) = true).
    { apply existsb_exists. exists AStop. split; [exact H|reflexivity]. } rewrite X in Q. discriminate Q. }
  rewrite <- Ho in Ef.
  exists deep_gone, w. eexists. eexists. exists (firstn 17 o), (skipn 18 o). split; [apply deep_true_ok|]. split; [apply deep_true_honest|].
  split; [exact R|]. split; [exact E|]. split; [exact Ho|]. split; [exact Er|]. rewrite Ef.
  split; [apply Nat.leb_le; unfold o; vm_compute; reflexivity|]. split; unfold o; vm_compute; reflexivity.
Qed.
Print Assumptions C149_fanotify_changes_before_close_are_reported_refuted.

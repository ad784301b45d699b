(** Theorems C82-C84: the whole library on Linux without privileges: class watch
    (include/wtr/watcher.hpp:2239-2282), its stop flag, the inotify adapter
    (:1299-1726), the kernel and a filesystem that others change. *)
From Verif Require WatchLife.
From Verif Require Import Base PathModel EventModel Sys SysFacts LinuxWatch LinuxSpec LinuxProps PropsLinux InotifySpec InotifyRun KernelSpec KernelFacts
  KernelRun KernelTime SemabinModel WatchModel WatchSpec WatchFacts WatchExamples PropsKernel.

(** The runs of the adapter on the system [e], as class watch sees them; [il]: the stop descriptor. *)
Definition watcher_on (e : env) (il : Z) (path : text) (st : list act) (r : option bool) : Prop :=
  exists fuel o out, linux_watch (system e) fuel path il [] = (o, out) /\ st = map (act_of il) o /\
    ((exists b, out = Ok b /\ r = Some b) \/ (out = Fuel /\ r = None)).
(** The filesystem events among these. *)
Definition fs_events (l : list event) : list InotifySpec.shape :=
  filter (fun s => match s with Sh _ _ PtWatcher _ => false | _ => true end) (map shape_of l).

Lemma fs_shapes_events o : fs_shapes o = fs_events (callbacks o).
Proof. reflexivity. Qed.
Lemma fs_events_app a b : fs_events (a ++ b) = fs_events a ++ fs_events b.
Proof. unfold fs_events. now rewrite map_app, filter_app. Qed.
Lemma on_linux e il path st r : watcher_on e il path st r -> linux_runs path st r.
Proof. intros (fuel & o & out & H). exists (system e), fuel, il, [], o, out. exact H. Qed.
Lemma on_ok e il : adapter_ok (watcher_on e il).
Proof.
  destruct linux_adapter_ok as [Q S]. split.
  - intros abs st r ev H. apply (Q abs st r). now apply on_linux in H.
  - intros abs st H. apply (S abs). now apply on_linux in H.
Qed.
Lemma received_acts il o : received (acts_log (map (act_of il) o)) = callbacks o.
Proof.
  induction o as [|x o IH]; [reflexivity|]. unfold acts_log in *. cbn [map concat]. rewrite received_app, IH.
  destruct x; try reflexivity. cbn. destruct r as [l|]; [destruct (existsb _ l)|]; reflexivity.
Qed.
Lemma map_split {A B} (f : A -> B) l x y : map f l = x ++ y -> exists a b, l = a ++ b /\ map f a = x /\ map f b = y.
Proof.
  revert x; induction l as [|z l IH]; intros x E.
  - destruct x; [|discriminate]. exists [], []. auto.
  - destruct x as [|u x]; cbn in E.
    + exists [], (z :: l). auto.
    + injection E as <- E. destruct (IH _ E) as (a & b & -> & <- & <-). exists (z :: a), b. auto.
Qed.

(** Every run of the adapter on such a system is free of undefined behaviour: the
    runs [watcher_on] leaves out do not exist. *)
Theorem C82_no_undefined_behaviour :
  forall e D F fuel path il, e_start e = kern_start D F -> unprivileged e ->
    match snd (linux_watch (system e) fuel path il []) with Ok _ | Fuel => True | _ => False end.
Proof.
  intros e D F fuel path il S U.
  destruct (linux_watch_session (system e) false fuel path il []) as (a & b & c & r & rss & E & H & _).
  - intros t. apply U.
  - apply system_kernel. eauto.
  - rewrite E. exact H.
Qed.
Print Assumptions C82_no_undefined_behaviour.

Section Life.
  Variables (e : env) (il : Z).
  Definition so_far (path : text) (fuel : nat) (a b : trace) (l : list WatchModel.entry) (fin : bool) : Prop :=
    run e fuel path il = a ++ b /\ In (LWatch path) l /\
    exists first last, received l = first :: callbacks a ++ last /\ live_ok path first /\
      if fin then b = [] /\ exists d, last = [d] /\ (die_ok path d \/ die_bad path d) else last = [].
  Lemma live_live p t : live_ok p (live_event true p t). Proof. repeat split. Qed.
  Lemma die_die b p t : die_ok p (die_event b p t) \/ die_bad p (die_event b p t). Proof. destruct b; [left|right]; repeat split. Qed.
  Lemma received_checked p pre l : checked p pre l -> received l = [] /\ forall q, ~ In (LWatch q) l.
  Proof. destruct 1; (split; [reflexivity|]); intros q Hq; cbn in Hq; decompose [or] Hq; (discriminate || contradiction). Qed.
  Lemma shape_so_far k l : WatchFacts.shape (watcher_on e il) k l ->
    (fs_events (received l) = [] /\ (forall p, ~ In (LWatch p) l) /\ k <> WDone true) \/
    exists path fuel a b fin, so_far path fuel a b l fin /\ (forall d, k = WDone d -> fin = true /\ snd (linux_watch (system e) fuel path il []) = Ok d).
  Proof.
    induction 1 as [|abs p|abs pre l C|abs l t C|abs l t done st r C R|abs l t C|abs l t st b C R|abs l t t' C|abs l t st b t' C R|k l S IH|k p l S IH|k l S IH].
    - left. repeat split; auto. discriminate.
    - left. repeat split; [|discriminate]. intros q [H|[]]; discriminate.
    - left. destruct (received_checked _ _ _ C) as [-> H]. repeat split; [exact H|discriminate].
    - left. destruct (received_checked _ _ _ C) as [E H]. rewrite received_app, E. repeat split; [|discriminate].
      intros q Hq. apply in_app_iff in Hq as [Hq|[Hq|[]]]; [now apply H in Hq|discriminate].
    - right. destruct (received_checked _ _ _ C) as [E H]. destruct R as (fuel & o & out & Eo & Em & _).
      symmetry in Em. apply map_split in Em as (a & b & -> & <- & <-). exists abs, fuel, a, b, false. split; [|discriminate].
      split; [unfold run; now rewrite Eo|]. split; [apply in_app_iff; right; right; now left|].
      exists (live_event true abs t), []. rewrite received_app, E. cbn [received app]. rewrite received_acts, app_nil_r. repeat split.
    - left. destruct (received_checked _ _ _ C) as [E H]. rewrite received_app, E. repeat split; [|discriminate].
      intros q Hq. apply in_app_iff in Hq as [Hq|[Hq|[]]]; [now apply H in Hq|discriminate].
    - right. destruct (received_checked _ _ _ C) as [E H]. destruct R as (fuel & o & out & Eo & -> & _).
      exists abs, fuel, o, [], false. split; [|discriminate].
      split; [unfold run; now rewrite Eo, app_nil_r|]. split; [apply in_app_iff; right; right; now left|].
      exists (live_event true abs t), []. rewrite received_app, E. cbn [received app]. rewrite received_acts, app_nil_r. repeat split.
    - left. destruct (received_checked _ _ _ C) as [E H]. rewrite received_app, E. repeat split; [|discriminate].
      intros q Hq. apply in_app_iff in Hq as [Hq|[Hq|[Hq|[]]]]; [now apply H in Hq|discriminate..].
    - right. destruct (received_checked _ _ _ C) as [E H]. destruct R as (fuel & o & out & Eo & -> & Hr).
      exists abs, fuel, o, [], true. split; [|intros d [= <-]; split; [reflexivity|]; rewrite Eo; destruct Hr as [(b' & -> & [= ->])|[_ [=]]]; reflexivity].
      split; [unfold run; now rewrite Eo, app_nil_r|]. split; [apply in_app_iff; right; right; now left|].
      exists (live_event true abs t), [die_event b abs t']. rewrite received_app, E. cbn [received app]. rewrite received_app, received_acts. repeat split.
      eexists. split; [reflexivity|]. apply die_die.
    - destruct IH as [(A & B & _)|(path & fuel & a & b & fin & A & B)]; [left; repeat split; auto; discriminate|right].
      exists path, fuel, a, b, fin. split; [exact A|discriminate].
    - destruct IH as [(A & B & _)|(path & fuel & a & b & fin & A & B)]; [left; repeat split; auto; discriminate|right].
      exists path, fuel, a, b, fin. split; [exact A|discriminate].
    - destruct IH as [(A & B & _)|(path & fuel & a & b & fin & A & B)]; [left; repeat split; auto; discriminate|right].
      exists path, fuel, a, b, fin. split; [exact A|discriminate].
  Qed.
End Life.

(** ** C82 *)
(** At any point [w] of any life of a watcher on [e]: either nothing is watched
    and no filesystem event was received; or what the callback received is the live
    message, what the adapter gave it up to some point [a] of its run, and the die
    message if it is over; the filesystem events of that tell of the changes so far
    in watched directories, each once and in order ([rest]: what is still on the
    way); and once close() has returned true the run is over, and nothing is missing
    unless it was still in the kernel's queue. *)
Theorem C82_a_watchers_life :
  forall blk e il D F re w, e_start e = kern_start D F -> unprivileged e ->
    reach (Linux blk) (watcher_on e il) re constructed w ->
    (fs_events (received (log w)) = [] /\ (forall p, ~ In (LWatch p) (log w)) /\ (forall v, ~ In (LClosed v true) (log w))) \/
    exists path fuel a b, In (LWatch path) (log w) /\ run e fuel path il = a ++ b /\
      (exists live die, received (log w) = live :: callbacks a ++ die /\ live_ok path live /\
         (die = [] \/ exists d, die = [d] /\ (die_ok path d \/ die_bad path d))) /\
      (exists rest, told (owed (state e a)) (fs_events (received (log w)) ++ rest)) /\
      forall l1 v l2, log w = l1 ++ LClosed v true :: l2 ->
        b = [] /\ (kn_queue (state e a) = [] -> told (owed (state e a)) (fs_events (received l1))).
Proof.
  intros blk e il D F re w S U R. pose proof (ji_reach _ _ _ _ R) as J. pose proof (wi_reach _ _ _ _ R) as W. unfold wi in W.
  assert (G : forall l1 v l2, log w = l1 ++ LClosed v true :: l2 -> wt w = WDone true /\ received l2 = []).
  { intros l1 v l2 E. assert (Hv : v <> error) by (intros ->; apply (j_err _ J) in E; discriminate).
    split; [|eapply (j_after _ J); [exact E|destruct v; auto; congruence]].
    eapply (j_first _ J); [exact E|exact Hv|]. destruct (any_good l1) eqn:Eg; [|reflexivity].
    apply (j_later _ J _ _ _ _ E) in Eg. discriminate. }
  assert (Wl : forall p, In (LWatch p) (log w) -> In (LWatch p) (wlog (log w))) by (intros p; apply WatchLife.in_wlog; reflexivity).
  destruct (shape_so_far e il _ _ W) as [(A & B & C)|(path & fuel & a & b & fin & (Er & Hin & first & last & E & Hl & Hf) & Hd)].
  - left. rewrite received_wlog in A. split; [exact A|]. split; [intros p Hp; apply Wl in Hp; now apply B in Hp|].
    intros v Hv. apply in_split in Hv as (l1 & l2 & El). now apply G in El as [El _].
  - right. rewrite received_wlog in E. exists path, fuel, a, b.
    assert (Efs : fs_events (received (log w)) = fs_shapes a).
    { rewrite E. change (first :: callbacks a ++ last) with ([first] ++ callbacks a ++ last). rewrite !fs_events_app, <- fs_shapes_events.
      replace (fs_events [first]) with (@nil InotifySpec.shape).
      2:{ destruct Hl as (_ & _ & P & _). destruct first as [? ? pt ? ?]. cbn in P. now rewrite P. }
      replace (fs_events last) with (@nil InotifySpec.shape); [now rewrite app_nil_r|].
      destruct fin; [|now subst last]. destruct Hf as (_ & d & -> & [(_ & _ & P & _)|(_ & _ & P & _)]); destruct d as [? ? pt ? ?]; cbn in P; now rewrite P. }
    split; [now apply WatchLife.wlog_in in Hin|]. split; [exact Er|]. split; [|split].
    + exists first, last. split; [exact E|]. split; [exact Hl|]. destruct fin; [right; tauto|now left].
    + rewrite Efs. eapply told_always; eauto.
    + intros l1 v l2 El. destruct (G _ _ _ El) as [Ew Hr]. apply Hd in Ew as [Ew _]. subst fin. destruct Hf as [-> _]. split; [reflexivity|].
      rewrite app_nil_r in Er. intros Q. replace (fs_events (received l1)) with (fs_shapes a); [subst a; now eapply told_end; eauto|].
      rewrite <- Efs, El, received_app. cbn [received]. now rewrite Hr, app_nil_r.
Qed.
Print Assumptions C82_a_watchers_life.

(** A life with all of that: the busy system of C77, closed with success. *)
Example C82_example : exists w l1 v, reach (Linux true) (watcher_on busy_env 5) false constructed w /\ log w = l1 ++ [LClosed v true] /\
  length (fs_events (received l1)) = 8%nat.
Proof.
  set (o := run busy_env 20 (lit "/w") 5).
  assert (R : watcher_on busy_env 5 (lit "/w") (map (act_of 5) o) (Some true)).
  { exists 20%nat, o, (Ok true). split; [|split; [reflexivity|eauto]].
    unfold o, run. destruct (linux_watch (system busy_env) 20 (lit "/w") 5 []) as [o' r] eqn:E.
    assert (Hr : r = Ok true). { change r with (snd (o', r)). rewrite <- E. vm_compute. reflexivity. } now rewrite Hr. }
  pose proof (full_life true _ false _ _ R) as H. eexists. exists ([LLook (Some (lit "/w")) (Some true); LCheck pending; LRequest; LReleased released; LCb (live_event true (lit "/w") 1); LWatch (lit "/w")] ++
  acts_log (map (act_of 5) o) ++ [LCb (die_event true (lit "/w") 2)]), released. split; [exact H|]. split.
  - cbn [log]. unfold full_log. rewrite <- !app_assoc. reflexivity.
  - rewrite !received_app, received_acts, !fs_events_app. unfold o. vm_compute. reflexivity.
Qed.

(** ** C83: changes are reported before the watcher waits again *)
(** [b]: what the adapter does after a wait, until the next one ([c]) or the end. *)
Definition is_wait_call (x : obs) : Prop := exists ep r, x = OEpollWait ep r.
Theorem C83_changes_reported_before_the_next_wait :
  forall e D F fuel path il, e_start e = kern_start D F -> unprivileged e -> honest e il ->
    forall a ep fds b c, run e fuel path il = a ++ OEpollWait ep (Some fds) :: b ++ c ->
      (forall x, In x b -> ~ is_wait_call x) -> (c = [] \/ exists x c', c = x :: c' /\ is_wait_call x) ->
      (waiting (at_call e a) <= N.to_nat 4096)%nat ->
      exists l l', fs_shapes (a ++ OEpollWait ep (Some fds) :: b) = l ++ l' /\ told (owed (at_call e a)) l.
Proof.
  intros e D F fuel path il S U [Hs Hw Hr] a ep fds b c E Hb Hc Hn.
  assert (HS : exists d f, e_start e = kern_start d f) by eauto.
  assert (Hu : forall tr, os_geteuid (system e) tr <> 0%Z) by (intros; apply U).
  eapply (told_by_next_wait e HS fuel path il Hu); eauto.
  - apply Forall_forall. intros x Hx. specialize (Hb x Hx). destruct x; try exact Coq.Init.Logic.I. apply Hb. red. eauto.
  - destruct Hc as [->|(x & c' & -> & ep' & r & ->)]; [now left|right; eauto].
  - destruct (watch_wait e HS fuel path il Hu _ _ _ _ E) as (ok1 & ke1 & o1 & ok2 & ke2 & o2 & H1 & _). exact (Hw _ _ _ H1).
  - unfold waiting in Hn. lia.
Qed.
Print Assumptions C83_changes_reported_before_the_next_wait.

(** Systems in which the changes are made after the n-th wait, waits tell the truth
    about the records and, from the [n]-th on, about the stop descriptor 5. *)
Definition true_base (n : nat) (k : kern) : os :=
  let b := fs_base [] k in {|
  os_now := os_now b; os_geteuid := os_geteuid b; os_realpath := os_realpath b; os_is_dir := os_is_dir b; os_opendir := os_opendir b;
  os_inotify_init := os_inotify_init b; os_add_watch := os_add_watch b; os_fan_init := os_fan_init b; os_fan_mark := os_fan_mark b;
  os_epoll_create := os_epoll_create b; os_epoll_ctl := os_epoll_ctl b;
  os_epoll_wait := fun tr _ => Some ((match kn_queue k with [] => [] | _ => [3%Z] end) ++ (if (n <=? ExampleOs.count ExampleOs.is_wait tr)%nat then [5%Z] else []));
  os_read := os_read b; os_open_handle := os_open_handle b; os_readlink := os_readlink b |}.
Definition true_env (D F : list text) (n : nat) (ws : list (list op)) : env :=
  let e := scripted_env D F [] ws [] in
  {| e_fd := e_fd e; e_start := e_start e; e_ops := e_ops e; e_deny := e_deny e; e_want := e_want e; e_base := true_base n |}.
Lemma true_honest D F n ws : honest (true_env D F n ws) 5.
Proof.
  constructor; [discriminate| |intros tr; apply Nat.le_refl].
  intros tr ep fds E Q. cbn [e_base true_env os_epoll_wait true_base] in E. injection E as <-.
  destruct (kn_queue _); [congruence|]. now left.
Qed.
Lemma true_unpriv D F n ws : unprivileged (true_env D F n ws).
Proof. intros k tr. discriminate. Qed.

(** ** C84: changes made before close() are reported before it returns *)
(** When close() has returned true, the last wait of the adapter had seen the stop
    signal (which close() gives: so every change made before close() was called had
    happened by then), and every change in a watched directory by then has been
    reported: if the records waiting then fit into one read. *)
Theorem C84_changes_before_close_are_reported_partial :
  forall blk e il D F re w, e_start e = kern_start D F -> unprivileged e -> honest e il ->
    reach (Linux blk) (watcher_on e il) re constructed w ->
    forall l1 v l2, log w = l1 ++ LClosed v true :: l2 ->
    exists path fuel a ep fds b, run e fuel path il = a ++ OEpollWait ep (Some fds) :: b /\ In il fds /\ (forall x, In x b -> ~ is_wait_call x) /\
      In (LWatch path) (log w) /\ (exists live die, received l1 = live :: callbacks (run e fuel path il) ++ [die]) /\
      ((waiting (at_call e a) <= N.to_nat 4096)%nat ->
       exists l l', fs_events (received l1) = l ++ l' /\ told (owed (at_call e a)) l).
Proof.
  intros blk e il D F re w S U [Hs Hw Hr] R l1 v l2 El. pose proof (ji_reach _ _ _ _ R) as J. pose proof (wi_reach _ _ _ _ R) as W. unfold wi in W.
  assert (G : wt w = WDone true /\ received l2 = []).
  { assert (Hv : v <> error) by (intros ->; apply (j_err _ J) in El; discriminate).
    split; [|eapply (j_after _ J); [exact El|destruct v; auto; congruence]].
    eapply (j_first _ J); [exact El|exact Hv|]. destruct (any_good l1) eqn:Eg; [|reflexivity].
    apply (j_later _ J _ _ _ _ El) in Eg. discriminate. }
  destruct G as [Ew Hl2].
  destruct (shape_so_far e il _ _ W) as [(_ & _ & C)|(path & fuel & a & b & fin & (Er & Hin & first & last & E & Hl & Hf) & Hd)]; [congruence|].
  apply Hd in Ew as [Ew Eo]. subst fin. destruct Hf as [-> (d & -> & Hdie)]. rewrite app_nil_r in Er. rewrite received_wlog in E.
  destruct (linux_watch (system e) fuel path il []) as [o out] eqn:Erun. cbn in Eo. subst out.
  destruct (C04_success_only_on_request _ _ _ _ _ _ Erun) as (a' & ep & fds & b & Eab & Hil & Hb).
  assert (Er' : run e fuel path il = o) by (unfold run; now rewrite Erun).
  exists path, fuel, a', ep, fds, b. rewrite Er'. split; [exact Eab|]. split; [exact Hil|].
  assert (Hb' : forall x, In x b -> ~ is_wait_call x) by (intros x Hx (ep' & r & ->); eapply Hb, Hx). split; [exact Hb'|].
  assert (Erl : received l1 = received (log w)) by (rewrite El, received_app; cbn [received]; now rewrite Hl2, app_nil_r).
  split; [now apply WatchLife.wlog_in in Hin|]. split; [exists first, d; rewrite Erl, E; congruence|]. intros Hn.
  assert (Efs : fs_events (received l1) = fs_shapes o).
  { rewrite Erl, E. change (first :: callbacks a ++ [d]) with ([first] ++ callbacks a ++ [d]). rewrite !fs_events_app, <- fs_shapes_events.
    replace (fs_events [first]) with (@nil InotifySpec.shape).
    2:{ destruct Hl as (_ & _ & P & _). destruct first as [? ? pt ? ?]. cbn in P. now rewrite P. }
    replace (fs_events [d]) with (@nil InotifySpec.shape); [rewrite app_nil_r; cbn [app]; congruence|].
    destruct Hdie as [(_ & _ & P & _)|(_ & _ & P & _)]; destruct d as [? ? pt ? ?]; cbn in P; now rewrite P. }
  rewrite Efs, Eab.
  refine (C83_changes_reported_before_the_next_wait e D F fuel path il S U _ a' ep fds b [] _ Hb' _ Hn); [constructor; assumption|rewrite Er', app_nil_r; exact Eab|now left].
Qed.
Print Assumptions C84_changes_before_close_are_reported_partial.

Lemma closed_life e fuel path : snd (linux_watch (system e) fuel path 5 []) = Ok true ->
  let o := run e fuel path 5 in
  let l1 := [LLook (Some path) (Some true); LCheck pending; LRequest; LReleased released; LCb (live_event true path 1); LWatch path] ++
    acts_log (map (act_of 5) o) ++ [LCb (die_event true path 2)] in
  exists w, reach (Linux true) (watcher_on e 5) false constructed w /\ log w = l1 ++ [LClosed released true] /\ fs_events (received l1) = fs_shapes o /\
    received l1 = live_event true path 1 :: callbacks o ++ [die_event true path 2].
Proof.
  intros H o l1.
  assert (R : watcher_on e 5 path (map (act_of 5) o) (Some true)).
  { exists fuel, o, (Ok true). split; [|split; [reflexivity|eauto]]. unfold o, run. destruct (linux_watch _ _ _ _ _) as [o' r]. cbn in H. now subst r. }
  eexists. split; [exact (full_life true _ false _ _ R)|]. split; [cbn [log]; unfold full_log, l1; rewrite <- !app_assoc; reflexivity|].
  unfold l1. rewrite !received_app, received_acts, !fs_events_app. cbn. rewrite app_nil_r. auto.
Qed.

(** Three changes just before close(). *)
Definition last_minute : env := true_env w_dirs [] 1
  [[Make false (lit "/w") (lit "a"); Write (lit "/w") (lit "a"); Rename (lit "/w") (lit "a") (lit "b")]].
Example C83_example : exists a ep b, run last_minute 20 (lit "/w") 5 = a ++ OEpollWait ep (Some [3; 5]%Z) :: b /\
  (forall x, In x b -> ~ is_wait_call x) /\ waiting (at_call last_minute a) = 128%nat /\
  owed (at_call last_minute a) = [Sh (lit "/w/a") EtCreate PtFile None; Sh (lit "/w/a") EtModify PtFile None;
    Sh (lit "/w/a") EtRename PtFile (Some (Sh (lit "/w/b") EtRename PtFile None))] /\
  fs_shapes (a ++ OEpollWait ep (Some [3; 5]%Z) :: b) = owed (at_call last_minute a).
Proof.
  set (o := run last_minute 20 (lit "/w") 5). exists (firstn 17 o), 4%Z, (skipn 18 o). split; [vm_compute; reflexivity|].
  split; [|split; [|split]; vm_compute; reflexivity].
  intros x Hx (ep & r & ->). revert Hx. vm_compute. intros Hx. repeat (destruct Hx as [Hx|Hx]; [discriminate|]). exact Hx.
Qed.
Example C84_example : exists w l1, honest last_minute 5 /\ unprivileged last_minute /\
  reach (Linux true) (watcher_on last_minute 5) false constructed w /\ log w = l1 ++ [LClosed released true] /\ length (fs_events (received l1)) = 3%nat.
Proof.
  destruct (closed_life last_minute 20 (lit "/w")) as (w & R & E & Ef & _); [vm_compute; reflexivity|].
  exists w. eexists. split; [apply true_honest|]. split; [apply true_unpriv|]. split; [exact R|]. split; [exact E|]. rewrite Ef. vm_compute. reflexivity.
Qed.

(** Without the bound it is false: forty files with long names are made just before
    close(), which returns true; only one read's worth of them is reported. *)
Definition long_name (i : nat) : text := repeat 97%N 250 ++ [48 + N.of_nat (i / 10); 48 + N.of_nat (i mod 10)]%N.
Definition flood : env := true_env w_dirs [] 1 [map (fun i => Make false (lit "/w") (long_name i)) (seq 0 40)].
Lemma late_closed pl e fuel path a b : snd (linux_watch (system e) fuel path 5 []) = Ok true -> run e fuel path 5 = a ++ b ->
  ~ In AStop (map (act_of 5) a) ->
  let l1 := [LLook (Some path) (Some true); LCheck pending; LCb (live_event true path 1); LWatch path] ++ acts_log (map (act_of 5) a) in
  let l2 := LReleased released :: acts_log (map (act_of 5) b) ++ [LCb (die_event true path 2)] in
  exists w, reach pl (watcher_on e 5) false constructed w /\ log w = l1 ++ LRequest :: l2 ++ [LClosed released true] /\
    received l1 = live_event true path 1 :: callbacks a /\ fs_events (received (log w)) = fs_shapes (a ++ b).
Proof.
  intros H E Hn l1 l2.
  assert (R : watcher_on e 5 path (map (act_of 5) a ++ map (act_of 5) b) (Some true)).
  { exists fuel, (a ++ b), (Ok true). split; [|split; [now rewrite map_app|eauto]]. rewrite <- E. unfold run. destruct (linux_watch _ _ _ _ _) as [o' r]. cbn in H. now subst r. }
  destruct (late_life pl _ false _ _ _ R Hn) as (m & Hr). eexists. split; [exact Hr|]. cbn [log]. unfold late_log. fold l1 l2. split; [reflexivity|].
  split; [unfold l1; rewrite received_app, received_acts; reflexivity|].
  rewrite !received_app. unfold l1, l2. cbn [received app]. rewrite !received_app. cbn [received]. rewrite !received_acts, !app_nil_r.
  rewrite fs_shapes_events, callbacks_app, !fs_events_app.
  change (live_event true path 1 :: callbacks a ++ callbacks b ++ [die_event true path 2]) with ([live_event true path 1] ++ callbacks a ++ callbacks b ++ [die_event true path 2]).
  rewrite !fs_events_app. cbn. now rewrite app_nil_r.
Qed.
Theorem C84_changes_before_close_are_reported_refuted :
  exists e w l1 l2 a b lost, e_start e = kern_start w_dirs [] /\ unprivileged e /\ honest e 5 /\ still_start e /\ (forall k, kn_dirs k = w_dirs -> shows k (e_base e k)) /\
    reach (Linux false) (watcher_on e 5) false constructed w /\ log w = l1 ++ LRequest :: l2 ++ [LClosed released true] /\
    (* close() is called when the adapter has done [a] and is about to wait *)
    run e 20 (lit "/w") 5 = a ++ OEpollWait 4 (Some [3; 5]%Z) :: b /\ received l1 = live_event true (lit "/w") 1 :: callbacks a /\
    In (Sh lost EtCreate PtFile None) (owed (at_call e a)) /\
    (forall s, In s (fs_events (received (log w))) -> match s with Sh p _ _ _ => p <> lost end) /\
    length (owed (at_call e a)) = 40%nat /\ length (fs_events (received (log w))) = 15%nat.
Proof.
  set (o := run flood 20 (lit "/w") 5).
  assert (Ho : o = firstn 17 o ++ OEpollWait 4 (Some [3; 5]%Z) :: skipn 18 o) by (unfold o; vm_compute; reflexivity).
  assert (Hok : snd (linux_watch (system flood) 20 (lit "/w") 5 []) = Ok true) by (vm_compute; reflexivity).
  destruct (late_closed (Linux false) flood 20 (lit "/w") _ _ Hok Ho) as (w & R & E & Er & Ef).
  { intros H. assert (X : existsb (fun a => match a with AStop => true | _ => false end) (map (act_of 5) (firstn 17 o)) = true).
    { apply existsb_exists. exists AStop. split; [exact H|reflexivity]. } unfold o in X. vm_compute in X. discriminate X. }
  rewrite <- Ho in Ef.
  exists flood, w. eexists. eexists. exists (firstn 17 o), (skipn 18 o), (InotifySpec.entry (lit "/w") (long_name 39)).
  split; [reflexivity|]. split; [apply true_unpriv|]. split; [apply true_honest|]. split; [exact (scripted_still w_dirs [] [] _ [])|].
  split; [intros k Hk; destruct (w_shows [] k Hk) as [A B]; split; [intros p Hp; destruct (A p Hp); now split|exact B]|].
  split; [exact R|]. split; [exact E|]. split; [exact Ho|]. split; [exact Er|]. rewrite Ef.
  assert (Eo : owed (at_call flood (firstn 17 o)) = map (fun i => Sh (InotifySpec.entry (lit "/w") (long_name i)) EtCreate PtFile None) (seq 0 40)) by (vm_compute; reflexivity).
  assert (Es : fs_shapes o = map (fun i => Sh (InotifySpec.entry (lit "/w") (long_name i)) EtCreate PtFile None) (seq 0 15)) by (vm_compute; reflexivity).
  rewrite Eo, Es, !map_length, !seq_length. split; [apply in_map_iff; exists 39%nat; split; [reflexivity|apply in_seq; lia]|].
  split; [|split; reflexivity]. intros s Hs. apply in_map_iff in Hs as (i & <- & Hi). apply in_seq in Hi.
  assert (Hd : forallb (fun i => negb (text_eqb (InotifySpec.entry (lit "/w") (long_name i)) (InotifySpec.entry (lit "/w") (long_name 39)))) (seq 0 15) = true) by (vm_compute; reflexivity).
  rewrite forallb_forall in Hd. specialize (Hd i ltac:(apply in_seq; lia)). intros Heq. rewrite Heq, text_eqb_refl in Hd. discriminate.
Qed.
Print Assumptions C84_changes_before_close_are_reported_refuted.

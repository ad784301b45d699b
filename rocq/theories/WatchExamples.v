(** Executions of the watch class, and the Linux adapter as its adapter. *)
From Verif Require Import Base EventModel Sys LinuxWatch LinuxSpec LinuxFacts LinuxRun LinuxProps PropsLinux
  SemabinModel WatchModel WatchSpec WatchFacts.
Local Open Scope nat_scope.

(** ** The Linux adapter *)

(** What an observation of the Linux adapter is to the watch class; [il] is the
    stop descriptor. *)
Definition act_of (il : Z) (x : obs) : act :=
  match x with
  | OCallback e => ACb e
  | OEpollWait _ (Some fds) => if existsb (Z.eqb il) fds then AStop else AOther
  | _ => AOther
  end.
(** Its runs for all answers of the system.  Runs that hit undefined behaviour
    are left out (C19, C20, C28 say when there are none). *)
Definition linux_runs (path : text) (st : list act) (r : option bool) : Prop :=
  exists s fuel il tr o out, linux_watch s fuel path il tr = (o, out) /\ st = map (act_of il) o /\
    ((exists b, out = Ok b /\ r = Some b) \/ (out = Fuel /\ r = None)).

Lemma act_cb il o e : In (ACb e) (map (act_of il) o) -> In (OCallback e) o.
Proof.
  intros H. apply in_map_iff in H as (x & E & Hx). destruct x; cbn in E; try discriminate.
  - injection E as ->. exact Hx.
  - destruct r as [l|]; [destruct (existsb _ l)|]; discriminate.
Qed.
Lemma warnings_ordinary o e : only_warnings o -> In (OCallback e) o -> ordinary e.
Proof. intros W H P. destruct (W e H P) as (_ & E & _). rewrite E. split; discriminate. Qed.

Lemma linux_adapter_ok : adapter_ok linux_runs.
Proof.
  split.
  - intros path st r e (s & fuel & il & tr & o & out & E & -> & Ho) Hin. apply act_cb in Hin.
    destruct (C18_warnings_go_on_errors_stop _ _ _ _ _ _ _ E) as (W1 & W2 & W3).
    destruct Ho as [([] & -> & _)|(-> & _)].
    + apply (warnings_ordinary o); auto.
    + destruct W2 as (o1 & x & -> & W & Hx); [reflexivity|]. apply in_app_iff in Hin as [Hin|[[=]|[[= <-]|[]]]].
      * apply (warnings_ordinary o1); auto.
      * intros _. destruct Hx as (_ & F & _). rewrite F. split; discriminate.
    + apply (warnings_ordinary o); auto.
  - intros path st (s & fuel & il & tr & o & out & E & -> & Ho). destruct Ho as [(b & -> & [= <-])|(_ & [=])].
    apply C04_success_only_on_request in E. destruct E as (o1 & ep & fds & o2 & -> & Hin & _).
    assert (Hx : existsb (Z.eqb il) fds = true) by (apply existsb_exists; exists il; split; [exact Hin|apply Z.eqb_refl]).
    apply in_map_iff. exists (OEpollWait ep (Some fds)). split; [|apply in_elt]. unfold act_of. now rewrite Hx.
Qed.

(** ** Executions *)
Section Runs.
  Variable pl : platform.
  Variable runs : text -> list act -> option bool -> Prop.
  Variable re : bool.
  Notation reach := (reach pl runs re).

  Lemma reach_w w0 m w o vd l m' w' l' : reach w0 (World m w o vd l) -> w_step pl runs re vd m w m' w' l' ->
    reach w0 (World m' w' o vd (l ++ l')).
  Proof. intros H S. eapply Reach1; [exact H|]. now apply SW_watch. Qed.
  Lemma reach_o w0 m w o vd l m' o' vd' l' : reach w0 (World m w o vd l) -> o_step pl w m vd o m' vd' o' l' ->
    reach w0 (World m' w o' vd' (l ++ l')).
  Proof. intros H S. eapply Reach1; [exact H|]. now apply SW_owner. Qed.

  (** The adapter runs through, the stop signal being visible. *)
  Lemma run_through w0 m abs r o vd st : stop_visible pl m -> forall l,
    reach w0 (World m (WRun abs st r) o vd l) -> reach w0 (World m (WRun abs [] r) o vd (l ++ acts_log st)).
  Proof.
    intros Hv. induction st as [|a st IH]; intros l H; [cbn; rewrite app_nil_r; exact H|].
    replace (l ++ acts_log (a :: st)) with ((l ++ acts_log [a]) ++ acts_log st) by (rewrite <- app_assoc, <- acts_log_app; reflexivity).
    apply IH. destruct a; cbn; rewrite ?app_nil_r.
    - eapply reach_w in H; [|apply W_cb]. eapply reach_w in H; [|apply W_return]. rewrite app_nil_r in H. exact H.
    - eapply reach_w in H; [|apply W_stop, Hv]. exact H.
    - eapply reach_w in H; [|apply W_other]. rewrite app_nil_r in H. exact H.
  Qed.
End Runs.

(** A whole life on Linux in which close() is called between the check of the
    stop flag and the live message: everything succeeds. *)
Definition full_log (abs : text) (st : list act) : list entry :=
  [LLook (Some abs) (Some true); LCheck pending; LRequest; LReleased released; LCb (live_event true abs 1); LWatch abs] ++
  acts_log st ++ [LCb (die_event true abs 2); LClosed released true].

Lemma full_life b (runs : text -> list act -> option bool -> Prop) re abs st : runs abs st (Some true) ->
  reach (Linux b) runs re constructed (World (Sem released 1 1) (WDone true) OIdle false (full_log abs st)).
Proof.
  intros Hr. assert (H : reach (Linux b) runs re constructed constructed) by constructor. unfold constructed at 2 in H.
  eapply reach_w in H; [|apply (W_good _ _ _ _ _ abs)].
  eapply reach_w in H; [|apply W_check, L_q_pending; reflexivity].
  eapply reach_w in H; [|apply W_checked].
  eapply reach_o in H; [|apply (O_begin _ _ _ _ false)].
  eapply reach_o in H; [|apply O_release, L_r_first; discriminate].
  eapply reach_o in H; [|apply O_release, L_r_write].
  eapply reach_o in H; [|apply O_release, L_r_store].
  eapply reach_o in H; [|apply O_wait; discriminate].
  eapply reach_w in H; [|apply (W_live _ _ _ _ _ _ _ 1%Z)].
  eapply reach_w in H; [|apply W_return].
  eapply reach_w in H; [|apply W_adapt, Hr].
  apply run_through in H; [|cbn; lia].
  eapply reach_w in H; [|apply W_ended].
  eapply reach_w in H; [|apply (W_die _ _ _ _ _ _ _ _ 2%Z)].
  eapply reach_w in H; [|apply W_return].
  eapply reach_o in H; [|apply O_get; reflexivity].
  eapply reach_o in H; [|apply O_closed].
  unfold full_log. cbn in *. rewrite ?app_nil_r in H. rewrite <- app_assoc in H. exact H.
Qed.

(** A whole life in which close() is called while the adapter runs, after [st1]. *)
Definition late_log (abs : text) (st1 st2 : list act) : list entry :=
  ([LLook (Some abs) (Some true); LCheck pending; LCb (live_event true abs 1); LWatch abs] ++ acts_log st1) ++
  LRequest :: (LReleased released :: acts_log st2 ++ [LCb (die_event true abs 2)]) ++ [LClosed released true].
Lemma run_on pl runs re w0 m abs r o vd st' st : ~ In AStop st -> forall l,
  reach pl runs re w0 (World m (WRun abs (st ++ st') r) o vd l) -> reach pl runs re w0 (World m (WRun abs st' r) o vd (l ++ acts_log st)).
Proof.
  induction st as [|a st IH]; intros Hn l H; [cbn; rewrite app_nil_r; exact H|].
  replace (l ++ acts_log (a :: st)) with ((l ++ acts_log [a]) ++ acts_log st) by (rewrite <- app_assoc, <- acts_log_app; reflexivity).
  apply IH; [intros Hi; apply Hn; now right|]. destruct a; cbn; rewrite ?app_nil_r.
  - eapply reach_w in H; [|apply W_cb]. eapply reach_w in H; [|apply W_return]. rewrite app_nil_r in H. exact H.
  - exfalso. apply Hn. now left.
  - eapply reach_w in H; [|apply W_other]. rewrite app_nil_r in H. exact H.
Qed.
Lemma closing pl runs re w0 w l : reach pl runs re w0 (World sem_new w OIdle true l) ->
  exists m, stop_visible pl m /\ reach pl runs re w0 (World m w (OWait false released) true (l ++ [LRequest; LReleased released])).
Proof.
  intros H. eapply reach_o in H; [|apply (O_begin _ _ _ _ false)]. destruct pl as [b| |].
  - eapply reach_o in H; [|apply O_release, L_r_first; discriminate].
    eapply reach_o in H; [|apply O_release, L_r_write].
    eapply reach_o in H; [|apply O_release, L_r_store].
    eapply reach_o in H; [|apply O_wait; discriminate]. rewrite ?app_nil_r, <- app_assoc in H. eexists. split; [|exact H]. cbn. lia.
  - eapply reach_o in H; [|apply O_release, D_r_won; reflexivity].
    eapply reach_o in H; [|apply O_release, D_r_signal].
    eapply reach_o in H; [|apply O_wait; discriminate]. rewrite ?app_nil_r, <- app_assoc in H. eexists. split; [|exact H]. cbn. now left.
  - eapply reach_o in H; [|apply O_release, O_r].
    eapply reach_o in H; [|apply O_wait; discriminate]. rewrite ?app_nil_r, <- app_assoc in H. eexists. split; [|exact H]. reflexivity.
Qed.
Lemma late_life pl (runs : text -> list act -> option bool -> Prop) re abs st1 st2 : runs abs (st1 ++ st2) (Some true) -> ~ In AStop st1 ->
  exists m, reach pl runs re constructed (World m (WDone true) OIdle false (late_log abs st1 st2)).
Proof.
  intros Hr Hn. assert (H : reach pl runs re constructed constructed) by constructor. unfold constructed at 2 in H.
  eapply reach_w in H; [|apply (W_good _ _ _ _ _ abs)].
  assert (Hq : sem_step pl sem_new QStart sem_new (Ret pending)) by (destruct pl; constructor; reflexivity).
  eapply reach_w in H; [|apply W_check, Hq].
  eapply reach_w in H; [|apply W_checked].
  eapply reach_w in H; [|apply (W_live _ _ _ _ _ _ _ 1%Z)].
  eapply reach_w in H; [|apply W_return].
  eapply reach_w in H; [|apply W_adapt, Hr].
  apply run_on in H; [|exact Hn]. apply closing in H as (m & Hm & H). exists m.
  apply run_through in H; [|exact Hm].
  eapply reach_w in H; [|apply W_ended].
  eapply reach_w in H; [|apply (W_die _ _ _ _ _ _ _ _ 2%Z)].
  eapply reach_w in H; [|apply W_return].
  eapply reach_o in H; [|apply O_get; reflexivity].
  eapply reach_o in H; [|apply O_closed].
  match type of H with reach _ _ _ _ (World _ _ _ _ ?l) => replace l with (late_log abs st1 st2) in H; [exact H|] end.
  unfold late_log. cbn. rewrite ?app_nil_r, <- ?app_assoc. cbn. rewrite <- ?app_assoc. reflexivity.
Qed.

(** A life refused because close() came first. *)
Definition refused_log (abs : text) : list entry :=
  [LRequest; LReleased released; LLook (Some abs) (Some true); LCheck released; LCb (live_event false abs 1); LCb (die_event false abs 2); LClosed released false].
Lemma refused_life b runs re abs :
  reach (Linux b) runs re constructed (World (Sem released 0 1) (WDone false) OIdle false (refused_log abs)).
Proof.
  assert (H : reach (Linux b) runs re constructed constructed) by constructor. unfold constructed at 2 in H.
  eapply reach_o in H; [|apply (O_begin _ _ _ _ false)].
  eapply reach_o in H; [|apply O_release, L_r_first; discriminate].
  eapply reach_o in H; [|apply O_release, L_r_write].
  eapply reach_o in H; [|apply O_release, L_r_store].
  eapply reach_o in H; [|apply O_wait; discriminate].
  eapply reach_w in H; [|apply (W_good _ _ _ _ _ abs)].
  eapply reach_w in H; [|apply W_check, L_q_other; discriminate].
  eapply reach_w in H; [|apply W_check, L_q_take; cbn; lia].
  eapply reach_w in H; [|apply W_check, L_q_store].
  eapply reach_w in H; [|apply W_checked].
  eapply reach_w in H; [|apply (W_live _ _ _ _ _ _ _ 1%Z)].
  eapply reach_w in H; [|apply W_return].
  eapply reach_w in H; [|apply (W_die _ _ _ _ _ _ _ _ 2%Z)].
  eapply reach_w in H; [|apply W_return].
  eapply reach_o in H; [|apply O_get; reflexivity].
  eapply reach_o in H; [|apply O_closed].
  exact H.
Qed.

(** A run of the Linux adapter: a directory, a rename and a change, then the stop. *)
Definition run1_acts : list act := map (act_of 5) (fst run1).
Lemma run1_runs : linux_runs (lit "/w") run1_acts (Some true).
Proof.
  exists run1_os, 10%nat, 5%Z, [], (fst run1), (snd run1). split; [unfold run1; now destruct (linux_watch _ _ _ _ _)|].
  split; [reflexivity|]. left. exists true. split; [exact C04_example|reflexivity].
Qed.

(** A small adapter whose runs all end: it reports any events, then waits for the
    stop, or fails at once. *)
Definition simple_runs (path : text) (st : list act) (r : option bool) : Prop :=
  (exists es, st = map ACb es ++ [AStop] /\ Forall ordinary es /\ r = Some true) \/ (st = [] /\ r = Some false).
Lemma simple_ok : adapter_ok simple_runs.
Proof.
  split.
  - intros abs st r e [(es & -> & Ho & _)|(-> & _)]; [|intros []]. intros H. apply in_app_iff in H as [H|[[=]|[]]].
    apply in_map_iff in H as (x & [= ->] & H). rewrite Forall_forall in Ho. auto.
  - intros abs st [(es & -> & _ & _)|(_ & [=])]. apply in_app_iff. cbn. auto.
Qed.
Lemma simple_ends : adapter_ends simple_runs.
Proof. split; [intros abs; exists [], (Some false); right; auto|]. intros abs st r [(es & _ & _ & ->)|(_ & ->)]; discriminate. Qed.

(** The destructor, its stop request having failed, waits for a thread that waits
    for the stop. *)
Lemma stuck_destructor : exists w, reach (Linux true) simple_runs false constructed w /\ ow w = OFuture /\
  forall w', ~ step (Linux true) simple_runs false w w'.
Proof.
  assert (H : reach (Linux true) simple_runs false constructed constructed) by constructor. unfold constructed at 2 in H.
  eapply reach_w in H; [|apply (W_good _ _ _ _ _ [])].
  eapply reach_w in H; [|apply W_check, L_q_pending; reflexivity].
  eapply reach_w in H; [|apply W_checked].
  eapply reach_w in H; [|apply (W_live _ _ _ _ _ _ _ 1%Z)].
  eapply reach_w in H; [|apply W_return].
  eapply reach_w in H; [|apply (W_adapt _ _ _ _ _ _ [AStop] (Some true)); left; exists []; auto].
  eapply reach_o in H; [|apply (O_begin _ _ _ _ true)].
  eapply reach_o in H; [|apply O_release, L_r_first; discriminate].
  eapply reach_o in H; [|apply O_release, L_r_fails].
  eapply reach_o in H; [|apply O_release, L_r_store].
  eapply reach_o in H; [|apply O_false; auto].
  eapply reach_o in H; [|apply O_dtor].
  eexists. split; [exact H|]. split; [reflexivity|]. intros w' S. inversion S as [? ? ? ? ? ? ? ? W|? ? ? ? ? ? ? ? ? O]; subst.
  - inversion W as [| | | | | | |? ? ? V| | | | | | | |]; subst. cbn in V. lia.
  - inversion O as [| | | | | | |? [?|(? & ?)]]; discriminate.
Qed.

(** A callback that calls close(): the watching thread waits for itself. *)
Lemma stuck_reentrant : exists w k, reach (Linux false) simple_runs true constructed w /\ wt w = WSelfWait k.
Proof.
  assert (H : reach (Linux false) simple_runs true constructed constructed) by constructor. unfold constructed at 2 in H.
  eapply reach_w in H; [|apply (W_good _ _ _ _ _ [])].
  eapply reach_w in H; [|apply W_check, L_q_pending; reflexivity].
  eapply reach_w in H; [|apply W_checked].
  eapply reach_w in H; [|apply (W_live _ _ _ _ _ _ _ 1%Z)].
  eapply reach_w in H; [|apply W_self; reflexivity].
  eapply reach_w in H; [|apply W_self_rel, L_r_first; discriminate].
  eapply reach_w in H; [|apply W_self_rel, L_r_write].
  eapply reach_w in H; [|apply W_self_rel, L_r_store].
  eapply reach_w in H; [|apply W_self_wait; [discriminate|reflexivity]].
  do 2 eexists. split; [exact H|reflexivity].
Qed.

(** A close() whose stop request fails returns and the events go on. *)
Lemma noisy_after_failed_close (e : event) : ordinary e -> exists w l1 l2, reach (Linux true) simple_runs false constructed w /\
  log w = l1 ++ LClosed error false :: l2 /\ received l2 = [e].
Proof.
  intros He. assert (H : reach (Linux true) simple_runs false constructed constructed) by constructor. unfold constructed at 2 in H.
  eapply reach_w in H; [|apply (W_good _ _ _ _ _ [])].
  eapply reach_w in H; [|apply W_check, L_q_pending; reflexivity].
  eapply reach_w in H; [|apply W_checked].
  eapply reach_w in H; [|apply (W_live _ _ _ _ _ _ _ 1%Z)].
  eapply reach_w in H; [|apply W_return].
  eapply reach_w in H; [|apply (W_adapt _ _ _ _ _ _ [ACb e; AStop] (Some true)); left; exists [e]; auto].
  eapply reach_o in H; [|apply (O_begin _ _ _ _ false)].
  eapply reach_o in H; [|apply O_release, L_r_first; discriminate].
  eapply reach_o in H; [|apply O_release, L_r_fails].
  eapply reach_o in H; [|apply O_release, L_r_store].
  eapply reach_o in H; [|apply O_false; auto].
  eapply reach_o in H; [|apply O_closed].
  eapply reach_w in H; [|apply W_cb].
  cbn in H. eexists _, [_; _; _; _; _; _], [_]. split; [exact H|]. split; reflexivity.
Qed.

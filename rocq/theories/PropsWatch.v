(** Theorems C01-C08, C10, C11: the watch class and its stop flag.

    A life of a watcher is [reach pl runs re constructed w]: [w] is any state the
    watching thread and the owner can get to from construction, in any
    interleaving; [log w] is what happened so far, [received (log w)] the events
    the callback got.  [pl] is the platform, [runs] the adapter's possible runs,
    [re] says whether the callback may call close(). *)
From Verif Require Import Base EventModel SemabinModel SemabinFacts WatchModel WatchSpec WatchFacts WatchStop WatchClaims
  WatchLife WatchProgress WatchExamples.

(** ** C01: live first, die last, once each *)
Theorem C01_live_first_die_last :
  forall pl runs re w, adapter_ok runs -> reach pl runs re constructed w ->
    (received (log w) = [] /\ ~ ended w) \/
    (exists abs e mid, received (log w) = e :: mid /\ (live_ok abs e \/ live_bad abs e) /\ Forall ordinary mid /\ ~ ended w) \/
    (exists abs e mid e', received (log w) = e :: mid ++ [e'] /\ (live_ok abs e \/ live_bad abs e) /\ Forall ordinary mid /\
       (die_ok abs e' \/ die_bad abs e')).
Proof.
  intros pl runs re w [Hq _] H. apply wi_reach in H. unfold wi in H. apply (shape_life runs Hq) in H. rewrite received_wlog in H.
  assert (F : finw (wt w) = false -> ~ ended w) by (intros F (b & E); rewrite E in F; discriminate).
  destruct H as [(E & ->)|[(abs & e & mid & E & -> & Hl & Hm)|(abs & e & mid & e' & E & -> & Hl & Hm & Hd)]].
  - left. auto.
  - right; left. exists abs, e, mid. auto.
  - right; right. exists abs, e, mid, e'. auto.
Qed.
Print Assumptions C01_live_first_die_last.

(** The Linux adapter meets the hypothesis. *)
Theorem C01_linux_adapter : adapter_ok linux_runs.
Proof. exact linux_adapter_ok. Qed.
Print Assumptions C01_linux_adapter.
(** A whole life with the Linux adapter: five events and one warning-free end. *)
Example C01_example : exists w, reach (Linux true) linux_runs false constructed w /\ ended w /\ length (received (log w)) = 5%nat.
Proof.
  eexists. split; [apply (full_life true linux_runs false (lit "/w") run1_acts run1_runs)|]. split; [exists true; reflexivity|vm_compute; reflexivity].
Qed.

(** ** C02: the live message tells the truth *)
Theorem C02_live_message :
  forall pl runs re w e rest, adapter_ok runs -> reach pl runs re constructed w -> received (log w) = e :: rest ->
    (exists abs, live_ok abs e /\ accepted abs (log w)) \/
    (exists abs, live_bad abs e /\ rejected (log w) /\ (rest = [] \/ exists e', rest = [e'] /\ die_bad abs e') /\
       forall v b, In (LClosed v b) (log w) -> b = false).
Proof.
  intros pl runs re w e rest [Hq _] H E. pose proof (ji_reach _ _ _ _ H) as J. pose proof (wi_reach _ _ _ _ H) as S. unfold wi in S.
  rewrite <- received_wlog in E. destruct (shape_live runs _ _ S e rest E) as [(abs & Hl & A1 & A2 & A3 & A4)|(abs & Hl & Hr & R1 & R2)].
  - left. exists abs. split; [exact Hl|]. split; [exact (wlog_in _ _ A1)|]. split; [exact (wlog_in _ _ A2)|]. split.
    + intros v Hv. apply A3. apply in_wlog; [reflexivity|assumption].
    + intros a d Hv. apply A4. apply in_wlog; [reflexivity|assumption].
  - right. exists abs. split; [exact Hl|]. split; [|split; [exact Hr|]].
    + split; [intros p Hp; apply (R1 p); apply in_wlog; [reflexivity|exact Hp]|].
      destruct R2 as [(a & d & R2 & R3)|(v & R2 & R3)]; [left; exists a, d|right; exists v]; (split; [exact (wlog_in _ _ R2)|exact R3]).
    + intros v b Hin. apply in_split in Hin as (l1 & l2 & Hin). destruct J as [_ _ _ _ J5 J6 J7 _ _ _ _].
      destruct (any_good l1) eqn:G; [eapply J6; eauto|]. destruct v; [| |eapply J7; eauto].
      all: specialize (J5 _ _ _ _ Hin ltac:(discriminate) G); rewrite J5 in S; destruct b; [|reflexivity]; exfalso;
        destruct (proj1 (shape_result runs Hq true _ S) eq_refl) as [(a' & e' & He' & Hl') _]; apply (proj1 (in_received e' _)) in He'; rewrite E in He';
        destruct He' as [<-|He']; [destruct Hl as (F & _), Hl' as (F' & _); rewrite F in F'; discriminate F'|];
        destruct Hr as [->|(x & -> & Hd)]; [destruct He'|]; destruct He' as [<-|[]]; destruct Hl' as (_ & F & _), Hd as (_ & F' & _); congruence.
Qed.
Print Assumptions C02_live_message.

(** What the check of the stop flag says is right: no stop is seen unless one was
    requested, and one whose request was answered before is seen. *)
Theorem C02_check_is_truthful :
  forall pl runs re w, reach pl runs re constructed w ->
    (forall l1 v l2, log w = l1 ++ LCheck v :: l2 -> v <> pending -> In LRequest l1) /\
    (forall l1 a d l2 v, log w = l1 ++ LLook a d :: l2 -> In (LReleased released) l1 -> In (LCheck v) (log w) -> v <> pending).
Proof.
  intros pl runs re w H. split.
  - intros l1 v l2. apply (ri_reach pl runs re w H).
  - intros l1 a d l2 v E Hin. apply (ci_reach pl runs re w H). exists l1, a, d, l2. auto.
Qed.
Print Assumptions C02_check_is_truthful.
Example C02_example_ok : exists w e rest, reach Darwin simple_runs false constructed w /\ received (log w) = e :: rest /\ live_ok (lit "/w") e.
Proof.
  assert (H : reach Darwin simple_runs false constructed constructed) by constructor. unfold constructed at 2 in H.
  eapply reach_w in H; [|apply (W_good _ _ _ _ _ (lit "/w"))].
  eapply reach_w in H; [|apply W_check, D_q].
  eapply reach_w in H; [|apply W_checked].
  eapply reach_w in H; [|apply (W_live _ _ _ _ _ _ _ 1%Z)].
  do 3 eexists. split; [exact H|]. split; [reflexivity|]. repeat split.
Qed.
Example C02_example_refused : exists w e rest, reach (Linux true) linux_runs false constructed w /\ received (log w) = e :: rest /\
  live_bad (lit "/w") e /\ In (LClosed released false) (log w).
Proof.
  do 3 eexists. split; [apply (refused_life true linux_runs false (lit "/w"))|]. split; [reflexivity|]. split; [repeat split|]. cbn. tauto.
Qed.

(** ** C03: the die message and close() agree *)
Theorem C03_close_agrees :
  forall pl runs re w l1 v b l2, adapter_ok runs -> reach pl runs re constructed w ->
    log w = l1 ++ LClosed v b :: l2 -> v <> error ->
    (forall v' b', In (LClosed v' b') l1 -> v' = error) -> ~ In LGone l1 ->
    (b = true <-> (exists abs e, In (LCb e) l1 /\ live_ok abs e) /\ (exists abs e, In (LCb e) l1 /\ die_ok abs e)).
Proof.
  intros pl runs re w l1 v b l2 [Hq _] H E Hv Hf Hg. pose proof (ji_reach _ _ _ _ H) as J. apply wi_reach in H. unfold wi in H.
  assert (G : any_good l1 = false).
  { destruct (any_good l1) eqn:G; auto. apply existsb_exists in G as (x & Hx & Gx). destruct x; try discriminate; [|contradiction].
    rewrite (Hf _ _ Hx) in Gx. discriminate. }
  pose proof (j_after _ J l1 (LClosed v b) l2 E) as A. rewrite (j_first _ J _ _ _ _ E Hv G) in H.
  apply (shape_result runs Hq) in H. rewrite !got_wlog in H. rewrite H, E. clear H.
  assert (Ir : forall e, In (LCb e) (l1 ++ LClosed v b :: l2) <-> In (LCb e) l1).
  { intros e. rewrite in_app_iff. split; [|auto]. intros [?|[[=]|Hin]]; auto. exfalso. apply in_received in Hin.
    rewrite A in Hin; [destruct Hin|]. destruct v; auto; congruence. }
  unfold got. split; intros [(a1 & e1 & I1 & P1) (a2 & e2 & I2 & P2)]; (split; [exists a1, e1|exists a2, e2]); (split; [apply Ir; assumption|assumption]).
Qed.
Print Assumptions C03_close_agrees.
Example C03_example_true : exists w l1 l2, reach (Linux true) linux_runs false constructed w /\ log w = l1 ++ LClosed released true :: l2 /\
  (forall v' b', In (LClosed v' b') l1 -> v' = error) /\ ~ In LGone l1.
Proof.
  eexists _, (removelast (full_log (lit "/w") run1_acts)), []. split; [apply (full_life true linux_runs false (lit "/w") run1_acts run1_runs)|].
  split; [vm_compute; reflexivity|]. split.
  - intros v b Hin. exfalso. apply (in_map (fun x => match x with LClosed _ _ => true | _ => false end)) in Hin. vm_compute in Hin. intuition discriminate.
  - intros Hin. apply (in_map (fun x => match x with LGone => true | _ => false end)) in Hin. vm_compute in Hin. intuition discriminate.
Qed.

(** ** C04, for the whole class: success only on request *)
Theorem C04_success_only_after_request :
  forall pl runs re w l1 e l2 abs, adapter_ok runs -> reach pl runs re constructed w ->
    log w = l1 ++ LCb e :: l2 -> die_ok abs e ->
    exists a b, l1 = a ++ LStop :: b /\ In LRequest a.
Proof.
  intros pl runs re w l1 e l2 abs Ha H E Hd. pose proof (ri_reach _ _ _ _ H) as R. apply wi_reach in H. unfold wi in H.
  rewrite E, wlog_app in H. cbn in H. assert (Hs : In LStop (wlog l1)) by (eapply shape_die; eauto).
  apply wlog_in in Hs. apply in_split in Hs as (a & b & ->). exists a, b. split; [reflexivity|].
  rewrite <- app_assoc in E. cbn in E. eapply (r_stop _ R). exact E.
Qed.
Print Assumptions C04_success_only_after_request.
Example C04_life_example : exists w l1 e l2, reach (Linux true) linux_runs false constructed w /\ log w = l1 ++ LCb e :: l2 /\ die_ok (lit "/w") e.
Proof.
  eexists _, (removelast (removelast (full_log (lit "/w") run1_acts))), (die_event true (lit "/w") 2), [_].
  split; [apply (full_life true linux_runs false (lit "/w") run1_acts run1_runs)|]. split; [vm_compute; reflexivity|repeat split].
Qed.

(** ** C05: repeated close *)
Theorem C05_repeated_close :
  forall pl runs re w l1 v b l2, reach pl runs re constructed w -> log w = l1 ++ LClosed v b :: l2 -> v <> error ->
    (forall v' b', In (LClosed v' b') l2 -> b' = false) /\ received l2 = [] /\
    (* inside a later call the owner can always go on by itself *)
    (match ow w with OClose _ _ | OWait _ _ | ORet _ _ _ => True | _ => False end ->
     exists m' vd' o' l', o_step pl (wt w) (sm w) (valid w) (ow w) m' vd' o' l').
Proof.
  intros pl runs re w l1 v b l2 H E Hv. pose proof (ji_reach _ _ _ _ H) as J. pose proof (ti_reach _ _ _ _ H) as [_ To _ _].
  assert (Gx : good_close (LClosed v b) = true) by (destruct v; auto; congruence).
  split; [|split].
  - intros v' b' Hin. apply in_split in Hin as (a & c & ->). apply (j_later _ J v' b' (l1 ++ LClosed v b :: a) c).
    + rewrite E, <- app_assoc. reflexivity.
    + unfold any_good. rewrite existsb_app. cbn [existsb]. rewrite Gx. now rewrite orb_true_r.
  - eapply (j_after _ J); eauto.
  - intros C. assert (G : any_good (log w) = true) by (rewrite E; unfold any_good; rewrite existsb_app; cbn [existsb]; rewrite Gx; now rewrite orb_true_r).
    destruct (j_good _ J G) as [[Hf|Hf] _]; [|rewrite Hf in C; tauto].
    pose proof (j_wait _ J) as Jw. destruct (ow w) as [|dtor p|dtor v0|dtor v0 b0| |] eqn:Eo; try tauto.
    + destruct p; try (unfold release_pc in To; destruct pl; tauto).
      1-4: edestruct (release_can pl (sm w)) as (m' & p' & Hst); [eassumption|discriminate|]; do 4 eexists; apply O_release, Hst.
      do 4 eexists. apply O_false. auto.
    + destruct (Jw _ _ eq_refl). congruence.
    + destruct dtor; do 4 eexists; [apply O_dtor|apply O_closed].
Qed.
Print Assumptions C05_repeated_close.
(** close() twice. *)
Example C05_example : exists w l1 l2, reach (Linux true) linux_runs false constructed w /\
  log w = l1 ++ LClosed released true :: l2 /\ In (LClosed released false) l2.
Proof.
  pose proof (full_life true linux_runs false (lit "/w") run1_acts run1_runs) as H.
  eapply reach_o in H; [|apply (O_begin _ _ _ _ false)].
  eapply reach_o in H; [|apply O_release, L_r_again; reflexivity].
  eapply reach_o in H; [|apply O_false; auto].
  eapply reach_o in H; [|apply O_closed].
  eexists _, (removelast (full_log (lit "/w") run1_acts)), [LRequest; LReleased released; LClosed released false].
  split; [exact H|]. split; [vm_compute; reflexivity|cbn; tauto].
Qed.

(** ** C06: silence after close *)
Theorem C06_silence_after_close :
  forall pl runs re w l1 x l2, reach pl runs re constructed w -> log w = l1 ++ x :: l2 ->
    (exists v b, x = LClosed v b /\ v <> error) \/ x = LGone -> received l2 = [].
Proof.
  intros pl runs re w l1 x l2 H E Hx. pose proof (ji_reach _ _ _ _ H) as J. eapply (j_after _ J); [exact E|].
  destruct Hx as [(v & b & -> & Hv)| ->]; [destruct v; auto; congruence|reflexivity].
Qed.
Print Assumptions C06_silence_after_close.
(** The condition is needed: if the stop request fails, close() returns false and events go on. *)
Theorem C06_not_silent_after_failed_close :
  exists w l1 l2 e, reach (Linux true) simple_runs false constructed w /\ log w = l1 ++ LClosed error false :: l2 /\ received l2 = [e].
Proof.
  destruct (noisy_after_failed_close (Ev (lit "/w/f") EtModify PtFile 7 None)) as (w & l1 & l2 & H); [discriminate|].
  exists w, l1, l2, (Ev (lit "/w/f") EtModify PtFile 7 None). exact H.
Qed.
Print Assumptions C06_not_silent_after_failed_close.

(** ** C07: close before live *)

(** Proved for a close() whose stop request was answered before the watching
    thread looked at the path: error, nothing is watched. *)
Theorem C07_close_before_live_partial :
  forall pl runs re w l1 a d l2, adapter_ok runs -> reach pl runs re constructed w ->
    log w = l1 ++ LLook a d :: l2 -> In (LReleased released) l1 ->
    (forall v b, In (LClosed v b) (log w) -> b = false) /\ (forall p, ~ In (LWatch p) (log w)) /\
    (received (log w) = [] \/ exists abs e, live_bad abs e /\ (received (log w) = [e] \/ exists e', received (log w) = [e; e'] /\ die_bad abs e')).
Proof.
  intros pl runs re w l1 a d l2 Ha H E Hr. pose proof (ji_reach _ _ _ _ H) as J.
  assert (He : early (log w)) by (exists l1, a, d, l2; auto).
  pose proof (e_barred _ (ei_reach _ _ _ _ H) He) as B.
  assert (Hc : forall v, In (LCheck v) (log w) -> v <> pending) by (apply (ci_reach _ _ _ _ H He)).
  assert (Hcl : forall v b, In (LClosed v b) (log w) -> b = false).
  { intros v b Hin. apply in_split in Hin as (a1 & a2 & Hin). destruct J as [_ _ _ _ J5 J6 J7 _ _ _ _].
    destruct (any_good a1) eqn:G; [eapply J6; eauto|]. destruct v; [| |eapply J7; eauto].
    all: specialize (J5 _ _ _ _ Hin ltac:(discriminate) G); rewrite J5 in B; exact B. }
  split; [exact Hcl|]. destruct (received (log w)) as [|e rest] eqn:Er.
  - split; [|auto]. intros p Hp. pose proof (wi_reach _ _ _ _ H) as S. unfold wi in S. apply (in_wlog (LWatch p)) in Hp; [|reflexivity].
    rewrite <- received_wlog in Er. clear -S Hp Er. revert Hp Er.
    induction S; auto; cbn; try tauto; try (intuition discriminate); intros Hp Er; try (rewrite received_app in Er; destruct (received l); discriminate).
    destruct H; cbn in Hp; intuition discriminate.
  - destruct (C02_live_message pl runs re w e rest Ha H Er) as [(abs & _ & _ & A2 & _)|(abs & Hl & (R1 & _) & Hrest & _)].
    + now apply Hc in A2.
    + split; [exact R1|]. right. exists abs, e. split; [exact Hl|]. destruct Hrest as [->|(e' & -> & Hd)]; eauto.
Qed.
Print Assumptions C07_close_before_live_partial.
Example C07_example : exists w l1 a d l2, reach (Linux true) linux_runs false constructed w /\ log w = l1 ++ LLook a d :: l2 /\ In (LReleased released) l1.
Proof.
  eexists _, [LRequest; LReleased released], _, _, _. split; [apply (refused_life true linux_runs false (lit "/w"))|]. split; [reflexivity|cbn; tauto].
Qed.

(** The full claim fails: a close() begun and answered by the stop flag before
    the live message, but after the check, returns true and the watcher lives
    and reports events. *)
Theorem C07_close_before_live_refuted :
  exists w l1 l2 e1 e2 e3 rest, reach (Linux false) linux_runs false constructed w /\
    log w = l1 ++ LReleased released :: l2 /\ received l1 = [] /\
    received l2 = e1 :: e2 :: e3 :: rest /\ live_ok (lit "/w") e1 /\ In (LClosed released true) l2.
Proof.
  eexists _, (firstn 3 (full_log (lit "/w") run1_acts)), (skipn 4 (full_log (lit "/w") run1_acts)), _, _, _, _.
  split; [apply (full_life false linux_runs false (lit "/w") run1_acts run1_runs)|]. split; [vm_compute; reflexivity|]. split; [reflexivity|].
  split; [vm_compute; reflexivity|]. split; [repeat split|]. vm_compute. tauto.
Qed.
Print Assumptions C07_close_before_live_refuted.

(** ** C08: close() does not deadlock *)
Theorem C08_close_returns :
  forall pl runs w, adapter_ends runs -> reach pl runs false constructed w ->
    match ow w with OClose _ _ | OWait _ _ | ORet _ _ _ => True | _ => False end ->
    inevitable (step pl runs false) (fun w' => match ow w' with OClose _ _ | OWait _ _ | ORet _ _ _ => False | _ => True end) w.
Proof.
  intros pl runs w He H C. pose proof (close_returns pl runs He w H C) as I. clear -I. induction I as [w P|w E S IH].
  - apply Now. destruct (ow w); cbn in P; tauto.
  - apply Later; assumption.
Qed.
Print Assumptions C08_close_returns.
Theorem C08_destructor_ends :
  forall pl runs w, pl <> Linux true -> adapter_ends runs -> reach pl runs false constructed w ->
    match ow w with OClose true _ | OWait true _ | ORet true _ _ | OFuture => True | _ => False end ->
    inevitable (step pl runs false) (fun w' => ow w' = OGone) w.
Proof. intros pl runs w Hp He H C. apply dtor_returns; assumption. Qed.
Print Assumptions C08_destructor_ends.
Example C08_example : adapter_ends simple_runs /\
  exists w, reach (Linux false) simple_runs false constructed w /\ ow w = OWait true released.
Proof.
  split; [exact simple_ends|]. assert (H : reach (Linux false) simple_runs false constructed constructed) by constructor. unfold constructed at 2 in H.
  eapply reach_o in H; [|apply (O_begin _ _ _ _ true)].
  eapply reach_o in H; [|apply O_release, L_r_first; discriminate].
  eapply reach_o in H; [|apply O_release, L_r_write].
  eapply reach_o in H; [|apply O_release, L_r_store].
  eapply reach_o in H; [|apply O_wait; discriminate].
  eexists. split; [exact H|reflexivity].
Qed.
(** When the stop signal cannot be given (eventfd_write fails), close() returns
    false, but the destructor waits for ever: nothing can happen any more. *)
Theorem C08_destructor_hangs_if_signal_fails :
  exists w, reach (Linux true) simple_runs false constructed w /\ ow w = OFuture /\ forall w', ~ step (Linux true) simple_runs false w w'.
Proof. exact stuck_destructor. Qed.
Print Assumptions C08_destructor_hangs_if_signal_fails.
(** A callback that calls close() never returns: the watching thread waits for
    itself for ever, and no close() ever joins it. *)
Theorem C08_close_in_callback_deadlocks :
  exists w k, reach (Linux false) simple_runs true constructed w /\ wt w = WSelfWait k /\
    forall w', reach (Linux false) simple_runs true w w' -> wt w' = WSelfWait k /\ (forall v b, In (LClosed v b) (log w') -> v = error).
Proof.
  destruct stuck_reentrant as (w & k & H & E). exists w, k. split; [exact H|]. split; [exact E|]. intros w' H'.
  assert (E' : wt w' = WSelfWait k).
  { clear H. revert E. induction H' as [|w0 w w' H' IH S]; intros E; [exact E|]. specialize (IH E). destruct S as [? ? ? ? ? ? ? ? S|]; cbn in *; [|exact IH].
    subst. inversion S. }
  split; [exact E'|]. intros v b Hin.
  assert (Hall : reach (Linux false) simple_runs true constructed w').
  { clear E E' Hin. revert H. induction H' as [|w0 w1 w2 H1 IH S]; intros H; [exact H|]. exact (Reach1 _ _ _ _ _ _ (IH H) S). }
  apply ji_reach in Hall. destruct v; [| |reflexivity]; exfalso.
  all: apply in_split in Hin as (l1 & l2 & Hin); destruct (j_good _ Hall) as [_ (b' & Eb)]; [|congruence];
    rewrite Hin; unfold any_good; rewrite existsb_app; cbn; now rewrite orb_true_r.
Qed.
Print Assumptions C08_close_in_callback_deadlocks.

(** ** C10: the stop state is sticky *)

(** Darwin and elsewhere: for any threads and calls; a query begun after some
    release() has returned released answers released. *)
Theorem C10_sticky_partial :
  forall pl cs w w' i r v, pl = Darwin \/ pl = Other ->
    sreach pl (sem_start cs) w -> In (Release, released) (answers w) ->
    nth_error (threads w) i = Some (Thread None (Query :: r)) ->
    sreach pl w w' -> nth_error (threads w') i = Some (Thread (Some (Ret v)) (Query :: r)) -> v = released.
Proof. intros pl cs w w' i r v. apply sticky_query. Qed.
Print Assumptions C10_sticky_partial.

(** Linux: for the first query (the only one the watch class makes), any number
    of release() calls of one thread, no failing system calls. *)
Theorem C10_first_query_linux_partial :
  forall n w w' v, sreach (Linux false) (sem_start [repeat Release n; [Query]]) w ->
    In (Release, released) (answers w) -> nth_error (threads w) 1 = Some (Thread None [Query]) ->
    sreach (Linux false) w w' -> nth_error (threads w') 1 = Some (Thread (Some (Ret v)) [Query]) -> v = released.
Proof. exact linux_first_query. Qed.
Print Assumptions C10_first_query_linux_partial.

Ltac sstep0 H ts1 := eapply SR_step in H; [|apply (S_step _ _ ts1); first
  [apply T_ret | apply T_call | apply T_move; first
   [apply L_r_first; discriminate | apply L_r_write | apply L_r_store | apply L_q_other; discriminate
   |apply L_q_take; cbn; lia | apply L_q_empty; reflexivity | apply L_q_store | apply D_r_won; reflexivity | apply D_r_signal | apply D_q]]].

(** Linux, the full claim fails: the second query answers pending. *)
Theorem C10_sticky_linux_refuted :
  exists w, sreach (Linux false) (sem_start [[Release; Query; Query]]) w /\
    answers w = [(Release, released); (Query, released); (Query, pending)].
Proof.
  assert (H : sreach (Linux false) (sem_start [[Release; Query; Query]]) (sem_start [[Release; Query; Query]])) by constructor.
  unfold sem_start in H at 2. cbn in H.
  do 15 sstep0 H (@nil thread). eexists. split; [exact H|reflexivity].
Qed.
Print Assumptions C10_sticky_linux_refuted.
Example C10_example : exists w, sreach Darwin (sem_start [[Release]; [Query]]) w /\ In (Release, released) (answers w) /\
  nth_error (threads w) 1 = Some (Thread None [Query]).
Proof.
  assert (H : sreach Darwin (sem_start [[Release]; [Query]]) (sem_start [[Release]; [Query]])) by constructor.
  unfold sem_start in H at 2. cbn in H. do 4 sstep0 H (@nil thread). eexists. split; [exact H|]. split; [now left|reflexivity].
Qed.

(** ** C11: the stop signal is given exactly once *)
Theorem C11_darwin_exactly_once :
  forall cs w, sreach Darwin (sem_start cs) w ->
    (signals (shared w) <= 1)%nat /\
    (Forall (fun t => doing t = None /\ todo t = []) (threads w) -> In Release (concat cs) -> signals (shared w) = 1%nat).
Proof.
  intros cs w H. split.
  - pose proof (darwin_signals _ _ H) as E. unfold owed in E. destruct (is (shared w)); lia.
  - intros Hf Hin. eapply darwin_exactly_once; eauto.
Qed.
Print Assumptions C11_darwin_exactly_once.
Theorem C11_linux_one_closer :
  forall n q w, (q = [] \/ q = [Query]) -> sreach (Linux false) (sem_start [repeat Release n; q]) w ->
    (signals (shared w) <= 1)%nat /\ (forall v, In (Release, v) (answers w) -> signals (shared w) = 1%nat).
Proof. exact linux_signals. Qed.
Print Assumptions C11_linux_one_closer.
Example C11_example : exists w, sreach Darwin (sem_start [[Release]; [Query]]) w /\
  Forall (fun t => doing t = None /\ todo t = []) (threads w) /\ signals (shared w) = 1%nat.
Proof.
  assert (H : sreach Darwin (sem_start [[Release]; [Query]]) (sem_start [[Release]; [Query]])) by constructor.
  unfold sem_start in H at 2. cbn in H. do 4 sstep0 H (@nil thread). do 3 sstep0 H [Thread None []].
  eexists. split; [exact H|]. split; [repeat constructor|reflexivity].
Qed.
(** With two threads in release() at once the Linux flag may be signalled twice. *)
Theorem C11_linux_two_closers_may_signal_twice :
  exists w, sreach (Linux false) (sem_start [[Release]; [Release]]) w /\ signals (shared w) = 2%nat.
Proof.
  assert (H : sreach (Linux false) (sem_start [[Release]; [Release]]) (sem_start [[Release]; [Release]])) by constructor.
  unfold sem_start in H at 2. cbn in H.
  do 2 sstep0 H (@nil thread). do 3 sstep0 H [Thread (Some RWrite) [Release]]. sstep0 H (@nil thread).
  eexists. split; [exact H|reflexivity].
Qed.
Print Assumptions C11_linux_two_closers_may_signal_twice.

(** Theorems C72: callbacks that throw. *)
From Verif Require Import Base EventModel EventSpec SemabinModel WatchModel WatchSpec WatchFacts WatchStop WatchClaims WatchLife WatchExamples ThrowModel.

(** A world reached without a throw is one of the watcher's. *)
Lemma xreach_usual pl runs re x : xreach pl runs re (XW constructed false) x -> forall w, x = XW w false -> reach pl runs re constructed w.
Proof.
  intros H. remember (XW constructed false) as x0. induction H as [|x y z H IH St]; subst.
  - intros w [= <-]. constructor.
  - intros w ->. inversion St; subst. eapply Reach1; [apply IH; reflexivity|assumption].
Qed.

Lemma xreach_thrown pl runs re w x : xreach pl runs re (XW w true) x -> (exists w', x = XW w' true) \/ exists l, x = XDead l.
Proof.
  intros H. remember (XW w true) as x0. induction H as [|x y z H IH St]; subst; [eauto|].
  destruct (IH eq_refl) as [(w' & ->)|(l & ->)]; inversion St; subst; eauto.
Qed.

(** Once the callback has thrown (and the program is still there), whatever the
    owner does: the callback is not called again, so the die message never comes;
    no close(), that of a destructor included, returns if its stop request could be
    made; one that has got as far as to wait can do nothing but end the program; and a
    destructor whose stop request could not be made comes to its end. *)
Theorem C72_throwing_callbacks_refuted :
  forall pl runs re w w', xreach pl runs re (XW constructed false) (XW w false) ->
    xstep pl runs re (XW w false) (XW w true) ->
    xreach pl runs re (XW w true) (XW w' true) ->
    exists l, log w' = log w ++ l /\ received l = [] /\ (forall v b, In (LClosed v b) l -> v = error /\ b = false) /\
      (forall dtor v, ow w' = OWait dtor v -> forall x, xstep pl runs re (XW w' true) x -> x = XDead (log w')) /\
      (ow w' = OFuture -> exists w2, xstep pl runs re (XW w' true) (XW w2 true) /\ ow w2 = OGone /\ log w2 = log w' ++ [LGone]).
Proof.
  intros pl runs re w w' H0 Ht H.
  assert (Hk : exists k, wt w = WIn k) by (inversion Ht; subst; cbn; eauto). destruct Hk as (k & Hk).
  pose proof (ji_reach _ _ _ _ (xreach_usual _ _ _ _ H0 w eq_refl)) as J.
  assert (Hv : valid w = true) by (destruct (valid w) eqn:E; [reflexivity|destruct (j_valid _ J E); congruence]).
  assert (Hr : match ow w with ORet _ v b => v = error /\ b = false | _ => True end).
  { destruct (ow w) as [| | |d v b| |] eqn:E; auto. destruct v; [exfalso..|].
    - destruct (j_ret _ J _ _ _ E ltac:(discriminate)). congruence.
    - destruct (j_ret _ J _ _ _ E ltac:(discriminate)). congruence.
    - split; [reflexivity|]. exact (j_eret _ J _ _ E). }
  clear H0 Ht J.
  assert (G : wt w' = WIn k /\ valid w' = true /\
    (match ow w' with ORet _ v b => v = error /\ b = false | _ => True end) /\
    exists l, log w' = log w ++ l /\ received l = [] /\ (forall v b, In (LClosed v b) l -> v = error /\ b = false)).
  { remember (XW w true) as x0 eqn:E0. remember (XW w' true) as x1 eqn:E1. revert w' E1. induction H as [x|x y z H IH St]; intros w' E1; subst.
    - injection E1 as <-. split; [exact Hk|]. split; [exact Hv|]. split; [exact Hr|].
      exists []. rewrite app_nil_r. split; [reflexivity|]. split; [reflexivity|]. intros ? ? [].
    - destruct (xreach_thrown _ _ _ _ _ H) as [(wy & ->)|(ly & ->)]; [|inversion St].
      destruct (IH eq_refl _ eq_refl) as (I1 & I2 & I3 & l0 & E & R & C).
      assert (Hadd : forall l', received l' = [] -> (forall v b, In (LClosed v b) l' -> v = error /\ b = false) ->
          exists l1, log wy ++ l' = log w ++ l1 /\ received l1 = [] /\ forall v b, In (LClosed v b) l1 -> v = error /\ b = false).
      { intros l1 R1 C1. exists (l0 ++ l1). rewrite E, app_assoc. split; [reflexivity|]. split; [rewrite received_app, R, R1; reflexivity|].
        intros v b Hin. apply in_app_iff in Hin as [Hin|Hin]; auto. }
      clear IH. inversion St; subst; cbn [wt valid ow log] in *.
      + subst vd. match goal with S : o_step _ _ _ _ _ _ _ _ _ |- _ => inversion S; subst; clear S end; cbn [wt valid ow log] in *; try discriminate.
        all: split; [exact I1|]; split; [reflexivity|].
        * split; [exact I|apply Hadd; [reflexivity|intros ? ? [Hc|[]]; discriminate]].
        * split; [exact I|apply Hadd; [reflexivity|intros ? ? []]].
        * split; [exact I|apply Hadd; [reflexivity|intros ? ? [Hc|[]]; discriminate]].
        * split; [|apply Hadd; [reflexivity|intros ? ? [Hc|[]]; discriminate]].
          match goal with D : _ \/ _ |- _ => destruct D as [->|D]; [auto|discriminate] end.
        * split; [exact I|apply Hadd; [reflexivity|]]. intros v0 b0 [Hc|[]]. injection Hc as <- <-. exact I3.
        * split; [exact I|apply Hadd; [reflexivity|]]. intros v0 b0 [Hc|[]]. injection Hc as <- <-. exact I3.
        * split; [exact I|apply Hadd; [reflexivity|intros ? ? [Hc|[]]; discriminate]].
      + split; [exact I1|]. split; [reflexivity|]. split; [exact I|]. apply Hadd; [reflexivity|intros ? ? [Hc|[]]; discriminate]. }
  destruct G as (G1 & G2 & _ & l & G3 & G4 & G5). exists l. split; [exact G3|]. split; [exact G4|]. split; [exact G5|].
  destruct w' as [m w1 o vd l1]. split.
  - intros dtor v Eo x St. cbn in *. subst. inversion St; subst; [|reflexivity].
    match goal with S : o_step _ _ _ _ _ _ _ _ _ |- _ => inversion S; subst end. discriminate.
  - intros Eo. cbn in *. subst. eexists. split; [apply X_future|]. split; reflexivity.
Qed.
Print Assumptions C72_throwing_callbacks_refuted.

Definition thrower : event := Ev (lit "/w/f") EtModify PtFile 7 None.
Lemma reach_xreach pl runs re w w' : reach pl runs re w w' -> xreach pl runs re (XW w false) (XW w' false).
Proof. induction 1; [constructor|]. eapply XR1; [eassumption|now apply X_usual]. Qed.

(** And it happens: on Linux a callback throws at an event, close() is called, the
    program ends; on other platforms it ends when the callback throws. *)
Theorem C72_the_program_ends_refuted :
  (exists l, xreach (Linux false) simple_runs false (XW constructed false) (XDead l) /\ In (LReleased released) l) /\
  (exists l e, xreach Other simple_runs false (XW constructed false) (XDead (l ++ [LCb e])) /\ ~ In LRequest l).
Proof.
  split.
  - assert (H : reach (Linux false) simple_runs false constructed constructed) by constructor. unfold constructed at 2 in H.
    eapply reach_w in H; [|apply (W_good _ _ _ _ _ [])].
    eapply reach_w in H; [|apply W_check, L_q_pending; reflexivity].
    eapply reach_w in H; [|apply W_checked].
    eapply reach_w in H; [|apply (W_live _ _ _ _ _ _ _ 1%Z)].
    eapply reach_w in H; [|apply W_return].
    eapply reach_w in H; [|apply (W_adapt _ _ _ _ _ _ [ACb thrower; AStop] (Some true)); left; exists [thrower]; split; [reflexivity|split; [constructor; [discriminate|constructor]|reflexivity]]].
    eapply reach_w in H; [|apply W_cb]. apply reach_xreach in H.
    eapply XR1 in H; [|apply X_throw; left; reflexivity].
    eapply XR1 in H; [|apply X_owner, (O_begin _ _ _ _ false)].
    eapply XR1 in H; [|apply X_owner, O_release, L_r_first; discriminate].
    eapply XR1 in H; [|apply X_owner, O_release, L_r_write].
    eapply XR1 in H; [|apply X_owner, O_release, L_r_store].
    eapply XR1 in H; [|apply X_owner, O_wait; discriminate].
    eapply XR1 in H; [|apply X_get].
    eexists. split; [exact H|]. cbn. auto 20.
  - assert (H : reach Other simple_runs false constructed constructed) by constructor. unfold constructed at 2 in H.
    eapply reach_w in H; [|apply (W_good _ _ _ _ _ [])].
    eapply reach_w in H; [|apply W_check, O_q].
    eapply reach_w in H; [|apply W_checked].
    eapply reach_w in H; [|apply (W_live _ _ _ _ _ _ _ 1%Z)].
    eapply reach_w in H; [|apply W_return].
    eapply reach_w in H; [|apply (W_adapt _ _ _ _ _ _ [ACb thrower; AStop] (Some true)); left; exists [thrower]; split; [reflexivity|split; [constructor; [discriminate|constructor]|reflexivity]]].
    eapply reach_w in H; [|apply W_cb]. apply reach_xreach in H.
    eapply XR1 in H; [|apply X_through; reflexivity].
    cbn in H. exists [LLook (Some []) (Some true); LCheck pending; LCb (live_event true [] 1); LWatch []], thrower.
    split; [exact H|]. cbn. intuition discriminate.
Qed.
Print Assumptions C72_the_program_ends_refuted.

(** Which throws end the program at once.  While the callback runs, [e] is the event last
    handed to it.  A throw at a message about the watcher's life is always stored; a throw
    at any other event is stored on Linux and ends the program everywhere else. *)
Fixpoint spoken (w : wpc) (r : list event) : Prop :=
  match w with
  | WIn k | WSelf k _ | WSelfWait k => spoken k r /\ exists r0 e, r = r0 ++ [e] /\ match k with WRun _ _ _ => ordinary e | _ => ~ ordinary e end
  | WRun _ st _ => forall e, In (ACb e) st -> ordinary e
  | _ => True
  end.
Lemma spoken_step pl runs re : adapter_ok runs -> forall vd m w m' w' l' r,
  w_step pl runs re vd m w m' w' l' -> spoken w r -> spoken w' (r ++ received l').
Proof.
  intros A vd m w m' w' l' r H. destruct H; cbn [received spoken]; rewrite ?app_nil_r; intros Hs; auto.
  - split; [destruct pre; exact I|]. exists r, (live_event pre abs t). split; [reflexivity|].
    assert (N0 : ~ ordinary (live_event pre abs t)) by (intros Ho; destruct pre; now destruct (Ho eq_refl) as [? _]). destruct pre; exact N0.
  - intros e Hin. exact (ao_quiet _ A _ _ _ _ H Hin).
  - split; [intros e' Hin; apply Hs; now right|]. exists r, e. split; [reflexivity|]. apply Hs. now left.
  - intros e Hin. apply Hs. now right.
  - intros e Hin. apply Hs. now right.
  - split; [exact I|]. exists r, (die_event post abs t). split; [reflexivity|]. intros Ho. destruct post; now destruct (Ho eq_refl) as [_ ?].
  - apply Hs.
Qed.
Lemma spoken_reach pl runs re : adapter_ok runs -> forall w, reach pl runs re constructed w -> spoken (wt w) (received (log w)).
Proof.
  intros A w H. remember constructed as w0. induction H as [w|w w' w'' H IH St]; subst; [exact I|]. specialize (IH eq_refl). clear H.
  destruct St as [m w o vd l m' w' l' H|m w o vd l m' o' vd' l' H]; cbn [wt log] in *; rewrite received_app.
  - exact (spoken_step _ _ _ A _ _ _ _ _ _ _ H IH).
  - replace (received l') with (@nil event) by (destruct H; reflexivity). rewrite app_nil_r. exact IH.
Qed.
(** The callback is running. *)
Definition in_callback (w : world) : Prop := exists k, wt w = WIn k.
Definition linux (pl : platform) : Prop := exists b, pl = Linux b.
Theorem C72_which_throws_end_the_program_at_once_partial :
  forall pl runs re w, adapter_ok runs -> xreach pl runs re (XW constructed false) (XW w false) -> in_callback w ->
    exists r e, received (log w) = r ++ [e] /\
      (xstep pl runs re (XW w false) (XW w true) <-> linux pl \/ ~ ordinary e) /\
      forall l, xstep pl runs re (XW w false) (XDead l) <-> l = log w /\ ~ linux pl /\ ordinary e.
Proof.
  intros pl runs re w A H (k & Hk). pose proof (spoken_reach pl runs re A w (xreach_usual _ _ _ _ H w eq_refl)) as Hs.
  rewrite Hk in Hs. destruct Hs as (_ & r & e & E & Ho). exists r, e. split; [exact E|]. destruct w as [m w o vd l]. cbn [wt log] in *. subst w.
  assert (P : passes pl = true <-> linux pl) by (unfold passes, linux; destruct pl; split; intros Hx; eauto; try discriminate; destruct Hx; discriminate).
  assert (Q : in_adapter k = true <-> ordinary e) by (destruct k; cbn in *; split; intros Hx; auto; try discriminate; contradiction).
  split; [split|intros l'; split].
  - intros St. inversion St; subst. match goal with D : _ \/ _ |- _ => destruct D as [D|D] end; [left; now apply P|right; intros Hx; apply Q in Hx; congruence].
  - intros D. apply X_throw. destruct D as [D|D]; [left; now apply P|right]. destruct (in_adapter k); [|reflexivity]. exfalso. apply D, Q. reflexivity.
  - intros St. inversion St; subst. split; [reflexivity|]. split; [intros Hx; apply P in Hx; congruence|now apply Q].
  - intros (-> & Hn & Hx). apply X_through; [|now apply Q]. destruct (passes pl); [|reflexivity]. exfalso. now apply Hn, P.
Qed.
Print Assumptions C72_which_throws_end_the_program_at_once_partial.
(** The first message of a watcher that is not on Linux: a throw there is stored. *)
Example C72_stored_example : exists w, xreach Other simple_runs false (XW constructed false) (XW w false) /\ in_callback w /\
  received (log w) = [live_event true [] 1] /\ adapter_ok simple_runs /\ ~ ordinary (live_event true [] 1) /\
  xstep Other simple_runs false (XW w false) (XW w true).
Proof.
  assert (H : reach Other simple_runs false constructed constructed) by constructor. unfold constructed at 2 in H.
  eapply reach_w in H; [|apply (W_good _ _ _ _ _ [])].
  eapply reach_w in H; [|apply W_check, O_q].
  eapply reach_w in H; [|apply W_checked].
  eapply reach_w in H; [|apply (W_live _ _ _ _ _ _ _ 1%Z)].
  apply reach_xreach in H. eexists. split; [exact H|]. split; [eexists; reflexivity|]. split; [reflexivity|]. split; [apply simple_ok|].
  split; [intros Ho; now destruct (Ho eq_refl)|]. apply X_throw. right. reflexivity.
Qed.

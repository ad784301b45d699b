(** The watch class: close() and the destructor end (C08). *)
From Verif Require Import Base EventModel SemabinModel WatchModel WatchSpec WatchFacts WatchStop.
Local Open Scope nat_scope.

(** No query or release has failed. *)
Definition no_error_pc (p : pc) : Prop := match p with RStore v | QStore v | Ret v => v <> error | _ => True end.

Section Progress.
  Variable pl : platform.
  Variable runs : text -> list act -> option bool -> Prop.
  Notation step := (step pl runs false).
  Notation reach := (reach pl runs false).
  Notation w_step := (w_step pl runs false).

  Record hi (w : world) : Prop := {
    h_is : is (sm w) <> error;
    h_o : match ow w with OClose _ p => no_error_pc p | OWait _ v | ORet _ v _ => v <> error | _ => True end;
    h_w : match wt w with WCheck _ p | WSelf _ p => no_error_pc p | _ => True end;
    h_f : ow w = OFuture -> valid w = false;
  }.
  Lemma sem_no_error m p m' p' : pl <> Linux true -> sem_step pl m p m' p' -> is m <> error -> no_error_pc p -> is m' <> error /\ no_error_pc p'.
  Proof. intros Hp H. destruct H; cbn; try congruence; auto; intros; split; congruence || auto. Qed.
  Lemma hi_step w w' : pl <> Linux true -> step w w' -> ji w -> ti pl false w -> hi w -> hi w'.
  Proof.
    intros Hp H J T [H1 H2 H3 H4]. destruct T as [Tw _ _ Tr]. destruct J as [_ _ _ J _ _ _ _ _ _ _]. destruct H as [m w o vd l m' w' l' H|m w o vd l m' o' vd' l' H]; cbn in *.
    - destruct H; split; cbn in *; auto; try exact I; try (eapply sem_no_error; eassumption); try congruence.
      + destruct k; cbn in *; auto; tauto.
    - destruct H; split; cbn in *; auto; try discriminate; try exact I; try (eapply sem_no_error; eassumption); try congruence; try tauto.
      + intros _. eapply J; [reflexivity|exact H2].
  Qed.
  Lemma hi_reach w : pl <> Linux true -> reach constructed w -> hi w.
  Proof.
    intros Hp H. remember constructed as w0. induction H; subst.
    - split; cbn; try discriminate; auto.
    - eapply hi_step; [exact Hp|eassumption|apply (ji_reach pl runs false); assumption|apply (ti_reach pl runs false); assumption|auto].
  Qed.

  (** ** Measures *)
  Definition qrank (p : pc) : nat := match p with QStart => 3 | QRead => 2 | QStore _ => 1 | _ => 0 end.
  Definition rrank (p : pc) : nat := match p with RStart => 4 | RWrite => 3 | RSignal | RStore _ => 2 | Ret _ => 1 | _ => 0 end.
  Definition wphase (w : wpc) : nat :=
    match w with
    | WStart => 12 | WCheck _ p => 8 + qrank p | WLive _ _ => 7 | WAdapt _ => 5 | WRun _ _ _ => 4 | WDie _ _ _ => 2 | WDone _ => 0
    | WIn (WAdapt _) => 6 | WIn (WRun _ _ _) => 4 | WIn (WDie _ _ _) => 3 | WIn (WDone _) => 1 | _ => 0
    end.
  Definition wlen (w : wpc) : nat :=
    match w with WRun _ st _ => 2 * length st | WIn (WRun _ st _) => 2 * length st + 1 | _ => 0 end.
  Definition orank (o : opc) : nat :=
    match o with OClose _ p => 10 + rrank p | OWait _ _ => 5 | ORet _ _ _ => 4 | OFuture => 2 | _ => 0 end.

  Lemma w_decr vd m w m' w' l' : w_step vd m w m' w' l' ->
    match w with WCheck _ p => query_pc pl p | WIn k => plain k | WSelf _ _ => False | _ => True end ->
    wphase w' < wphase w \/ wphase w' = wphase w /\ wlen w' < wlen w.
  Proof.
    destruct 1; cbn; try tauto; try lia; intros T; try discriminate.
    - unfold query_pc in T. destruct H; cbn; tauto || lia.
    - destruct pre; cbn; lia.
    - destruct k; cbn in *; tauto || lia.
  Qed.
  Lemma o_decr w m vd o m' vd' o' l' : o_step pl w m vd o m' vd' o' l' -> o <> OIdle ->
    match o with OClose _ p => release_pc pl p | _ => True end -> orank o' < orank o.
  Proof.
    destruct 1; cbn; try tauto; try lia; intros _ T.
    unfold release_pc in T. destruct H; cbn; tauto || lia.
  Qed.

  Hypothesis He : adapter_ends runs.

  Lemma query_can m p : query_pc pl p -> (forall v, p <> Ret v) -> exists m' p', sem_step pl m p m' p'.
  Proof.
    unfold query_pc. intros T N. destruct pl as [b| |].
    - destruct p; try tauto.
      + destruct (is m) eqn:E; [do 2 eexists; apply L_q_pending, E|do 2 eexists; apply L_q_other; congruence|do 2 eexists; apply L_q_other; congruence].
      + destruct (tokens m) eqn:E; [do 2 eexists; apply L_q_empty, E|do 2 eexists; apply L_q_take; lia].
      + do 2 eexists. apply L_q_store.
      + now destruct (N v).
    - destruct p; try tauto; [do 2 eexists; apply D_q|now destruct (N v)].
    - destruct p; try tauto; [do 2 eexists; apply O_q|now destruct (N v)].
  Qed.
  Lemma release_can m p : release_pc pl p -> (forall v, p <> Ret v) -> exists m' p', sem_step pl m p m' p'.
  Proof.
    unfold release_pc. intros T N. destruct pl as [b| |].
    - destruct p; try tauto.
      + destruct (is m) eqn:E; [do 2 eexists; apply L_r_first; congruence|do 2 eexists; apply L_r_again, E|do 2 eexists; apply L_r_first; congruence].
      + do 2 eexists; apply L_r_write.
      + do 2 eexists. apply L_r_store.
      + now destruct (N v).
    - destruct p; try tauto; [|do 2 eexists; apply D_r_signal|now destruct (N v)].
      destruct (is m) eqn:E; [do 2 eexists; apply D_r_won, E|do 2 eexists; apply D_r_lost; congruence|do 2 eexists; apply D_r_lost; congruence].
    - destruct p; try tauto; [do 2 eexists; apply O_r|now destruct (N v)].
  Qed.

  (** Runs in progress come from the adapter and end. *)
  Definition runs_end (w : wpc) : Prop :=
    match w with WRun _ _ r | WIn (WRun _ _ r) => r <> None | _ => True end.
  Lemma runs_end_reach w : reach constructed w -> runs_end (wt w).
  Proof.
    intros H. pose proof (ti_reach _ _ _ _ H) as [Tw _ _ _]. pose proof (wi_reach _ _ _ _ H) as S. unfold wi in S.
    destruct (wt w); cbn; auto.
    - inversion S; subst. eapply ae_ends; eauto.
    - destruct w0; cbn; auto. inversion S as [| | | | | | | | |? ? S'| |]; subst. inversion S'; subst. eapply ae_ends; eauto.
  Qed.

  Lemma w_can w : reach constructed w -> seen (ow w) -> (exists b, wt w = WDone b) \/
    exists m' w' l', w_step (valid w) (sm w) (wt w) m' w' l'.
  Proof.
    intros H Hs. pose proof (runs_end_reach _ H) as Hr. pose proof (ti_reach _ _ _ _ H) as [Tw _ _ Tr].
    pose proof (vi_reach _ _ _ _ H) as V. destruct (wt w) eqn:E; cbn in *.
    - right. do 3 eexists. apply (W_good _ _ _ _ _ []).
    - right. destruct p; try (unfold query_pc in Tw; destruct pl; tauto).
      1-3: edestruct (query_can (sm w)) as (m' & p' & Hst); [eassumption|discriminate|]; do 3 eexists; apply W_check; exact Hst.
      do 3 eexists. apply W_checked.
    - right. do 3 eexists. apply (W_live _ _ _ _ _ _ _ 0%Z).
    - right. destruct (ae_some _ He abs) as (st & r & Hrun). do 3 eexists. apply W_adapt, Hrun.
    - right. destruct todo as [|[]].
      + destruct r as [b|]; [|congruence]. do 3 eexists. apply W_ended.
      + do 3 eexists. apply W_cb.
      + do 3 eexists. apply W_stop. unfold vi in V. rewrite E in V. destruct V as [D|[_ V]]; [discriminate D|auto].
      + do 3 eexists. apply W_other.
    - right. do 3 eexists. apply (W_die _ _ _ _ _ _ _ _ 0%Z).
    - left. eauto.
    - right. do 3 eexists. apply W_return.
    - discriminate.
    - discriminate.
  Qed.

  (** In a call of close() (the destructor's included). *)
  Definition in_close (o : opc) : Prop := match o with OClose _ _ | OWait _ _ | ORet _ _ _ => True | _ => False end.
  Definition in_dtor (o : opc) : Prop := match o with OClose true _ | OWait true _ | ORet true _ _ | OFuture => True | _ => False end.

  Lemma close_can w : reach constructed w -> in_close (ow w) -> exists w', step w w'.
  Proof.
    intros H C. pose proof (ti_reach _ _ _ _ H) as [_ To _ _]. pose proof (w_can w H) as Wc. destruct w as [m w o vd l]. cbn in *. destruct o as [|dtor p|dtor v|dtor v b| |]; cbn in C; try tauto.
    - destruct p eqn:Ep; try (unfold release_pc in To; destruct pl; tauto).
      1-4: edestruct (release_can m) as (m' & p' & Hst); [eassumption|discriminate|]; eexists; apply SW_owner, O_release, Hst.
      destruct vd; [destruct v|]; eexists; apply SW_owner; [apply O_wait; discriminate|apply O_wait; discriminate|apply O_false; auto|apply O_false; auto].
    - subst v. destruct (Wc I) as [(b & ->)|(m' & w' & l' & Hst)].
      + eexists. apply SW_owner, O_get. reflexivity.
      + eexists. apply SW_watch, Hst.
    - destruct dtor; eexists; apply SW_owner; [apply O_dtor|apply O_closed].
  Qed.
  Lemma dtor_can w : pl <> Linux true -> reach constructed w -> in_dtor (ow w) -> exists w', step w w'.
  Proof.
    intros Hp H D. pose proof (hi_reach w Hp H) as [_ _ _ Hf]. destruct (ow w) eqn:E; cbn in D; try tauto; try (destruct dtor; try tauto; apply close_can; [exact H|rewrite E; exact I]).
    destruct w as [m w o vd l]. cbn in *. eexists. subst o. apply SW_owner, O_future. auto.
  Qed.

  (** Everything that can happen brings the measure down. *)
  Definition lower (a b : world) : Prop :=
    wphase (wt a) < wphase (wt b) \/ wphase (wt a) = wphase (wt b) /\
      (wlen (wt a) < wlen (wt b) \/ wlen (wt a) = wlen (wt b) /\ orank (ow a) < orank (ow b)).
  Lemma step_lower w w' : reach constructed w -> ow w <> OIdle -> step w w' -> lower w' w.
  Proof.
    intros H Hi S. pose proof (ti_reach _ _ _ _ H) as [Tw To _ Tr]. destruct S as [m w o vd l m' w' l' S|m w o vd l m' o' vd' l' S]; unfold lower; cbn in *.
    - apply w_decr in S; [tauto|]. destruct w; auto; discriminate.
    - apply o_decr in S; [tauto|exact Hi|]. destruct o; auto.
  Qed.

  Lemma inevitable_from (Q P : world -> Prop) :
    (forall w, reach constructed w -> Q w -> P w \/ ow w <> OIdle /\ (exists w', step w w')) ->
    (forall w w', reach constructed w -> Q w -> ~ P w -> step w w' -> Q w') ->
    (forall w, P w \/ ~ P w) ->
    forall w, reach constructed w -> Q w -> inevitable step P w.
  Proof.
    intros Hc Hs Hd. assert (G : forall a b c w, wphase (wt w) = a -> wlen (wt w) = b -> orank (ow w) = c -> reach constructed w -> Q w -> inevitable step P w).
    { intros a. induction a as [a IHa] using lt_wf_ind. intros b. induction b as [b IHb] using lt_wf_ind. intros c. induction c as [c IHc] using lt_wf_ind.
      intros w Ea Eb Ec H HQ. destruct (Hd w) as [Pw|Pw]; [apply Now, Pw|].
      destruct (Hc w H HQ) as [?|[Hi Hst]]; [contradiction|]. apply Later; [exact Hst|].
      intros w' S. assert (H' : reach constructed w') by exact (Reach1 _ _ _ _ _ _ H S). assert (Q' : Q w') by exact (Hs w w' H HQ Pw S).
      pose proof (step_lower _ _ H Hi S) as L. unfold lower in L. rewrite Ea, Eb, Ec in L.
      destruct L as [L|[E1 [L|[E2 L]]]].
      - exact (IHa _ L _ _ w' eq_refl eq_refl eq_refl H' Q').
      - exact (IHb _ L _ w' E1 eq_refl eq_refl H' Q').
      - exact (IHc _ L w' E1 E2 eq_refl H' Q'). }
    intros w. exact (G _ _ _ w eq_refl eq_refl eq_refl).
  Qed.

  Lemma close_returns w : reach constructed w -> in_close (ow w) -> inevitable step (fun w' => ~ in_close (ow w')) w.
  Proof.
    intros Hw _. apply (inevitable_from (fun w => True) (fun w => ~ in_close (ow w))); auto.
    - intros w0 H _. destruct (ow w0) eqn:E; cbn; try tauto; right; (split; [discriminate|]); apply close_can; try rewrite E; cbn; auto.
    - intros w0. destruct (ow w0); cbn; tauto.
  Qed.
  Lemma dtor_returns w : pl <> Linux true -> reach constructed w -> in_dtor (ow w) -> inevitable step (fun w' => ow w' = OGone) w.
  Proof.
    intros Hp Hw Hd. apply (inevitable_from (fun w => in_dtor (ow w) \/ ow w = OGone) (fun w => ow w = OGone)); auto.
    - intros w0 H [D|D]; [right|auto]. split; [intros E; rewrite E in D; exact D|now apply dtor_can].
    - intros w0 w' H [D|D] Hn S; [|contradiction]. destruct S as [m x o vd l m' w' l' S|m x o vd l m' o' vd' l' S]; cbn in *; [auto|].
      destruct S; cbn in *; try tauto; destruct dtor; cbn in *; tauto.
    - intros w0. destruct (ow w0); (left; reflexivity) || (right; discriminate).
  Qed.
End Progress.

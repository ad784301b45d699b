(** Lemmas for C103: what the Windows adapter reads and waits for is what the system answers. *)
From Verif Require Import Base EventModel InotifySpec Mon WindowsModel WindowsSpec WindowsFacts WindowsRun WinTypes WinWorldSpec WinWorldFacts PropsWindows.
From Verif Require Sys.

Section S.
  Variable s : nfs.
  Definition truth (tr : list nobs) (x : nobs) : Prop :=
    match x with NRead r => r = nf_read s tr | NWait r => r = nf_wait s tr | _ => True end.
  Definition true_from (tr o : list nobs) : Prop := forall a x b, o = a ++ x :: b -> truth (tr ++ a) x.
  Lemma true_nil tr : true_from tr [].
  Proof. intros [|? ?] x b H; discriminate. Qed.
  Lemma true_app tr o1 o2 : true_from tr o1 -> true_from (tr ++ o1) o2 -> true_from tr (o1 ++ o2).
  Proof.
    intros H1 H2 a x b E. apply app_eq_app in E as (l & [[E1 E2]|[E1 E2]]).
    - destruct l as [|y l].
      + rewrite app_nil_r in E1. subst. specialize (H2 [] x b (eq_sym E2)). now rewrite app_nil_r in H2.
      + cbn in E2. injection E2 as <- E2. eapply H1, E1.
    - subst a. rewrite app_assoc. eapply H2. exact E2.
  Qed.
  Definition tells_truth {A} (m : NT A) : Prop := forall tr, true_from tr (fst (m tr)).
  Lemma tt_bind {A B} (m : NT A) (k : A -> NT B) : tells_truth m -> (forall a, tells_truth (k a)) -> tells_truth (pbind m k).
  Proof.
    intros Hm Hk tr. specialize (Hm tr). unfold pbind. destruct (m tr) as [o1 [a|u| |]]; try exact Hm.
    specialize (Hk a (tr ++ o1)). destruct (k a (tr ++ o1)) as [o2 r2]. cbn [fst] in *. now apply true_app.
  Qed.
  Lemma tt_quiet {A} (m : NT A) : adds (Forall (fun x => match x with NRead _ | NWait _ => False | _ => True end)) m -> tells_truth m.
  Proof. intros H tr a x b E. specialize (H tr). rewrite E in H. apply Forall_elt in H. destruct x; cbn; auto; contradiction. Qed.
  Lemma tt_ret {A} (a : A) : tells_truth (pret a).
  Proof. intros tr. apply true_nil. Qed.
  Lemma tt_ask {A} (f : list nobs -> A) ob : (forall tr, truth tr (ob (f tr))) -> tells_truth (ask f ob).
  Proof. intros H tr [|y [|z a]] x b E; try discriminate. injection E as <- <-. rewrite app_nil_r. apply H. Qed.
  Lemma tt_send fuel w : tells_truth (do_event_send s fuel w).
  Proof. apply tt_quiet. intros tr. pose proof (adds_sending_do s fuel w tr) as H. revert H. apply Forall_impl. intros []; cbn; auto. Qed.
  Lemma tt_recv w : tells_truth (do_event_recv s w).
  Proof.
    unfold do_event_recv. destruct (px_valid w); [|apply tt_ret]. apply tt_bind; [apply tt_ask; reflexivity|].
    assert (Hs : forall p f t, tells_truth (n_send s p f t)).
    { intros p f t. apply tt_quiet. apply adds_all_bind; [apply adds_all_ask; intros; exact I|]. intros. apply adds_all_emit. exact I. }
    intros [bs| |]; [apply tt_ret| |]; (apply tt_bind; [apply Hs|intros; apply tt_ret]).
  Qed.
  Lemma tt_watch fuel path : tells_truth (win_watch s fuel path).
  Proof.
    assert (Hf : forall A, tells_truth (@pfuel nobs A)) by (intros A tr; apply true_nil).
    unfold win_watch. apply tt_bind.
    - apply tt_quiet. intros tr. destruct (make_spec s path tr) as [H _]. revert H. apply Forall_impl. intros []; cbn; auto.
    - intros w. unfold win_body. destruct (px_valid w); [|apply tt_ret]. apply tt_bind; [apply tt_recv|]. intros w1. apply tt_bind.
      { generalize fuel as k. induction k as [|k IH]; cbn [first_sends]; [apply Hf|]. destruct (_ && _); [|apply tt_ret]. apply tt_bind; [apply tt_send|intros; apply IH]. }
      intros _. revert w1. induction fuel as [|n IH]; intros w1; cbn [win_loop]; [apply Hf|].
      apply tt_bind; [apply tt_ask; intros; exact I|]. intros []; [|apply tt_ret].
      apply tt_bind; [destruct (px_port w1); [apply tt_ask; reflexivity|apply tt_ret]|].
      intros [| |bs]; try apply IH. apply tt_bind; [|intros; apply IH].
      generalize (px_set w1 (px_valid w1) (Sys.overwrite (px_buf w1) bs) (N.of_nat (length bs))). generalize (S n) as k.
      induction k as [|k IHk]; intros w2; cbn [send_recv]; [apply Hf|]. destruct (_ && _); [|apply tt_ret].
      apply tt_bind; [apply tt_send|]. intros _. apply tt_bind; [apply tt_recv|]. intros; apply IHk.
  Qed.
End S.

Lemma skip_skip {A} a b (l : list A) : skipn a (skipn b l) = skipn (b + a) l.
Proof. revert l; induction b as [|b IH]; intros [|x l]; cbn; auto using skipn_nil. Qed.
Section Env.
  Variable e : wenv.
  (** The log grows; the queue is a part of what is new and what was queued. *)
  Lemma grow_happens cs : forall w, exists n, ww_log (happens w cs) = ww_log w ++ n /\ ww_queue (happens w cs) = ww_queue w ++ n.
  Proof.
    induction cs as [|c cs IH]; intros w; [exists []; now rewrite !app_nil_r|]. destruct (IH (happen w c)) as (n & H1 & H2).
    change (happens w (c :: cs)) with (happens (happen w c) cs). rewrite H1, H2.
    unfold happen. destruct (possible w c); [|now exists n]. cbn. destruct (ww_on w).
    - exists (c :: n). rewrite <- !app_assoc. auto.
    - now exists n.
  Qed.
  Lemma grow o : forall tr, exists n k, ww_log (state e (tr ++ o)) = ww_log (state e tr) ++ n /\ ww_queue (state e (tr ++ o)) = skipn k (ww_queue (state e tr) ++ n).
  Proof.
    induction o as [|x o IH] using rev_ind; intros tr; [exists [], 0%nat; now rewrite !app_nil_r|].
    destruct (IH tr) as (n & k & H1 & H2). rewrite app_assoc, state_snoc. destruct (grow_happens (we_ops e (tr ++ o)) (state e (tr ++ o))) as (n' & G1 & G2).
    fold (at_call e (tr ++ o)) in G1, G2. rewrite H1 in G1. rewrite H2 in G2.
    assert (G : exists k', ww_queue (at_call e (tr ++ o)) = skipn k' (ww_queue (state e tr) ++ n ++ n')).
    { rewrite G2, app_assoc. destruct (le_lt_dec k (length (ww_queue (state e tr) ++ n))) as [L|L].
      - exists k. rewrite (skipn_app k (_ ++ n) n'). replace (k - _)%nat with 0%nat by lia. reflexivity.
      - exists (length (ww_queue (state e tr) ++ n)). rewrite (skipn_all2 _ (Nat.lt_le_incl _ _ L)), skipn_app, skipn_all, Nat.sub_diag. reflexivity. }
    destruct G as (k' & G). exists (n ++ n').
    rewrite <- app_assoc in G1.
    destruct x as [| | | | | | |[]|]; cbn [effect_on ww_log ww_queue]; try (exists k'; split; [exact G1|exact G]).
    exists (k' + given (we_want e (tr ++ o)) (at_call e (tr ++ o)))%nat. split; [exact G1|]. rewrite G. apply skip_skip.
  Qed.
  Lemma wait_answer tr r : truth (system e) tr (NWait r) -> r = WtNone \/ exists c cs, r = WtDone (c :: cs) /\ given (we_want e tr) (at_call e tr) <> 0%nat.
  Proof.
    cbn [truth nf_wait system]. intros ->. destruct (armed tr); [|now left]. destruct (given (we_want e tr) (at_call e tr)) as [|n] eqn:G; [now left|]. right.
    destruct (ww_queue (at_call e tr)) as [|q qs] eqn:Q; [unfold given in G; rewrite Q in G; destruct (we_want e tr); discriminate G|].
    destruct (completion (firstn (S n) (q :: qs))) as [|c cs] eqn:C; [exfalso|exists c, cs; split; [reflexivity|discriminate]].
    unfold completion in C. assert (X : aligned (flat_map noted (firstn (S n) (q :: qs))) <> []) by (intros X; apply aligned_nil in X; destruct q; discriminate X).
    destruct (aligned _) as [|x rs]; [congruence|]. apply (f_equal (@length N)) in C.
    destruct rs as [|x' rs]; [|change (w_encode (x :: x' :: rs)) with (w_bytes (w_size x) x ++ w_encode (x' :: rs)) in C; rewrite app_length in C].
    - pose proof (w_bytes_len 0 x) as L. cbn [w_encode] in C. cbn [length] in C. unfold w_size in L. lia.
    - pose proof (w_bytes_len (w_size x) x) as L. cbn [length] in C. unfold w_size in *. lia.
  Qed.
  (** A wait that can give all that is queued leaves nothing. *)
  Lemma wait_empties fuel a r b : fst (win_watch (system e) fuel (we_path e) []) = a ++ NWait r :: b ->
    given (we_want e a) (at_call e a) = length (ww_queue (at_call e a)) -> ww_queue (state e (a ++ [NWait r])) = [].
  Proof.
    intros E G. pose proof (tt_watch (system e) fuel (we_path e) []) as T. rewrite E in T.
    assert (A : armed a = true).
    { eapply C44_keeps_listening_partial; [exact E|]. intros x Hx. apply in_split in Hx as (a1 & a2 & ->).
      assert (Tx : truth (system e) a1 x). { apply (T a1 x (a2 ++ NWait r :: b)). now rewrite <- app_assoc. }
      destruct x as [| | | | | |q|q|]; try (repeat split; discriminate).
      - cbn in Tx. subst q. repeat split; discriminate.
      - apply wait_answer in Tx as [->|(c & cs & -> & _)]; repeat split; discriminate. }
    specialize (T a (NWait r) b eq_refl). cbn [app truth] in T. rewrite state_snoc. subst r. cbn [nf_wait system]. rewrite A.
    destruct (given (we_want e a) (at_call e a)) as [|n] eqn:Gn.
    - cbn. destruct (ww_queue (at_call e a)); [reflexivity|discriminate].
    - cbn [effect_on ww_queue]. rewrite Gn. rewrite G. apply skipn_all.
  Qed.
  Lemma told_after fuel a r b : fst (win_watch (system e) fuel (we_path e) []) = a ++ NWait r :: b ->
    given (we_want e a) (at_call e a) = length (ww_queue (at_call e a)) ->
    forall o told l, a ++ NWait r :: b = o -> ww_log (state e o) = told ++ ww_queue (state e o) -> Forall2 (tells (we_path e)) told l ->
    exists l1 l2, l = l1 ++ l2 /\ Forall2 (tells (we_path e)) (ww_log (at_call e a)) l1.
  Proof.
    intros E G o told l <- H F. pose proof (wait_empties fuel a r b E G) as Q.
    destruct (grow b (a ++ [NWait r])) as (n & k & G1 & G2). rewrite <- app_assoc in G1, G2. cbn [app] in G1, G2. rewrite G1, G2, Q in H. cbn [app] in H.
    assert (L : ww_log (state e (a ++ [NWait r])) = ww_log (at_call e a)) by (rewrite state_snoc; destruct r; reflexivity). rewrite L in H.
    assert (Ht : exists m, told = ww_log (at_call e a) ++ m).
    { exists (firstn k n). rewrite <- (firstn_skipn k n), app_assoc in H at 1. apply app_inv_tail in H. now symmetry. }
    destruct Ht as (m & ->). apply Forall2_app_inv_l in F as (l1 & l2 & F1 & _ & ->). eauto.
  Qed.
End Env.

(** Lemmas for C101: where the types in the events of the Windows adapter come from. *)
From Verif Require Import Base EventModel InotifySpec Mon WindowsModel WindowsSpec WindowsFacts WindowsRun.
From Verif Require Sys.

Section S.
  Variable s : nfs.
  (** The watcher asked about [p], and took the answer for [t]; since then it only made events. *)
  Definition asked (tr : list nobs) (x : text * path_type) : Prop :=
    exists a1 a2, tr = a1 ++ NIsDir (fst x) (nf_isdir s a1 (fst x)) :: a2 /\ Forall sending a2 /\ snd x = dir_type (nf_isdir s a1 (fst x)).
  Definition just (tr : list nobs) (x : nobs) : Prop :=
    match x with NCb ev => ev_ptype ev <> PtWatcher -> forall y, In y (names ev) -> asked tr y | _ => True end.
  Definition good (tr o : list nobs) : Prop := forall a x b, o = a ++ x :: b -> just (tr ++ a) x.
  Lemma asked_more tr o x : Forall sending o -> asked tr x -> asked (tr ++ o) x.
  Proof. intros So (a1 & a2 & -> & Sa & H). exists a1, (a2 ++ o). rewrite <- app_assoc. split; [reflexivity|]. split; [apply Forall_app; auto|exact H]. Qed.
  Lemma good_nil tr : good tr [].
  Proof. intros [|? ?] x b H; discriminate. Qed.
  Lemma good_one tr x : just tr x -> good tr [x].
  Proof. intros H [|y [|z a]] x' b E; try discriminate. injection E as <- <-. now rewrite app_nil_r. Qed.
  Lemma good_app tr o1 o2 : good tr o1 -> good (tr ++ o1) o2 -> good tr (o1 ++ o2).
  Proof.
    intros H1 H2 a x b E. apply app_eq_app in E as (l & [[E1 E2]|[E1 E2]]).
    - destruct l as [|y l].
      + rewrite app_nil_r in E1. subst. specialize (H2 [] x b (eq_sym E2)). now rewrite app_nil_r in H2.
      + cbn in E2. injection E2 as <- E2. eapply H1, E1.
    - subst a. rewrite app_assoc. eapply H2. exact E2.
  Qed.
  Definition safe {A} (P : list nobs -> Prop) (m : NT A) (Q : A -> list nobs -> Prop) : Prop :=
    forall tr, P tr -> good tr (fst (m tr)) /\ forall a, snd (m tr) = Ok a -> Q a (tr ++ fst (m tr)).
  Lemma safe_bind {A B} P (m : NT A) Q (k : A -> NT B) R : safe P m Q -> (forall a, safe (Q a) (k a) R) -> safe P (pbind m k) R.
  Proof.
    intros Hm Hk tr Hp. specialize (Hm tr Hp) as [Hg Hq]. unfold pbind. destruct (m tr) as [o1 [a|u| |]]; cbn [fst snd] in *; try (split; [exact Hg|discriminate]).
    specialize (Hk a (tr ++ o1) (Hq a eq_refl)) as [Hg' Hr]. destruct (k a (tr ++ o1)) as [o2 r2]. cbn [fst snd] in *. split; [now apply good_app|].
    intros b E. rewrite app_assoc. now apply Hr.
  Qed.
  Lemma safe_ret {A} (P : list nobs -> Prop) (a : A) (Q : A -> list nobs -> Prop) : (forall tr, P tr -> Q a tr) -> safe P (pret a) Q.
  Proof. intros H tr Hp. split; [apply good_nil|]. intros b [= <-]. cbn. rewrite app_nil_r. auto. Qed.
  Lemma safe_stop {A} P (r : out A) Q : (forall a, r <> Ok a) -> safe P (fun _ => ([], r)) Q.
  Proof. intros H tr Hp. split; [apply good_nil|]. intros a E. now destruct (H a). Qed.
  Definition stable (P : list nobs -> Prop) : Prop := forall tr o, Forall sending o -> P tr -> P (tr ++ o).
  (** What adds observations that need no reason. *)
  Definition plain (x : nobs) : Prop := match x with NCb ev => ev_ptype ev = PtWatcher | _ => True end.
  Lemma good_plain tr o : Forall plain o -> good tr o.
  Proof. intros H a x b E. rewrite E in H. apply Forall_elt in H. destruct x; cbn in *; auto. intros N. now destruct N. Qed.
  Lemma safe_plain {A} (m : NT A) : adds (Forall plain) m -> safe (fun _ => True) m (fun _ _ => True).
  Proof. intros H tr _. split; [|auto]. apply good_plain, H. Qed.
  Lemma safe_quiet {A} P (m : NT A) : stable P -> adds (Forall sending) m -> adds (Forall plain) m -> safe P m (fun _ => P).
  Proof. intros Hs Hq H tr Hp. split; [apply good_plain, H|]. intros a _. apply Hs; [apply Hq|exact Hp]. Qed.
  Definition told_ok (x : tracker) (tr : list nobs) : Prop := forall y, x = Some y -> asked tr y.
  Lemma told_stable x : stable (told_ok x).
  Proof. intros tr o So H y E. apply asked_more; auto. Qed.
  Definition both (old new : tracker) (tr : list nobs) : Prop := told_ok old tr /\ told_ok new tr.
  Lemma both_stable o n : stable (both o n).
  Proof. intros tr x So [H1 H2]. split; now apply told_stable. Qed.
  Lemma both_none tr : both None None tr.
  Proof. split; intros y H; discriminate. Qed.

  Lemma safe_record root action name old new :
    safe (both old new) (win_record s root action name old new) (fun x => both (fst x) (snd x)).
  Proof.
    unfold win_record. set (p := win_join root name).
    eapply safe_bind with (Q := fun t tr => both old new tr /\ asked tr (p, t)).
    - intros tr H. unfold win_ptype, pbind, ask, pret. cbn [fst snd app]. split; [apply good_one; exact I|].
      intros a [= <-]. split; [apply both_stable; [repeat constructor|exact H]|]. exists tr, []. repeat split. constructor.
    - intros t. assert (St : stable (fun tr => both old new tr /\ asked tr (p, t))) by (intros tr o So [H1 H2]; split; [now apply both_stable|now apply asked_more]).
      assert (Tr : forall from to, safe (fun tr => asked tr from /\ asked tr to) (trigger_rename s from to) (fun _ _ => True)).
      { intros from to tr [H1 H2]. unfold trigger_rename, pbind, n_now, ask, emit. cbn [fst snd app]. split; [|auto]. intros a x b E.
        assert (G : just (tr ++ a) x); [|exact G]. destruct x; cbn; auto.
        do 3 (destruct a as [|? a]; [discriminate|]; injection E as <- E). destruct a as [|? [|? a]]; try discriminate. injection E as <- <-.
        intros _ y [<-|[<-|[]]]; cbn; (apply asked_more; [repeat constructor|]); [destruct from|destruct to]; cbn; assumption. }
      destruct (_ =? _)%N; [destruct new as [n|]|destruct (_ =? _)%N; [destruct old as [o|]|]].
      + eapply safe_bind with (Q := fun _ _ => True); [|intros; apply safe_ret; intros; apply both_none]. intros tr [[H1 H2] H3]. apply Tr. split; [exact H3|now apply H2].
      + apply safe_ret. intros tr [[H1 H2] H3]. split; [intros y [= <-]; exact H3|exact H2].
      + eapply safe_bind with (Q := fun _ _ => True); [|intros; apply safe_ret; intros; apply both_none]. intros tr [[H1 H2] H3]. apply Tr. split; [now apply H1|exact H3].
      + apply safe_ret. intros tr [[H1 H2] H3]. split; [exact H1|intros y [= <-]; exact H3].
      + eapply safe_bind with (Q := fun _ => both old new); [|intros; apply safe_ret; auto].
        intros tr [H1 H2]. unfold n_send, pbind, n_now, ask, emit. cbn [fst snd app]. split; [|intros; apply both_stable; [repeat constructor|exact H1]].
        intros a x b E. destruct x; cbn; auto. destruct a as [|? a]; [discriminate|]. injection E as <- E. destruct a as [|? [|? a]]; try discriminate. injection E as <- <-.
        intros _ y [<-|[]]. cbn. apply asked_more; [repeat constructor|exact H2].
  Qed.
  Lemma quiet_bytes (P : nobs -> Prop) buf off len : adds (Forall P) (bytes_at buf off len).
  Proof. unfold bytes_at. destruct (Nat.eqb _ _); [apply adds_all_ret|apply adds_all_stop]. Qed.
  Lemma quiet_dword (P : nobs -> Prop) buf off : adds (Forall P) (dword_at buf off).
  Proof. apply adds_all_bind; [apply quiet_bytes|intros; apply adds_all_ret]. Qed.
  Lemma safe_send fuel : forall root buf len off old new, safe (both old new) (send_loop s fuel root buf len off old new) (fun _ _ => True).
  Proof.
    induction fuel as [|n IH]; intros root buf len off old new; cbn [send_loop]; [apply safe_stop; discriminate|].
    destruct (_ <=? _)%N; [|now apply safe_ret]. eapply safe_bind; [apply safe_quiet; [apply both_stable|apply quiet_dword|apply quiet_dword]|]. intros nl. cbv beta.
    destruct (_ =? _)%N; [|apply IH]. eapply safe_bind; [apply safe_quiet; [apply both_stable|apply quiet_bytes|apply quiet_bytes]|]. intros name. cbv beta.
    eapply safe_bind; [apply safe_quiet; [apply both_stable|apply quiet_dword|apply quiet_dword]|]. intros act. cbv beta.
    eapply safe_bind; [apply safe_record|]. intros [o' n']. cbn [fst snd].
    eapply safe_bind; [apply safe_quiet; [apply both_stable|apply quiet_dword|apply quiet_dword]|]. intros next. cbv beta.
    destruct (_ =? _)%N; [now apply safe_ret|apply IH].
  Qed.
  Notation always := (fun _ : list nobs => True).
  Notation ever := (fun _ (_ : list nobs) => True).
  Lemma safe_do fuel w : safe always (do_event_send s fuel w) ever.
  Proof. unfold do_event_send. destruct (px_valid w); [|now apply safe_ret]. intros tr _. apply safe_send. apply both_none. Qed.
  Lemma plain_recv w : adds (Forall plain) (do_event_recv s w).
  Proof.
    unfold do_event_recv. destruct (px_valid w); [|apply adds_all_ret]. apply adds_all_bind; [apply adds_all_ask; intros; exact I|].
    intros [bs| |]; [apply adds_all_ret| |]; (apply adds_all_bind; [|intros; apply adds_all_ret]);
      (apply adds_all_bind; [apply adds_all_ask; intros; exact I|intros; apply adds_all_emit; reflexivity]).
  Qed.
  Lemma safe_recv w : safe always (do_event_recv s w) ever.
  Proof. apply safe_plain, plain_recv. Qed.
  Lemma safe_watch fuel path : safe always (win_watch s fuel path) ever.
  Proof.
    unfold win_watch. eapply safe_bind with (Q := ever).
    - apply safe_plain. intros tr. destruct (make_spec s path tr) as [H _]. revert H. apply Forall_impl. intros []; cbn; auto; contradiction.
    - intros w. unfold win_body. destruct (px_valid w); [|now apply safe_ret]. eapply safe_bind with (Q := ever); [apply safe_recv|]. intros w1.
      eapply safe_bind with (Q := ever).
      { generalize fuel as k. induction k as [|k IH]; cbn [first_sends]; [apply safe_stop; discriminate|]. destruct (_ && _); [|now apply safe_ret].
        eapply safe_bind with (Q := ever); [apply safe_do|intros; apply IH]. }
      intros _. revert w1. induction fuel as [|n IH]; intros w1; cbn [win_loop]; [apply safe_stop; discriminate|].
      eapply safe_bind with (Q := ever); [apply safe_plain, adds_all_ask; intros; exact I|]. intros []; [|now apply safe_ret].
      eapply safe_bind with (Q := ever); [apply safe_plain; destruct (px_port w1); [apply adds_all_ask; intros; exact I|apply adds_all_ret]|].
      intros [| |bs]; try apply IH. eapply safe_bind with (Q := ever); [|intros; apply IH].
      generalize (px_set w1 (px_valid w1) (Sys.overwrite (px_buf w1) bs) (N.of_nat (length bs))). generalize (S n) as k.
      induction k as [|k IHk]; intros w2; cbn [send_recv]; [apply safe_stop; discriminate|]. destruct (_ && _); [|now apply safe_ret].
      eapply safe_bind with (Q := ever); [apply safe_do|]. intros _. eapply safe_bind with (Q := ever); [apply safe_recv|]. intros; apply IHk.
  Qed.
End S.

(** Lemmas: what whole runs of the fallback adapter say (C104, C105). *)
From Verif Require Import Base EventModel InotifySpec Mon WarthogModel WarthogSpec WarthogFacts WarthogRun.

Lemma begun_S h k : begun h (S k) <-> begun h k \/ h (S k) <> [].
Proof.
  split.
  - intros (i & Hi & H). destruct (Nat.eq_dec i (S k)) as [-> |Hn]; [now right|]. left. exists i. split; [lia|exact H].
  - intros [(i & Hi & H)|H]; [exists i|exists (S k)]; (split; [lia|exact H]).
Qed.
Lemma begun_0 h : ~ begun h 0.
Proof. intros (i & Hi & _). lia. Qed.
Lemma remembered_0 h p t : ~ remembered h 0 p t.
Proof. intros (i & e & Hi & _). lia. Qed.
Lemma remembered_S h k p t : remembered h (S k) p t <->
  (exists e, noticed h (S k) e /\ en_path e = p /\ en_time e = Some t) \/
  ((forall e, noticed h (S k) e -> en_path e <> p) /\ remembered h k p t).
Proof.
  split.
  - intros (i & e & Hi & Hn & Hp & Ht & Hl). destruct (Nat.eq_dec i (S k)) as [-> |Hne]; [left; eauto|right]. split.
    + intros e' He'. apply (Hl (S k) e'); [lia|exact He'].
    + exists i, e. split; [lia|]. repeat split; try apply Hn; auto. intros j e' Hj. apply Hl. lia.
  - intros [(e & Hn & Hp & Ht)|[Hno (i & e & Hi & Hn & Hp & Ht & Hl)]].
    + exists (S k), e. split; [lia|]. split; [exact Hn|]. split; [exact Hp|]. split; [exact Ht|]. intros; lia.
    + exists i, e. split; [lia|]. split; [exact Hn|]. split; [exact Hp|]. split; [exact Ht|].
      intros j e' Hj. destruct (Nat.eq_dec j (S k)) as [-> |Hne]; [apply Hno|apply Hl; lia].
Qed.
Lemma remembered_begun h k p t : remembered h k p t -> begun h k.
Proof. intros (i & e & Hi & (Hin & _) & _). exists i. split; [exact Hi|]. intros E. rewrite E in Hin. destruct Hin. Qed.

Section Whole.
  Variable s : wfs.
  Variable root : text.
  Variable h : nat -> contents.
  Hypothesis Hh : changes_between_rounds s root h.
  Hypothesis Ht : forall i e, In e (h i) -> en_time e <> None.

  Lemma one_path i e e' : In e (h i) -> In e' (h i) -> en_path e = en_path e' -> e = e'.
  Proof.
    intros He He' Ep. pose proof (proj2 Hh i) as Hnd. set (c := h i) in *. clearbody c. unfold paths in Hnd. induction c as [|y c IH]; [destruct He|].
    cbn in Hnd. inversion Hnd as [|? ? Hn Hnd']; subst. destruct He as [<-|He], He' as [<-|He']; auto.
    - exfalso. apply Hn. rewrite Ep. now apply in_map.
    - exfalso. apply Hn. rewrite <- Ep. now apply in_map.
  Qed.
  Lemma remembered_one k p t t' : remembered h k p t -> remembered h k p t' -> t = t'.
  Proof.
    intros (i & e & Hi & Hn & Hp & Et & Hl) (i' & e' & Hi' & Hn' & Hp' & Et' & Hl').
    destruct (Nat.lt_trichotomy i i') as [H|[->|H]].
    - exfalso. apply (Hl i' e'); [lia|exact Hn'|exact Hp'].
    - assert (e = e') by (apply (one_path i'); [apply Hn|apply Hn'|congruence]). congruence.
    - exfalso. apply (Hl' i e); [lia|exact Hn|exact Hp].
  Qed.

  (** The specification leaves no choice. *)
  Lemma says_one j e l l' : says h j e l -> says h j e l' -> l = l'.
  Proof.
    intros A B. destruct A as [A|A|A A1 A2|t A A1 A2 A3|t A A1], B as [B|B|B B1 B2|t' B B1 B2 B3|t' B B1]; try reflexivity; try contradiction; try congruence;
      try (exfalso; eapply A2; eassumption); try (exfalso; eapply B2; eassumption).
    - exfalso. assert (t = t') by eauto using remembered_one. congruence.
    - exfalso. assert (t = t') by eauto using remembered_one. congruence.
  Qed.
  Lemma round_says_one j c : forall l l', round_says h j c l -> round_says h j c l' -> l = l'.
  Proof.
    induction c as [|e c IH]; intros l l' A B; inversion A; inversion B; subst; [reflexivity|]. f_equal; [eapply says_one; eassumption|auto].
  Qed.
  Lemma rounds_say_one k : forall l l', rounds_say h k l -> rounds_say h k l' -> l = l'.
  Proof.
    induction k as [|k IH]; intros l l' A B; inversion A; inversion B; subst; [reflexivity|]. f_equal; [auto|eapply round_says_one; eassumption].
  Qed.

  (** What the bucket holds after [k] rounds. *)
  Definition holds (b : bucket) (k : nat) : Prop :=
    (forall p t, tfind p b = Some t <-> remembered h k p t) /\ (b <> [] <-> begun h k).
  Lemma holds_start : holds [] 0.
  Proof.
    split; [intros p t; split; [discriminate|intros H; now apply remembered_0 in H]|].
    split; [contradiction|intros H; now apply begun_0 in H].
  Qed.
  Lemma holds_nil b k : holds b k -> (b = [] <-> ~ begun h k).
  Proof. intros [_ H]. split; [intros -> Hb; now apply H in Hb|]. intros Hb. destruct b; [reflexivity|]. exfalso. apply Hb, H. discriminate. Qed.

  (** One round, from the facts [loop_unfold] gives. *)
  Lemma news_says b k : holds b k -> begun h k -> round_says h (S k) (h (S k)) (flat_map (news (fun p => tfind p b)) (h (S k))).
  Proof.
    intros [H _] Hb. pose proof (Ht (S k)) as Ht'. set (c := h (S k)) in *. clearbody c. induction c as [|e c IH]; [constructor|].
    cbn [flat_map]. constructor; [|apply IH; intros; apply Ht'; now right]. pose proof (Ht' e (or_introl eq_refl)) as He.
    assert (E : (S k - 1 = k)%nat) by lia. unfold news. destruct (en_regular e) eqn:Er; [|apply says_other; exact Er].
    destruct (en_time e) as [t|] eqn:Et; [|now destruct He]. destruct (tfind (en_path e) b) as [t0|] eqn:Ef.
    - pose proof (proj1 (H _ _) Ef) as Hr. destruct (t0 =? t)%Z eqn:Ez.
      + apply Z.eqb_eq in Ez. subst t0. eapply says_same; [rewrite E; exact Hr|exact Et].
      + apply Z.eqb_neq in Ez. eapply says_changed; rewrite ?E; eauto. rewrite Et. congruence.
    - apply says_new; rewrite ?E; auto. intros t' Hr. apply H in Hr. congruence.
  Qed.
  Lemma silent_says k : ~ begun h k -> round_says h (S k) (h (S k)) [].
  Proof.
    intros Hb. assert (H : forall c, round_says h (S k) c []); [|apply H].
    induction c as [|e c IH]; [constructor|]. change (@nil shape) with (@nil shape ++ []). constructor; [|exact IH]. apply says_first. now replace (S k - 1)%nat with k by lia.
  Qed.
  Lemma holds_step b b' k : holds b k ->
    (b <> [] -> forall p, tfind p b' = learns (fun p => tfind p b) (h (S k)) p) ->
    (forall p, ~ In p (paths (h (S k))) -> tfind p b' = tfind p b) ->
    (b <> [] \/ h (S k) <> [] -> b' <> []) -> (b = [] -> h (S k) = [] -> b' = []) ->
    (b = [] -> forall e t, In e (h (S k)) -> en_time e = Some t -> tfind (en_path e) b' = Some t) ->
    holds b' (S k).
  Proof.
    intros Hb H1 H3 H4 H5 H6. assert (E : (S k - 1 = k)%nat) by lia. split.
    - intros p t. rewrite remembered_S. unfold noticed. rewrite E.
      destruct (in_dec (list_eq_dec N.eq_dec) p (paths (h (S k)))) as [Hin|Hin].
      + apply in_map_iff in Hin as (e & Ep & He). destruct (en_time e) as [te|] eqn:Et; [|now apply Ht in He].
        assert (D : b = [] \/ b <> []) by (destruct b; [now left|now right]). destruct D as [D|D].
        * pose proof (H6 D e te He Et) as Hf. rewrite Ep in Hf. rewrite Hf. pose proof (proj1 (holds_nil _ _ Hb) D) as Hnb. split.
          -- intros [= <-]. left. exists e. auto.
          -- intros [(e' & [He' _] & Ep' & Et')|[Hno _]].
             ++ assert (e' = e) by (apply (one_path (S k)); auto; congruence). congruence.
             ++ exfalso. apply (Hno e); auto.
        * pose proof (proj1 (proj2 Hb) D) as Hbg. rewrite (H1 D), <- Ep, (learns_in _ _ e (proj2 Hh (S k)) He), Ep. destruct (en_regular e) eqn:Er.
          -- rewrite Et. split.
             ++ intros [= <-]. left. exists e. auto.
             ++ intros [(e' & [He' _] & Ep' & Et')|[Hno _]].
                ** assert (e' = e) by (apply (one_path (S k)); auto; congruence). congruence.
                ** exfalso. apply (Hno e); auto.
          -- rewrite (proj1 Hb p t). split.
             ++ intros Hr. right. split; [|exact Hr]. intros e' [He' [Hr'|Hnb]] Ep'; [|contradiction].
                assert (e' = e) by (apply (one_path (S k)); auto; congruence). congruence.
             ++ intros [(e' & [He' [Hr'|Hnb]] & Ep' & Et')|[_ Hr]]; [|contradiction|exact Hr].
                assert (e' = e) by (apply (one_path (S k)); auto; congruence). congruence.
      + rewrite (H3 p Hin), (proj1 Hb p t). split.
        * intros Hr. right. split; [|exact Hr]. intros e' [He' _] Ep'. apply Hin. rewrite <- Ep'. now apply in_map.
        * intros [(e' & [He' _] & Ep' & _)|[_ Hr]]; [|exact Hr]. exfalso. apply Hin. rewrite <- Ep'. now apply in_map.
    - rewrite begun_S, <- (proj2 Hb). split; [|exact H4]. intros Hb'. destruct b; [|left; discriminate]. right. intros Hc. apply Hb'. now apply H5.
  Qed.

  (** All rounds: the run up to any look at the stop flag, and all of it. *)
  Lemma loop_says : forall fuel b tr, holds b (rounds tr) -> rounds_say h (rounds tr) (wshown tr) ->
    let (o, r) := warthog_loop s fuel root b tr in
    (r = Ok true \/ r = Fuel) /\ rounds_say h (rounds (tr ++ o)) (wshown (tr ++ o)) /\
    forall a c, o = a ++ WState true :: c -> rounds_say h (rounds (tr ++ a)) (wshown (tr ++ a)).
  Proof.
    induction fuel as [|n IH]; intros b tr Hb Hs.
    { cbn. rewrite app_nil_r. split; [now right|]. split; [exact Hs|]. intros [|? ?] c H; discriminate. }
    destruct (wf_pending s tr) eqn:Hp.
    2:{ rewrite (loop_idle s root n b tr Hp). split; [now left|]. split; [rewrite rounds_app, wshown_app; cbn; rewrite Nat.add_0_r, app_nil_r; exact Hs|].
        intros [|y [|? ?]] c H; discriminate. }
    destruct (loop_unfold s root h Hh n b tr Hp) as (o & b' & Ro & E & H1 & H2 & H3 & H4 & H5 & H6). rewrite E.
    set (k := rounds tr) in *. assert (Hrd : rounds (tr ++ WState true :: o) = S k) by (rewrite rounds_app; cbn; fold k; lia).
    assert (Hsay : round_says h (S k) (h (S k)) (wshown o)).
    { assert (D : b = [] \/ b <> []) by (destruct b; [now left|now right]). destruct D as [D|D].
      - rewrite (H2 D (Ht (S k))). apply silent_says. now apply (holds_nil b).
      - rewrite (proj1 (H1 D)). apply news_says; [exact Hb|]. now apply Hb. }
    specialize (IH b' (tr ++ WState true :: o)). rewrite Hrd in IH.
    destruct (warthog_loop s n root b' (tr ++ WState true :: o)) as [o2 r2].
    destruct IH as (A & B & C).
    - apply (holds_step b b' k Hb); auto; [intros D; exact (proj2 (H1 D))|intros D; apply H4; [exact D|apply Ht]].
    - rewrite wshown_app. change (wshown (WState true :: o)) with (wshown o). constructor; [exact Hs|exact Hsay].
    - split; [exact A|]. split.
      + rewrite <- app_assoc in B. exact B.
      + intros a c Ea. destruct a as [|y a]; [rewrite app_nil_r; exact Hs|]. cbn [app] in Ea. injection Ea as <- Ea.
        assert (Hno : ~ In (WState true) o).
        { clear -Ro. induction o as [|y o IH]; [intros []|]. intros [->|Hx]; [discriminate Ro|]. destruct y as [| |[]| | | | | |]; cbn in Ro; try discriminate; now apply IH. }
        assert (Hsp : exists a', a = o ++ a' /\ o2 = a' ++ WState true :: c).
        { clear -Ea Hno. revert a Ea. induction o as [|y o IH]; intros a Ea; [exists a; auto|]. cbn [app] in Ea. destruct a as [|z a]; cbn [app] in Ea.
          - injection Ea as -> _. exfalso. apply Hno. now left.
          - injection Ea as <- Ea. destruct (IH (fun H => Hno (or_intror H)) _ Ea) as (a' & -> & ->). exists a'. auto. }
        destruct Hsp as (a' & -> & Ea'). specialize (C a' c Ea'). rewrite <- app_assoc in C. exact C.
  Qed.
End Whole.

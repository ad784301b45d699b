(** What the fallback remembers: facts for C155. *)
From Verif Require Import Base EventModel InotifySpec Mon WarthogModel WarthogSpec WarthogFacts WarthogRun WarthogWhole.

(** The watcher goes to look at the stop flag: what it has done, and its bucket. *)
Inductive looks (s : wfs) (root : text) : list wobs -> bucket -> Prop :=
| looks_first : looks s root [] []
| looks_next tr b o1 b1 o2 b2 : looks s root tr b -> wf_pending s tr = true ->
    tend_bucket s root b (tr ++ [WState true]) = (o1, Ok (true, b1)) ->
    scan s root b1 ((tr ++ [WState true]) ++ o1) = (o2, Ok (true, b2)) ->
    looks s root (tr ++ WState true :: o1 ++ o2) b2.

(** So it does: the rest of the run goes on from there. *)
Lemma looks_in_run s root tr b : looks s root tr b ->
  exists m, forall n, warthog_watch s (m + n) root [] = let (o, r) := warthog_loop s n root b tr in (tr ++ o, r).
Proof.
  unfold warthog_watch. induction 1 as [|tr b o1 b1 o2 b2 L (m & IH) Hp E1 E2].
  - exists 0%nat. intros n. cbn [Nat.add app]. now destruct (warthog_loop s n root [] []).
  - exists (m + 1)%nat. intros n. replace (m + 1 + n)%nat with (m + S n)%nat by lia. rewrite IH. cbn [warthog_loop].
    unfold pbind at 1, ask. rewrite Hp. cbn [negb]. unfold pbind at 1. rewrite E1. cbn [fst snd negb].
    unfold pbind at 1. rewrite E2. cbn [fst snd negb].
    replace ((((tr ++ [WState true]) ++ o1) ++ o2)) with (tr ++ WState true :: o1 ++ o2) by (rewrite <- !app_assoc; reflexivity).
    destruct (warthog_loop s n root b2 _) as [o r]. cbn [app]. rewrite <- ?app_assoc. cbn [app]. rewrite <- ?app_assoc. reflexivity.
Qed.

(** ** Each path once, on any filesystem *)
Definition keys (b : bucket) : list text := map fst b.
Lemma keys_terase k (b : bucket) : NoDup (keys b) -> NoDup (keys (terase k b)).
Proof.
  unfold keys, terase. induction b as [|[p t] b IH]; intros H; [constructor|]. cbn in H. inversion H as [|? ? Hn H']; subst. cbn.
  destruct (text_eqb k p); cbn; [now apply IH|]. constructor; [|now apply IH].
  intros Hi. apply Hn. apply in_map_iff in Hi as (x & <- & Hx). apply filter_In in Hx as [Hx _]. now apply in_map.
Qed.
Lemma keys_tset k t (b : bucket) : NoDup (keys b) -> NoDup (keys (tset k t b)).
Proof.
  intros H. unfold tset. cbn. constructor; [|now apply keys_terase]. intros Hi. apply in_map_iff in Hi as (x & Ex & Hx).
  unfold terase in Hx. apply filter_In in Hx as [_ Hx]. rewrite Ex, text_eqb_refl in Hx. discriminate Hx.
Qed.
Lemma tfind_in (b : bucket) p t : NoDup (keys b) -> (tfind p b = Some t <-> In (p, t) b).
Proof.
  unfold keys. induction b as [|[q u] b IH]; intros H; [split; [discriminate|intros []]|]. cbn in H. inversion H as [|? ? Hn H']; subst. cbn [tfind].
  destruct (text_eqb p q) eqn:E.
  - apply text_eqb_eq in E as ->. split.
    + intros Hs. injection Hs as ->. now left.
    + intros [Hi|Hi]; [injection Hi as ->; reflexivity|]. exfalso. apply Hn. change q with (fst (q, t)). now apply in_map.
  - rewrite (IH H'). split; [now right|]. intros [Hi|Hi]; [|exact Hi]. injection Hi as -> ->. rewrite text_eqb_refl in E. discriminate E.
Qed.

(** A part of the program that keeps the paths distinct. *)
Definition once (m : W (bool * bucket)) : Prop := forall tr o r b', m tr = (o, Ok (r, b')) -> NoDup (keys b').
Definition once1 (m : W bucket) : Prop := forall tr o b', m tr = (o, Ok b') -> NoDup (keys b').
Lemma pbind_end {A B} (m : W A) (f : A -> W B) tr o b : pbind m f tr = (o, Ok b) ->
  exists tr' a o', f a tr' = (o', Ok b) /\ exists tr0 o0, m tr0 = (o0, Ok a).
Proof.
  intros H. apply pbind_inv in H as [(o1 & a & o2 & E1 & E2 & _)|[(u & _ & E)|[[_ E]|[_ E]]]]; [|discriminate E..]. eauto 10.
Qed.
Lemma pret_end {A} (a : A) tr o b : (pret a : W A) tr = (o, Ok b) -> b = a.
Proof. intros H. injection H as _ ->. reflexivity. Qed.

Section Any.
  Variable s : wfs.
  Lemma once_scan_file file b : NoDup (keys b) -> once (scan_file s file b).
  Proof.
    intros ND tr o r b' E. unfold scan_file in E. apply pbind_end in E as (tr1 & ex & o1 & E & _). apply pbind_end in E as (tr2 & reg & o2 & E & _).
    destruct reg; [|apply pret_end in E; injection E as _ ->; exact ND].
    apply pbind_end in E as (tr3 & ts & o3 & E & _). destruct ts as [t|].
    - destruct (tfind file b) as [t0|].
      + destruct (t0 =? t)%Z; [apply pret_end in E; injection E as _ ->; exact ND|].
        apply pbind_end in E as (tr4 & u & o4 & E & _). apply pret_end in E. injection E as _ ->. now apply keys_tset.
      + apply pbind_end in E as (tr4 & u & o4 & E & _). apply pret_end in E. injection E as _ ->. now apply keys_tset.
    - apply pbind_end in E as (tr4 & u & o4 & E & _). apply pret_end in E. injection E as _ ->. destruct (tfind file b); [now apply keys_terase|exact ND].
  Qed.
  Lemma once_weach body es : (forall e b, NoDup (keys b) -> once1 (body e b)) -> forall b, NoDup (keys b) -> once1 (weach body es b).
  Proof.
    intros Hb. induction es as [|e es IH]; intros b ND tr o b' E; cbn [weach] in E; [apply pret_end in E; subst b'; exact ND|].
    apply pbind_end in E as (tr' & b1 & o' & E & tr0 & o0 & E0). eapply IH; [|exact E]. eapply Hb; eassumption.
  Qed.
  Lemma once_walk dir body : (forall e b, NoDup (keys b) -> once1 (body e b)) -> forall b, NoDup (keys b) -> once1 (for_walk s dir body b).
  Proof.
    intros Hb b ND tr o b' E. unfold for_walk in E. apply pbind_end in E as (tr1 & [es th] & o1 & E & _).
    apply pbind_end in E as (tr2 & b2 & o2 & E & tr0 & o0 & E0). destruct th; [discriminate E|]. apply pret_end in E; subst b'.
    eapply once_weach; eassumption.
  Qed.
  Lemma once_scan path b : NoDup (keys b) -> once (scan s path b).
  Proof.
    intros ND tr o r b' E. unfold scan in E. apply pbind_end in E as (tr1 & [r1 b1] & o1 & E & tr0 & o0 & E0). cbn [fst snd] in E.
    assert (N1 : NoDup (keys b1)).
    { unfold scan_directory in E0. apply pbind_end in E0 as (tr2 & d & o2 & E0 & _). destruct d; [|apply pret_end in E0; injection E0 as _ ->; exact ND].
      apply pbind_end in E0 as (tr3 & b3 & o3 & E0 & tr4 & o4 & E4). apply pret_end in E0; injection E0 as _ ->.
      eapply once_walk; [|exact ND|exact E4]. intros e b0 N0 tr5 o5 b5 E5. cbn beta in E5.
      apply pbind_end in E5 as (tr6 & [r6 b6] & o6 & E5 & tr7 & o7 & E7). apply pret_end in E5; subst b5. eapply once_scan_file; eassumption. }
    destruct r1; [apply pret_end in E; injection E as _ ->; exact N1|]. eapply once_scan_file; eassumption.
  Qed.
  Lemma once_populate path b : NoDup (keys b) -> once (populate s path b).
  Proof.
    intros ND tr o r b' E. unfold populate in E. apply pbind_end in E as (tr1 & ex & o1 & E & _). destruct ex; cbn [negb] in E; [|apply pret_end in E; injection E as _ ->; exact ND].
    apply pbind_end in E as (tr2 & d & o2 & E & _). destruct d; cbn [negb] in E.
    - apply pbind_end in E as (tr3 & b3 & o3 & E & tr4 & o4 & E4). apply pret_end in E; injection E as _ ->.
      eapply once_walk; [|exact ND|exact E4]. intros e b0 N0 tr5 o5 b5 E5. cbn beta in E5.
      apply pbind_end in E5 as (tr6 & ts & o6 & E5 & _). destruct ts; [apply pret_end in E5; subst b5; now apply keys_tset|].
      apply pbind_end in E5 as (tr7 & t & o7 & E5 & _). apply pret_end in E5; subst b5. now apply keys_tset.
    - apply pbind_end in E as (tr3 & t & o3 & E & _). discriminate E.
  Qed.
  Lemma once_prune_from path todo : forall b, NoDup (keys b) -> once1 (prune_from s path todo b).
  Proof.
    induction todo as [|[p t] todo IH]; intros b ND tr o b' E; cbn [prune_from] in E; [apply pret_end in E; subst b'; exact ND|].
    apply pbind_end in E as (tr1 & ex & o1 & E & _). destruct ex; [eapply IH; eassumption|].
    apply pbind_end in E as (tr2 & r & o2 & E & _). apply pbind_end in E as (tr3 & ty & o3 & E & _). apply pbind_end in E as (tr4 & u & o4 & E & _).
    eapply IH; [|exact E]. now apply keys_terase.
  Qed.
  Lemma once_tend path b : NoDup (keys b) -> once (tend_bucket s path b).
  Proof.
    intros ND tr o r b' E. unfold tend_bucket in E. destruct b as [|x b]; [|apply pret_end in E; injection E as _ ->; exact ND].
    apply pbind_end in E as (tr1 & [r1 b1] & o1 & E & tr0 & o0 & E0). pose proof (once_populate path [] ND tr0 o0 r1 b1 E0) as N1. cbn [fst snd] in E.
    destruct r1; [apply pret_end in E; injection E as _ ->; exact N1|]. unfold prune in E. apply pbind_end in E as (tr3 & b3 & o3 & E & tr4 & o4 & E4). apply pret_end in E; injection E as _ ->.
    eapply once_prune_from; eassumption.
  Qed.
  Lemma looks_once root tr b : looks s root tr b -> NoDup (keys b).
  Proof.
    induction 1 as [|tr b o1 b1 o2 b2 L IH Hp E1 E2]; [constructor|]. eapply once_scan; [|exact E2]. eapply once_tend; eassumption.
  Qed.
End Any.

(** ** On a history *)
Section History.
  Variable s : wfs.
  Variable root : text.
  Variable h : nat -> contents.
  Hypothesis Hh : changes_between_rounds s root h.
  Hypothesis Ht : forall i e, In e (h i) -> en_time e <> None.

  Lemma looks_holds tr b : looks s root tr b -> holds h b (rounds tr).
  Proof.
    induction 1 as [|tr b o1 b1 o2 b2 L IH Hp E1 E2]; [apply holds_start|].
    destruct (one_round s root h Hh b (tr ++ [WState true])) as (o & b' & Ro & E & H1 & H1' & H2 & H3 & H4 & H5).
    assert (Er : rounds (tr ++ [WState true]) = S (rounds tr)) by (rewrite rounds_app; cbn; lia). rewrite Er in *.
    unfold pbind in E. rewrite E1 in E. cbn [fst snd negb] in E. rewrite E2 in E. injection E as <- <-.
    replace (rounds (tr ++ WState true :: o1 ++ o2)) with (S (rounds tr)).
    - apply (holds_step s root h Hh Ht b b2 (rounds tr) IH); auto; [intros D; exact (proj2 (H1 D))|intros D; apply H4; [exact D|apply Ht]].
    - rewrite rounds_app. cbn. rewrite Ro. lia.
  Qed.
  (** It looks again and again as long as it is not stopped. *)
  Lemma looks_again tr b : looks s root tr b -> wf_pending s tr = true ->
    exists tr' b', looks s root tr' b' /\ rounds tr' = S (rounds tr).
  Proof.
    intros L Hp. destruct (one_round s root h Hh b (tr ++ [WState true])) as (o & b' & Ro & E & _).
    apply pbind_inv in E as [(o1 & [r1 b1] & o2 & E1 & E2 & ->)|[(u & _ & E)|[[_ E]|[_ E]]]]; [|discriminate E..]. cbn [fst snd] in E2.
    destruct r1; cbn [negb] in E2; [|discriminate E2]. exists (tr ++ WState true :: o1 ++ o2), b'. split.
    - eapply looks_next; eauto.
    - rewrite rounds_app. cbn. rewrite Ro. lia.
  Qed.
  Lemma remembered_stays k p t : remembered h k p t -> exists t', remembered h (S k) p t'.
  Proof.
    intros R. destruct (in_dec (list_eq_dec N.eq_dec) p (paths (h (S k)))) as [Hin|Hin].
    - apply in_map_iff in Hin as (e & Ep & He). destruct (en_regular e) eqn:Er.
      + destruct (en_time e) as [t'|] eqn:Et; [|now apply (Ht (S k) e) in Et]. exists t'. apply remembered_S. left. exists e. split; [split; [exact He|now left]|auto].
      + exists t. apply remembered_S. right. split; [|exact R]. intros e' [He' [Hr|Hb]] Ep'.
        * assert (e' = e) by (apply (one_path s root h Hh (S k)); auto; congruence). congruence.
        * apply Hb. replace (S k - 1)%nat with k by lia. eapply remembered_begun, R.
    - exists t. apply remembered_S. right. split; [|exact R]. intros e' [He' _] Ep'. apply Hin. rewrite <- Ep'. now apply in_map.
  Qed.
  Lemma remembered_later k k' p t : (k <= k')%nat -> remembered h k p t -> exists t', remembered h k' p t'.
  Proof.
    induction 1 as [|k' Hle IH]; intros R; [eauto|]. destruct (IH R) as (t' & R'). exact (remembered_stays k' p t' R').
  Qed.
End History.

(** What a Darwin watcher remembers: facts for C154. *)
From Verif Require Import Base PathModel EventModel InotifySpec Mon DarwinModel DarwinSpec DarwinFacts DarwinWorldSpec DarwinWorldFacts.

(** How many of the events say that something was created; destroyed. *)
Definition is_create (x : shape) : bool := match sh_effect x with EtCreate => true | _ => false end.
Definition is_destroy (x : shape) : bool := match sh_effect x with EtDestroy => true | _ => false end.
Definition creates (xs : list shape) : nat := length (filter is_create xs).
Definition destroys (xs : list shape) : nat := length (filter is_destroy xs).

Lemma creates_app a b : creates (a ++ b) = (creates a + creates b)%nat.
Proof. unfold creates. now rewrite filter_app, app_length. Qed.
Lemma destroys_app a b : destroys (a ++ b) = (destroys a + destroys b)%nat.
Proof. unfold destroys. now rewrite filter_app, app_length. Qed.

Lemma is_seen_in c p : is_seen c p = true <-> In p (seen c).
Proof.
  unfold is_seen. rewrite existsb_exists. split.
  - intros (x & H & E). apply text_eqb_eq in E as ->. exact H.
  - intros H. exists p. split; [exact H|apply text_eqb_refl].
Qed.
Lemma erase_none p l : ~ In p l -> filter (fun q => negb (text_eqb p q)) l = l.
Proof.
  induction l as [|x l IH]; intros H; [reflexivity|]. cbn. destruct (text_eqb p x) eqn:E.
  - apply text_eqb_eq in E as ->. exfalso. apply H. now left.
  - cbn. rewrite IH; [reflexivity|]. intros Hi. apply H. now right.
Qed.
Lemma erase_length p l : NoDup l -> In p l -> (length (filter (fun q => negb (text_eqb p q)) l) + 1 = length l)%nat.
Proof.
  induction l as [|x l IH]; intros ND H; [destruct H|]. inversion ND as [|? ? Hn ND']; subst. cbn.
  destruct (text_eqb p x) eqn:E; cbn.
  - apply text_eqb_eq in E as ->. rewrite erase_none by exact Hn. apply Nat.add_1_r.
  - destruct H as [->|H]; [rewrite text_eqb_refl in E; discriminate|]. rewrite IH; auto.
Qed.

(** Each once, and as many as were told of and not told to be gone. *)
Definition balanced (c : dctx) (o : list dobs) : Prop :=
  NoDup (seen c) /\ (length (seen c) + destroys (dshown o) = creates (dshown o))%nat.

Lemma dshown_mine o : Forall plain_obs o -> dshown o = mine o.
Proof. induction 1 as [|x o Hx _ IH]; [reflexivity|]. destruct x; try destruct Hx; cbn; now rewrite ?IH. Qed.

Lemma create_balance s c p fl t tr o c' : recv_create s c p fl t tr = (o, Ok c') -> NoDup (seen c) ->
  NoDup (seen c') /\ (length (seen c') + destroys (mine o) + 0 = length (seen c) + creates (mine o))%nat.
Proof.
  intros E ND. unfold recv_create in E. destruct (flag fl f_created); [destruct (is_seen c p) eqn:Es|].
  - injection E as <- <-. split; [exact ND|]. cbn. lia.
  - cbn in E. injection E as <- <-. cbn [seen]. split; [|cbn; lia].
    constructor; [|exact ND]. intros H. apply is_seen_in in H. rewrite H in Es. discriminate Es.
  - injection E as <- <-. split; [exact ND|]. cbn. lia.
Qed.
Lemma remove_balance s c p fl t tr o c' : recv_remove s c p fl t tr = (o, Ok c') -> NoDup (seen c) ->
  NoDup (seen c') /\ (length (seen c') + destroys (mine o) = length (seen c) + creates (mine o))%nat.
Proof.
  intros E ND. unfold recv_remove in E. destruct (flag fl f_removed); [destruct (is_seen c p) eqn:Es|].
  - cbn in E. injection E as <- <-. cbn [seen]. split; [now apply NoDup_filter|].
    apply is_seen_in in Es. cbn. rewrite Nat.add_0_r. now apply erase_length.
  - injection E as <- <-. split; [exact ND|]. cbn. lia.
  - injection E as <- <-. split; [exact ND|]. cbn. lia.
Qed.
Lemma modify_same s c p fl t tr o c' : recv_modify s c p fl t tr = (o, Ok c') -> c' = c /\ creates (mine o) = 0%nat /\ destroys (mine o) = 0%nat.
Proof. unfold recv_modify. destruct (flag fl fsev_modify); cbn; intros E; injection E as <- <-; auto. Qed.
Lemma rename_same s c p fl t tr o c' : recv_rename s c p fl t tr = (o, Ok c') -> seen c' = seen c /\ creates (mine o) = 0%nat /\ destroys (mine o) = 0%nat.
Proof.
  unfold recv_rename. destruct (flag fl f_renamed); [|cbn; intros E; injection E as <- <-; auto].
  unfold pbind at 1, ask at 1. cbv iota beta. destruct (_ && _ && _); cbn; intros E; injection E as <- <-; auto.
Qed.
Lemma one_balance s c p fl tr o c' : event_recv_one s c p fl tr = (o, Ok c') -> NoDup (seen c) ->
  Forall plain_obs o /\ NoDup (seen c') /\ (length (seen c') + destroys (mine o) = length (seen c) + creates (mine o))%nat.
Proof.
  intros E ND. destruct (recv_one_spec s c p fl tr) as (o9 & c9 & th & E9 & P9 & _). rewrite E in E9. injection E9 as <- <-. split; [exact P9|].
  unfold event_recv_one in E. destruct (negb (flag fl fsev_any)).
  { cbn in E. injection E as <- <-. split; [exact ND|]. cbn. lia. }
  set (t := darwin_ptype fl) in *.
  destruct (recv_create_spec s c p fl t tr) as (o1 & c1 & E1 & P1 & _).
  destruct (recv_remove_spec s c1 p fl t (tr ++ o1)) as (o2 & c2 & E2 & P2 & _).
  destruct (recv_modify_spec s c2 p fl t ((tr ++ o1) ++ o2)) as (o3 & E3 & P3 & _).
  destruct (recv_rename_spec s c2 p fl t (((tr ++ o1) ++ o2) ++ o3)) as (o4 & c4 & there & E4 & P4 & _).
  assert (X : event_recv_one s c p fl tr = (o1 ++ o2 ++ o3 ++ o4, Ok c4) \/ True) by now right.
  assert (Y : (o, Ok c') = (o1 ++ o2 ++ o3 ++ o4, Ok c4)).
  { rewrite <- E. eapply pbind_ok; [exact E1|]. eapply pbind_ok; [exact E2|]. eapply pbind_ok; [exact E3|exact E4]. }
  injection Y as -> ->. clear X.
  destruct (create_balance _ _ _ _ _ _ _ _ E1 ND) as [N1 B1]. destruct (remove_balance _ _ _ _ _ _ _ _ E2 N1) as [N2 B2].
  destruct (modify_same _ _ _ _ _ _ _ _ E3) as (_ & M1 & M2). destruct (rename_same _ _ _ _ _ _ _ _ E4) as (R0 & R1 & R2).
  rewrite R0. split; [exact N2|]. rewrite !mine_app_plain by auto. rewrite !creates_app, !destroys_app, M1, M2, R1, R2. lia.
Qed.
Lemma balanced_reach s w : dreach s dstart w -> balanced (dc w) (dlog w).
Proof.
  intros H. remember dstart as w0. induction H as [w|w w' w'' H IH St]; subst.
  - split; [constructor|reflexivity].
  - specialize (IH eq_refl). unfold balanced in *.
    destruct St as [| | | | | |c l n q r1 i p fl rs r2 k o o' c' E| | | | | |]; cbn [dc dlog] in *; rewrite ?dshown_app; cbn [dshown]; rewrite ?app_nil_r; try exact IH.
    destruct IH as [ND B]. destruct (one_balance _ _ _ _ _ _ _ E ND) as (P & N2 & B2).
    split; [exact N2|]. rewrite (dshown_mine o') by exact P. rewrite creates_app, destroys_app. lia.
Qed.

(** ** With one change at a time *)
Definition stays (c : change) : Prop := match c with CMove _ _ | CAway _ | CInto _ _ => False | _ => True end.
Lemma stays_inside cs : Forall stays cs -> Forall inside_tree cs.
Proof. induction 1 as [|c cs Hc _ IH]; constructor; [destruct c; try destruct Hc; exact Coq.Init.Logic.I|exact IH]. Qed.
Lemma made_last_there cs : forall w0 p, Forall stays cs -> made_last p cs = true -> afters w0 cs p <> None.
Proof.
  induction cs as [|c cs IH] using rev_ind; intros w0 p F M; [discriminate M|].
  apply Forall_app in F as [F Fc]. inversion Fc as [|? ? Hc _]; subst. unfold afters. rewrite fold_left_app. cbn [fold_left].
  change (fold_left after cs w0) with (afters w0 cs). rewrite made_last_snoc in M.
  destruct c as [q t|q|q|q|q r|q|r t]; cbn in Hc; try destruct Hc; cbn [after]; unfold put.
  - rewrite (text_eqb_sym p q). destruct (text_eqb q p); [discriminate|]. now apply IH.
  - rewrite (text_eqb_sym p q). destruct (text_eqb q p); [discriminate M|]. now apply IH.
  - now apply IH.
  - now apply IH.
Qed.

(** ** A system where nothing is ever found, and the records one after the other *)
Definition said (x : record) (r : rep) : Prop :=
  r_path r = fst x /\ r_flags r = snd x /\
  forall q b, r_asked r = Some (q, b) -> b = false /\ b_renamed (snd x) = true.
Lemma one_asked s c p fl tr o c' : (forall tr q, df_access s tr q = false) -> event_recv_one s c p fl tr = (o, Ok c') ->
  forall q b, asked o = Some (q, b) -> b = false /\ b_renamed fl = true.
Proof.
  intros Hs E q b A. unfold event_recv_one in E. destruct (negb (flag fl fsev_any)).
  { cbn in E. injection E as <- <-. discriminate A. }
  set (t := darwin_ptype fl) in *.
  destruct (recv_create_spec s c p fl t tr) as (o1 & c1 & E1 & P1 & A1 & _).
  destruct (recv_remove_spec s c1 p fl t (tr ++ o1)) as (o2 & c2 & E2 & P2 & A2 & _).
  destruct (recv_modify_spec s c2 p fl t ((tr ++ o1) ++ o2)) as (o3 & E3 & P3 & A3 & _).
  destruct (recv_rename_spec s c2 p fl t (((tr ++ o1) ++ o2) ++ o3)) as (o4 & c4 & there & E4 & P4 & A4 & _).
  assert (Y : (o, Ok c') = (o1 ++ o2 ++ o3 ++ o4, Ok c4)).
  { rewrite <- E. eapply pbind_ok; [exact E1|]. eapply pbind_ok; [exact E2|]. eapply pbind_ok; [exact E3|exact E4]. }
  injection Y as -> ->. rewrite !asked_app in A by auto.
  unfold recv_rename in E4. rewrite fl_renamed in E4. destruct (b_renamed fl); [|cbn in E4; injection E4 as <- <-; discriminate A].
  unfold pbind at 1, ask at 1 in E4. cbv iota beta in E4. rewrite Hs in E4.
  destruct (_ && _ && _); cbn in E4; injection E4 as <- <-; cbn in A; injection A as <- <-; split; reflexivity.
Qed.

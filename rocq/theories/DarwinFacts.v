(** Facts about the Darwin adapter: single records, then whole lives. *)
From Verif Require Import Base PathModel EventModel InotifySpec Mon DarwinModel DarwinSpec.

(** ** Flags *)
Lemma flag_testbit w k : flag w (2 ^ k) = N.testbit w k.
Proof.
  unfold flag. destruct (N.testbit w k) eqn:E.
  - destruct (N.land w (2 ^ k) =? 0)%N eqn:E0; [|reflexivity]. apply N.eqb_eq in E0.
    assert (H : N.testbit (N.land w (2 ^ k)) k = true) by now rewrite N.land_spec, E, N.pow2_bits_true.
    rewrite E0, N.bits_0 in H. discriminate.
  - destruct (N.land w (2 ^ k) =? 0)%N eqn:E0; [reflexivity|]. apply N.eqb_neq in E0. exfalso. apply E0, N.bits_inj. intros j.
    rewrite N.land_spec, N.bits_0. destruct (N.eqb_spec k j) as [<-|Hj]; [now rewrite E|]. rewrite N.pow2_bits_false; [apply andb_false_r|exact Hj].
Qed.
Lemma flag_lor w a b : flag w (N.lor a b) = flag w a || flag w b.
Proof.
  unfold flag. rewrite N.land_lor_distr_r. destruct (N.eqb_spec (N.land w a) 0) as [->|Ha]; cbn [negb orb]; [now rewrite N.lor_0_l|].
  destruct (N.eqb_spec (N.lor (N.land w a) (N.land w b)) 0) as [E|]; [|reflexivity]. apply N.lor_eq_0_iff in E as [E _]. contradiction.
Qed.
Lemma fl_created w : flag w f_created = b_created w. Proof. exact (flag_testbit w 8). Qed.
Lemma fl_removed w : flag w f_removed = b_removed w. Proof. exact (flag_testbit w 9). Qed.
Lemma fl_renamed w : flag w f_renamed = b_renamed w. Proof. exact (flag_testbit w 11). Qed.
Lemma fl_modify w : flag w fsev_modify = b_content w.
Proof.
  change fsev_modify with (N.lor (2^12) (N.lor (2^13) (N.lor (2^14) (2^15))))%N.
  rewrite !flag_lor, !flag_testbit. unfold b_content. now rewrite !orb_assoc.
Qed.
Lemma fl_any w : flag w fsev_any = b_known w.
Proof.
  change fsev_any with (N.lor (2^8) (N.lor (2^9) (N.lor (2^10) (N.lor (2^11) (N.lor (2^12) (N.lor (2^13) (N.lor (2^14) (2^15))))))))%N.
  rewrite !flag_lor, !flag_testbit. unfold b_known, b_content, b_created, b_removed, b_inodemeta, b_renamed. now rewrite !orb_assoc.
Qed.
Lemma fl_type w : darwin_ptype w = b_type w.
Proof.
  unfold darwin_ptype, b_type.
  change f_isfile with (2^16)%N. change f_isdir with (2^17)%N. change f_issymlink with (2^18)%N.
  change fsev_path_hard_link with (N.lor (2^20) (2^21))%N. now rewrite flag_lor, !flag_testbit.
Qed.

(** ** One record *)
(** What is made of a record, given the answer to the question about the last
    renamed path. *)
Definition pure_ren (c : dctx) (p : text) (fl : N) (there : bool) : bool :=
  b_renamed fl && negb (is_nil (last_rename c)) && negb (path_eqb (last_rename c) p) && negb there.
Definition pure_events (c : dctx) (p : text) (fl : N) (there : bool) : list shape :=
  let t := b_type fl in
  if b_known fl then
    (if b_created fl && negb (is_seen c p) then [Sh p EtCreate t None] else []) ++
    (if b_removed fl && (b_created fl || is_seen c p) then [Sh p EtDestroy t None] else []) ++
    (if b_content fl then [Sh p EtModify t None] else []) ++
    (if pure_ren c p fl there then [Sh (last_rename c) EtRename t (Some (Sh p EtRename t None))] else [])
  else [Sh p EtOther t None].
(** Only clock readings, questions and callbacks. *)
Definition plain_obs (x : dobs) : Prop := match x with DCb _ | DNow _ | DAccess _ _ => True | _ => False end.

Lemma mine_app_plain o o' : Forall plain_obs o -> mine (o ++ o') = mine o ++ mine o'.
Proof. induction 1 as [|x o Hx _ IH]; [reflexivity|]. destruct x; try destruct Hx; cbn; now rewrite ?IH. Qed.

Lemma is_seen_cons c p lr q : is_seen {| seen := p :: seen c; last_rename := lr |} q = text_eqb q p || is_seen c q.
Proof. reflexivity. Qed.
Lemma is_seen_erase c p lr q : is_seen {| seen := filter (fun x => negb (text_eqb p x)) (seen c); last_rename := lr |} q = negb (text_eqb q p) && is_seen c q.
Proof.
  unfold is_seen. cbn. induction (seen c) as [|x l IH]; [now rewrite andb_false_r|]. cbn.
  destruct (text_eqb p x) eqn:E; cbn; rewrite IH.
  - apply text_eqb_eq in E as <-. destruct (text_eqb q p) eqn:E1; cbn; [reflexivity|]. reflexivity.
  - destruct (text_eqb q x) eqn:E1; cbn; [|reflexivity]. apply text_eqb_eq in E1 as ->.
    destruct (text_eqb x p) eqn:E2; cbn; [|reflexivity]. apply text_eqb_eq in E2 as ->. rewrite text_eqb_refl in E. discriminate.
Qed.


Lemma recv_create_spec s c p fl t tr : exists o c', recv_create s c p fl t tr = (o, Ok c') /\ Forall plain_obs o /\ asked o = None /\
  mine o = (if b_created fl && negb (is_seen c p) then [Sh p EtCreate t None] else []) /\
  (forall q, is_seen c' q = text_eqb q p && b_created fl || is_seen c q) /\ last_rename c' = last_rename c.
Proof.
  unfold recv_create. rewrite fl_created. destruct (b_created fl); [destruct (is_seen c p) eqn:E|]; cbn [negb andb].
  - exists [], c. repeat (split; [reflexivity || constructor|]). split; [|reflexivity]. intros q. rewrite andb_true_r.
    destruct (text_eqb q p) eqn:E1; [apply text_eqb_eq in E1 as ->; exact E|reflexivity].
  - eexists _, _. split; [reflexivity|]. split; [repeat constructor|]. repeat (split; [reflexivity|]). split; [|reflexivity].
    intros q. now rewrite is_seen_cons, andb_true_r.
  - exists [], c. repeat (split; [reflexivity || constructor|]). split; [|reflexivity]. intros q. now rewrite andb_false_r.
Qed.
Lemma recv_remove_spec s c p fl t tr : exists o c', recv_remove s c p fl t tr = (o, Ok c') /\ Forall plain_obs o /\ asked o = None /\
  mine o = (if b_removed fl && is_seen c p then [Sh p EtDestroy t None] else []) /\
  (forall q, is_seen c' q = negb (text_eqb q p && b_removed fl) && is_seen c q) /\ last_rename c' = last_rename c.
Proof.
  unfold recv_remove. rewrite fl_removed. destruct (b_removed fl); [destruct (is_seen c p) eqn:E|]; cbn [negb andb].
  - eexists _, _. split; [reflexivity|]. split; [repeat constructor|]. repeat (split; [reflexivity|]). split; [|reflexivity].
    intros q. now rewrite is_seen_erase, andb_true_r.
  - exists [], c. repeat (split; [reflexivity || constructor|]). split; [|reflexivity]. intros q. rewrite andb_true_r.
    destruct (text_eqb q p) eqn:E1; [apply text_eqb_eq in E1 as ->; exact E|reflexivity].
  - exists [], c. repeat (split; [reflexivity || constructor|]). split; [|reflexivity]. intros q. now rewrite andb_false_r.
Qed.
Lemma recv_modify_spec s c p fl t tr : exists o, recv_modify s c p fl t tr = (o, Ok c) /\ Forall plain_obs o /\ asked o = None /\
  mine o = (if b_content fl then [Sh p EtModify t None] else []).
Proof.
  unfold recv_modify. rewrite fl_modify. destruct (b_content fl).
  - eexists. split; [reflexivity|]. split; [repeat constructor|]. auto.
  - exists []. split; [reflexivity|]. split; [constructor|]. auto.
Qed.
Lemma recv_rename_spec s c p fl t tr : exists o c' there, recv_rename s c p fl t tr = (o, Ok c') /\ Forall plain_obs o /\
  asked o = (if b_renamed fl then Some (last_rename c, there) else None) /\
  mine o = (if pure_ren c p fl there then [Sh (last_rename c) EtRename t (Some (Sh p EtRename t None))] else []) /\
  (forall q, is_seen c' q = is_seen c q) /\
  last_rename c' = (if b_renamed fl then if pure_ren c p fl there then [] else p else last_rename c).
Proof.
  unfold recv_rename, pure_ren. rewrite fl_renamed. destruct (b_renamed fl); cbn [andb].
  - set (th := df_access s tr (last_rename c)). set (df := negb (is_nil (last_rename c)) && negb (path_eqb (last_rename c) p)).
    destruct (df && negb th) eqn:E; [eexists _, _, th|eexists [DAccess (last_rename c) th], {| seen := seen c; last_rename := p |}, th].
    + split; [unfold pbind at 1, ask at 1; fold th; cbv iota beta; rewrite E; reflexivity|]. rewrite E. split; [repeat constructor|]. auto.
    + split; [unfold pbind at 1, ask at 1; fold th; cbv iota beta; rewrite E; reflexivity|]. rewrite E. split; [repeat constructor|]. auto.
  - exists [], c, false. split; [reflexivity|]. split; [constructor|]. auto.
Qed.
Lemma asked_app o o' : Forall plain_obs o -> asked o = None -> asked (o ++ o') = asked o'.
Proof. induction 1 as [|x o Hx _ IH]; [reflexivity|]. destruct x; try destruct Hx; cbn; auto. discriminate. Qed.

Lemma recv_one_spec s c p fl tr : exists o c' there,
  event_recv_one s c p fl tr = (o, Ok c') /\ Forall plain_obs o /\
  asked o = (if b_renamed fl then Some (last_rename c, there) else None) /\
  mine o = pure_events c p fl there /\
  (forall q, is_seen c' q = if text_eqb q p then negb (b_removed fl) && (b_created fl || is_seen c q) else is_seen c q) /\
  last_rename c' = (if b_renamed fl then if pure_ren c p fl there then [] else p else last_rename c).
Proof.
  unfold event_recv_one. rewrite fl_any, fl_type. unfold pure_events.
  destruct (b_known fl) eqn:Hk; cbn [negb].
  2:{ assert (Hz : b_created fl = false /\ b_removed fl = false /\ b_renamed fl = false).
      { unfold b_known in Hk. destruct (b_created fl), (b_removed fl), (b_renamed fl), (b_inodemeta fl); cbn in Hk; try discriminate; auto. }
      destruct Hz as (-> & -> & ->).
      eexists _, _, false. split; [reflexivity|]. split; [repeat constructor|]. split; [reflexivity|]. split; [reflexivity|]. split; [|reflexivity].
      intros q. now destruct (text_eqb q p). }
  set (t := b_type fl).
  destruct (recv_create_spec s c p fl t tr) as (o1 & c1 & E1 & P1 & A1 & M1 & S1 & L1).
  destruct (recv_remove_spec s c1 p fl t (tr ++ o1)) as (o2 & c2 & E2 & P2 & A2 & M2 & S2 & L2).
  destruct (recv_modify_spec s c2 p fl t ((tr ++ o1) ++ o2)) as (o3 & E3 & P3 & A3 & M3).
  destruct (recv_rename_spec s c2 p fl t (((tr ++ o1) ++ o2) ++ o3)) as (o4 & c4 & there & E4 & P4 & A4 & M4 & S4 & L4).
  exists (o1 ++ o2 ++ o3 ++ o4), c4, there.
  split; [eapply pbind_ok; [exact E1|]; eapply pbind_ok; [exact E2|]; eapply pbind_ok; [exact E3|exact E4]|].
  assert (HR : pure_ren c2 p fl there = pure_ren c p fl there) by (unfold pure_ren; now rewrite L2, L1).
  split; [rewrite !Forall_app; auto|]. split; [rewrite !asked_app by auto; rewrite A4, L2, L1; reflexivity|].
  split; [rewrite !mine_app_plain by auto; rewrite M1, M2, M3, M4, HR, L2, L1, S1, text_eqb_refl; reflexivity|].
  split; [|rewrite L4, HR, L2, L1; reflexivity].
  intros q. rewrite S4, S2, S1. destruct (text_eqb q p), (b_removed fl), (b_created fl), (is_seen c q); reflexivity.
Qed.

(** ** Logs *)
Definition quiet_obs (x : dobs) : Prop := match x with DCb _ | DAccess _ _ | DRec _ _ => False | _ => True end.
Lemma mine_rec o p fl o' : mine (o ++ DRec p fl :: o') = mine o.
Proof. induction o as [|x o IH]; [reflexivity|]. destruct x; cbn; now rewrite ?IH. Qed.
Lemma asked_rec o p fl o' : asked (o ++ DRec p fl :: o') = asked o.
Proof. induction o as [|x o IH]; [reflexivity|]. destruct x; cbn; now rewrite ?IH. Qed.
Lemma reports_rec o p fl o' : reports (o ++ DRec p fl :: o') = reports o ++ reports (DRec p fl :: o').
Proof.
  induction o as [|x o IH]; [reflexivity|]. destruct x; try exact IH.
  change (reports ((DRec p0 fl0 :: o) ++ DRec p fl :: o')) with (Rep p0 fl0 (asked (o ++ DRec p fl :: o')) (mine (o ++ DRec p fl :: o')) :: reports (o ++ DRec p fl :: o')).
  rewrite mine_rec, asked_rec, IH. reflexivity.
Qed.
Lemma mine_quiet o o' : Forall quiet_obs o' -> mine (o ++ o') = mine o.
Proof.
  intros H. induction o as [|x o IH]; [induction H as [|y o' Hy _ IH]; [reflexivity|]; destruct y; try destruct Hy; exact IH|].
  destruct x; cbn; now rewrite ?IH.
Qed.
Lemma asked_quiet o o' : Forall quiet_obs o' -> asked (o ++ o') = asked o.
Proof.
  intros H. induction o as [|x o IH]; [induction H as [|y o' Hy _ IH]; [reflexivity|]; destruct y; try destruct Hy; exact IH|].
  destruct x; cbn; now rewrite ?IH.
Qed.
Lemma reports_quiet o o' : Forall quiet_obs o' -> reports (o ++ o') = reports o.
Proof.
  intros H. induction o as [|x o IH]; [induction H as [|y o' Hy _ IH]; [reflexivity|]; destruct y; try destruct Hy; exact IH|].
  destruct x; try exact IH. cbn. now rewrite IH, mine_quiet, asked_quiet.
Qed.
Lemma reports_plain o : Forall plain_obs o -> reports o = [].
Proof. induction 1 as [|x o Hx _ IH]; [reflexivity|]. destruct x; try destruct Hx; exact IH. Qed.
Lemma dshown_app o o' : dshown (o ++ o') = dshown o ++ dshown o'.
Proof. induction o as [|x o IH]; [reflexivity|]. destruct x; cbn; now rewrite ?IH. Qed.
Lemma dshown_plain o : Forall plain_obs o -> dshown o = mine o.
Proof. induction 1 as [|x o Hx _ IH]; [reflexivity|]. destruct x; try destruct Hx; cbn; now rewrite ?IH. Qed.
Lemma dshown_quiet o : Forall quiet_obs o -> dshown o = [].
Proof. induction 1 as [|x o Hx _ IH]; [reflexivity|]. destruct x; try destruct Hx; exact IH. Qed.

Lemma marks_app p a b : marks p (a ++ b) = marks p a ++ marks p b.
Proof. unfold marks. now rewrite filter_app, map_app. Qed.

(** ** What holds throughout *)
Definition account (h : list rep) (r : rep) : Prop :=
  let p := r_path r in let fl := r_flags r in let t := b_type fl in
  if b_known fl then
    exists ren,
      r_events r =
        (if b_created fl && negb (alive p h) then [Sh p EtCreate t None] else []) ++
        (if b_removed fl && (b_created fl || alive p h) then [Sh p EtDestroy t None] else []) ++
        (if b_content fl then [Sh p EtModify t None] else []) ++ ren /\
      (ren = [] \/ b_renamed fl = true /\ exists from, ren = [Sh from EtRename t (Some (Sh p EtRename t None))])
  else r_events r = [Sh p EtOther t None].
(** The path a rename record without event left behind. *)
Definition left_behind (h : list rep) : text :=
  match rev (flagged_renamed h) with
  | x :: _ => match renames_of x with [] => r_path x | _ => [] end
  | [] => []
  end.
Definition rename_account (h : list rep) (r : rep) : Prop :=
  if b_renamed (r_flags r) then
    exists there, r_asked r = Some (left_behind h, there) /\
      renames_of r =
        (if negb (is_nil (left_behind h)) && negb (path_eqb (left_behind h) (r_path r)) && negb there
         then [Sh (left_behind h) EtRename (b_type (r_flags r)) (Some (Sh (r_path r) EtRename (b_type (r_flags r)) None))] else [])
  else renames_of r = [].

Record dinv (c : dctx) (o : list dobs) : Prop := {
  di_seen : forall p, is_seen c p = alive p (reports o);
  di_last : last_rename c = left_behind (reports o);
  di_acc : forall h1 r h2, reports o = h1 ++ r :: h2 -> account h1 r /\ rename_account h1 r;
  di_shown : dshown o = flat_map r_events (reports o);
}.
Lemma dinv_quiet c o o' : Forall quiet_obs o' -> dinv c o -> dinv c (o ++ o').
Proof. intros Q [A B C S]. split; rewrite ?reports_quiet by exact Q; auto. now rewrite dshown_app, (dshown_quiet o'), app_nil_r. Qed.

Lemma renames_of_pure c p fl there :
  filter is_rename (pure_events c p fl there) =
  if pure_ren c p fl there then [Sh (last_rename c) EtRename (b_type fl) (Some (Sh p EtRename (b_type fl) None))] else [].
Proof.
  unfold pure_events. destruct (b_known fl) eqn:Hk.
  - rewrite !filter_app. destruct (b_created fl && negb (is_seen c p)), (b_removed fl && (b_created fl || is_seen c p)), (b_content fl), (pure_ren c p fl there); reflexivity.
  - replace (pure_ren c p fl there) with false; [reflexivity|]. unfold pure_ren. unfold b_known in Hk.
    destruct (b_created fl), (b_removed fl), (b_inodemeta fl), (b_renamed fl); cbn in Hk; try discriminate; reflexivity.
Qed.

Lemma marks_pure c p fl there q :
  marks q (pure_events c p fl there) =
  if text_eqb q p then
    (if b_created fl && negb (is_seen c p) then [EtCreate] else []) ++ (if b_removed fl && (b_created fl || is_seen c p) then [EtDestroy] else [])
  else [].
Proof.
  assert (Hk : b_known fl = false -> b_created fl = false /\ b_removed fl = false).
  { unfold b_known. destruct (b_created fl), (b_removed fl); cbn; try discriminate; auto. }
  unfold pure_events, marks. destruct (b_known fl) eqn:Ek.
  - clear Hk. rewrite !filter_app, !map_app.
    assert (Hr : map sh_effect (filter (is_mark q) (if pure_ren c p fl there then [Sh (last_rename c) EtRename (b_type fl) (Some (Sh p EtRename (b_type fl) None))] else [])) = []).
    { destruct (pure_ren c p fl there); [|reflexivity]. cbn. unfold is_mark. cbn. now rewrite andb_false_r. }
    rewrite Hr.
    destruct (b_created fl && negb (is_seen c p)), (b_removed fl && (b_created fl || is_seen c p)), (b_content fl); cbn;
      unfold is_mark; cbn; destruct (text_eqb q p); reflexivity.
  - destruct Hk as [-> ->]; [reflexivity|]. cbn. unfold is_mark. cbn. destruct (text_eqb q p); reflexivity.
Qed.

Lemma alive_snoc q h r : alive q (h ++ [r]) = match rev (marks q (r_events r)) with EtCreate :: _ => true | _ :: _ => false | [] => alive q h end.
Proof.
  unfold alive. rewrite flat_map_app, marks_app, rev_app_distr. cbn [flat_map]. rewrite app_nil_r.
  destruct (rev (marks q (r_events r))) as [|x l]; reflexivity.
Qed.

Lemma dinv_rec s c o p fl o' c' : dinv c o -> event_recv_one s c p fl (o ++ [DRec p fl]) = (o', Ok c') -> dinv c' (o ++ DRec p fl :: o').
Proof.
  intros [A B C S] E. destruct (recv_one_spec s c p fl (o ++ [DRec p fl])) as (o1 & c1 & there & E1 & P1 & A1 & M1 & S1 & L1).
  rewrite E in E1. injection E1 as <- <-.
  assert (HR : reports (o ++ DRec p fl :: o') = reports o ++ [Rep p fl (asked o') (mine o')]).
  { rewrite reports_rec. cbn. now rewrite (reports_plain o'). }
  set (r := Rep p fl (asked o') (mine o')) in *. set (h := reports o) in *.
  assert (Hre : renames_of r = if pure_ren c p fl there then [Sh (last_rename c) EtRename (b_type fl) (Some (Sh p EtRename (b_type fl) None))] else []).
  { unfold renames_of, r. cbn. rewrite M1. apply renames_of_pure. }
  split.
  - intros q. rewrite HR, alive_snoc. cbn [r_events r]. unfold r; cbn [r_events]. rewrite M1, marks_pure, S1.
    destruct (text_eqb q p) eqn:Eq; [apply text_eqb_eq in Eq as ->|apply A].
    rewrite <- A. destruct (b_created fl), (b_removed fl), (is_seen c p); reflexivity.
  - rewrite HR, L1. unfold left_behind, flagged_renamed. rewrite filter_app, rev_app_distr. cbn [filter]. change (r_flags r) with fl.
    destruct (b_renamed fl); [|cbn [app rev]; rewrite B; reflexivity]. cbn [rev app]. rewrite Hre.
    destruct (pure_ren c p fl there); reflexivity.
  - intros h1 r' h2. rewrite HR. intros Hs.
    destruct h2 as [|y h2] using rev_ind.
    + apply app_inj_tail in Hs as [<- <-]. split.
      * unfold account, r. cbn [r_path r_flags r_events]. rewrite M1. unfold pure_events. rewrite <- A. destruct (b_known fl); [|reflexivity].
        eexists. split; [reflexivity|]. destruct (pure_ren c p fl there) eqn:Er; [right|now left]. unfold pure_ren in Er.
        destruct (b_renamed fl); [|discriminate]. split; [reflexivity|]. eauto.
      * unfold rename_account. cbn [r_flags r_path r_asked]. rewrite Hre. unfold r; cbn [r_flags r_path r_asked]. rewrite A1, <- B. unfold pure_ren.
        destruct (b_renamed fl); [|reflexivity]. exists there. split; [reflexivity|]. cbn [andb]. reflexivity.
    + rewrite app_comm_cons, app_assoc in Hs. apply app_inj_tail in Hs as [Hs _]. apply (C _ _ _ Hs).
  - rewrite dshown_app, HR, flat_map_app, S. cbn. rewrite app_nil_r. f_equal. now apply dshown_plain.
Qed.
Lemma dinv_reach s w : dreach s dstart w -> dinv (dc w) (dlog w).
Proof.
  intros H. remember dstart as w0. induction H as [w|w w' w'' H IH St]; subst.
  - split; try reflexivity. intros h1 r h2 Hh; destruct h1; discriminate.
  - specialize (IH eq_refl). destruct St; cbn [dc dlog] in *; try (apply dinv_quiet; [repeat constructor|exact IH]); try exact IH.
    eapply dinv_rec; eauto.
Qed.

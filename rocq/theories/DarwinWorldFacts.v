(** Lemmas for C115-C119: the Darwin adapter on a changing filesystem. *)
From Verif Require Import Base PathModel EventModel InotifySpec Mon DarwinModel DarwinSpec DarwinFacts DarwinLife DarwinWorldSpec.

(** ** Trees *)
Lemma after_typed w c : typed w -> can w c -> typed (after w c).
Proof.
  intros T C p. destruct c as [q t|q|q|q|q r|q|q t]; cbn in *; try apply T; unfold put.
  - destruct (text_eqb p q); [intros [= ->]; now apply C|apply T].
  - destruct (text_eqb p q); [discriminate|apply T].
  - destruct (rest_of r p); [apply T|]. destruct (rest_of q p); [discriminate|apply T].
  - destruct (rest_of q p); [discriminate|apply T].
  - destruct (text_eqb p q); [intros [= ->]; now apply C|apply T].
Qed.
Lemma rest_refl p : rest_of p p = Some [].
Proof. unfold rest_of. rewrite firstn_all, text_eqb_refl, skipn_all. reflexivity. Qed.
Lemma moved_gone w p q : rest_of q p = None -> is_there (after w (CMove p q)) p = false.
Proof. intros H. unfold is_there. cbn. now rewrite H, rest_refl. Qed.
Lemma type_at_ok w p : typed w -> type_at w p <> PtWatcher.
Proof. intros T. unfold type_at. specialize (T p). destruct (w p); congruence. Qed.

(** ** Flag words of single changes *)
Lemma flags_of_word k t : t <> PtWatcher -> In k [0x100; 0x200; 0x400; 0x800; 0x1000]%N ->
  let fl := N.lor k (type_bit t) in
  b_created fl = (k =? 0x100)%N /\ b_removed fl = (k =? 0x200)%N /\ b_inodemeta fl = (k =? 0x400)%N /\
  b_renamed fl = (k =? 0x800)%N /\ b_content fl = (k =? 0x1000)%N /\ b_type fl = t /\ b_known fl = true.
Proof.
  intros T H. cbn in H. destruct H as [<-|[<-|[<-|[<-|[<-|[]]]]]]; destruct t; try contradiction; repeat split; reflexivity.
Qed.

(** ** Reports *)
Lemma left_snoc h r : left_behind (h ++ [r]) =
  if b_renamed (r_flags r) then match renames_of r with [] => r_path r | _ => [] end else left_behind h.
Proof.
  unfold left_behind, flagged_renamed. rewrite filter_app, rev_app_distr. cbn [filter]. destruct (b_renamed (r_flags r)); reflexivity.
Qed.
Lemma alive_of p h r : alive p (h ++ [r]) =
  match rev (marks p (r_events r)) with EtCreate :: _ => true | _ :: _ => false | [] => alive p h end.
Proof. apply alive_snoc. Qed.

(** One report, of one flag other than renamed. *)
Lemma one_report h r p k t : account h r -> rename_account h r -> t <> PtWatcher -> In k [0x100; 0x200; 0x400; 0x1000]%N ->
  r_path r = p -> r_flags r = N.lor k (type_bit t) ->
  r_events r = (if (k =? 0x100)%N && negb (alive p h) then [Sh p EtCreate t None] else []) ++
               (if (k =? 0x200)%N && alive p h then [Sh p EtDestroy t None] else []) ++
               (if (k =? 0x1000)%N then [Sh p EtModify t None] else []) /\
  left_behind (h ++ [r]) = left_behind h.
Proof.
  intros A R T K Ep Ef. destruct (flags_of_word k t T) as (F1 & F2 & F3 & F4 & F5 & F6 & F7). { cbn in K |- *. tauto. }
  rewrite <- Ef in *. unfold account in A. rewrite F7 in A. destruct A as (ren & E & Hr).
  rewrite F1, F2, F5, F6, Ep in E. assert (K8 : (k =? 0x800)%N = false) by (cbn in K; destruct K as [<-|[<-|[<-|[<-|[]]]]]; reflexivity).
  rewrite left_snoc, F4, K8. split; [|reflexivity]. rewrite F4, K8 in Hr. destruct Hr as [-> |[X _]]; [|discriminate X]. rewrite app_nil_r in E. rewrite E.
  f_equal. f_equal. cbn in K. destruct K as [<-|[<-|[<-|[<-|[]]]]]; reflexivity.
Qed.
(** A report of the renamed flag alone. *)
Lemma rename_report h r p t : account h r -> rename_account h r -> t <> PtWatcher ->
  r_path r = p -> r_flags r = N.lor 0x800 (type_bit t) ->
  exists there, r_asked r = Some (left_behind h, there) /\
    r_events r = (if negb (is_nil (left_behind h)) && negb (path_eqb (left_behind h) p) && negb there
                  then [Sh (left_behind h) EtRename t (Some (Sh p EtRename t None))] else []) /\
    left_behind (h ++ [r]) = (if negb (is_nil (left_behind h)) && negb (path_eqb (left_behind h) p) && negb there then [] else p) /\
    forall q, alive q (h ++ [r]) = alive q h.
Proof.
  intros A R T Ep Ef. destruct (flags_of_word 0x800 t T) as (F1 & F2 & F3 & F4 & F5 & F6 & F7). { cbn. tauto. }
  rewrite <- Ef in *. change (0x800 =? 0x100)%N with false in F1. change (0x800 =? 0x200)%N with false in F2. change (0x800 =? 0x800)%N with true in F4. change (0x800 =? 0x1000)%N with false in F5.
  unfold rename_account in R. rewrite F4, F6, Ep in R. destruct R as (there & Ra & Rr). exists there. split; [exact Ra|].
  unfold account in A. rewrite F7, F1, F2, F5 in A. cbn [andb app] in A. destruct A as (ren & E & Hren).
  assert (Er : r_events r = renames_of r).
  { unfold renames_of. rewrite E. destruct Hren as [-> |(_ & from & ->)]; reflexivity. }
  rewrite Er, Rr. split; [reflexivity|]. split.
  - rewrite left_snoc, F4, Rr, Ep. destruct (negb (is_nil (left_behind h)) && negb (path_eqb (left_behind h) p) && negb there); reflexivity.
  - intros q. rewrite alive_of, Er, Rr. destruct (negb (is_nil (left_behind h)) && negb (path_eqb (left_behind h) p) && negb there); [|reflexivity].
    unfold marks. cbn. unfold is_mark. cbn. rewrite andb_false_r. reflexivity.
Qed.

Lemma made_last_snoc p cs c : made_last p (cs ++ [c]) =
  match c with CMake q _ => if text_eqb q p then true else made_last p cs | CDelete q => if text_eqb q p then false else made_last p cs | _ => made_last p cs end.
Proof. unfold made_last. rewrite fold_left_app. destruct c; reflexivity. Qed.

(** The accounts of the reports after [h1]. *)
Definition accounts (h1 h : list rep) : Prop := forall a r b, h = a ++ r :: b -> account (h1 ++ a) r /\ rename_account (h1 ++ a) r.
Lemma accounts_cons h1 r h : accounts h1 (r :: h) -> (account h1 r /\ rename_account h1 r) /\ accounts (h1 ++ [r]) h.
Proof.
  intros H. split.
  - specialize (H [] r h eq_refl). now rewrite app_nil_r in H.
  - intros a x b ->. specialize (H (r :: a) x b eq_refl). now rewrite <- app_assoc.
Qed.

Lemma marks_one q p f t : marks q [Sh p f t None] = if text_eqb q p then match f with EtCreate | EtDestroy => [f] | _ => [] end else [].
Proof. unfold marks. cbn. unfold is_mark. cbn. destruct (text_eqb q p), f; reflexivity. Qed.
Lemma text_eqb_sym a b : text_eqb a b = text_eqb b a.
Proof.
  destruct (text_eqb a b) eqn:E; [apply text_eqb_eq in E as ->; now rewrite text_eqb_refl|].
  destruct (text_eqb b a) eqn:E1; [|reflexivity]. apply text_eqb_eq in E1 as ->. rewrite text_eqb_refl in E. discriminate.
Qed.

(** One change. *)
Lemma paced_change w cs1 h1 c rs : typed w -> can w c -> inside_tree c ->
  (forall p, alive p h1 = made_last p cs1) -> left_behind h1 = [] ->
  Forall2 (fun x r => r_path r = fst x /\ r_flags r = snd x /\
    forall q b, r_asked r = Some (q, b) -> q <> [] -> b = is_there (after w c) q) (records w c) rs ->
  accounts h1 rs ->
  flat_map r_events rs = told_of cs1 w c /\ (forall p, alive p (h1 ++ rs) = made_last p (cs1 ++ [c])) /\ left_behind (h1 ++ rs) = [].
Proof.
  intros T C I Al L F A.
  assert (X1 : forall p k t, In k [0x100; 0x200; 0x400; 0x1000]%N -> t <> PtWatcher -> records w c = [(p, N.lor k (type_bit t))] ->
    exists r, rs = [r] /\
    r_events r = (if (k =? 0x100)%N && negb (alive p h1) then [Sh p EtCreate t None] else []) ++
               (if (k =? 0x200)%N && alive p h1 then [Sh p EtDestroy t None] else []) ++
               (if (k =? 0x1000)%N then [Sh p EtModify t None] else []) /\
    left_behind (h1 ++ [r]) = left_behind h1).
  { intros p k t K Ht E. rewrite E in F. inversion F as [|x r l rs' (Hp & Hf & _) F' E1 E2]; subst. inversion F'; subst. exists r. split; [reflexivity|].
    apply accounts_cons in A as [[A1 A2] _]. eapply one_report; eauto. }
  destruct c as [p t|p|p|p|p q|p|q t]; cbn [inside_tree] in I; try destruct I.
  - destruct C as [_ Ct]. destruct (X1 p 0x100%N t ltac:(cbn; auto) Ct eq_refl) as (r & -> & E & Lr). cbn in E. rewrite !app_nil_r in E. rewrite Al in E.
    cbn [flat_map told_of event_for]. rewrite app_nil_r, Lr. split; [rewrite E; destruct (made_last p cs1); reflexivity|]. split; [|exact L].
    intros x. rewrite alive_of, made_last_snoc, E, Al. rewrite (text_eqb_sym p x). destruct (made_last p cs1) eqn:Em; cbn [negb].
    + cbn. destruct (text_eqb x p) eqn:Ex; [apply text_eqb_eq in Ex as ->; exact Em|reflexivity].
    + rewrite marks_one. destruct (text_eqb x p); reflexivity.
  - destruct (X1 p 0x200%N (type_at w p) ltac:(cbn; auto) (type_at_ok _ _ T) eq_refl) as (r & -> & E & Lr). cbn in E. rewrite !app_nil_r in E. rewrite Al in E.
    cbn [flat_map told_of event_for]. rewrite app_nil_r, Lr. split; [rewrite E; destruct (made_last p cs1); reflexivity|]. split; [|exact L].
    intros x. rewrite alive_of, made_last_snoc, E, Al. rewrite (text_eqb_sym p x). destruct (made_last p cs1) eqn:Em.
    + rewrite marks_one. destruct (text_eqb x p); reflexivity.
    + cbn. destruct (text_eqb x p) eqn:Ex; [apply text_eqb_eq in Ex as ->; exact Em|reflexivity].
  - destruct (X1 p 0x1000%N (type_at w p) ltac:(cbn; auto) (type_at_ok _ _ T) eq_refl) as (r & -> & E & Lr). cbn in E.
    cbn [flat_map told_of event_for]. rewrite app_nil_r, Lr, E. split; [reflexivity|]. split; [|exact L].
    intros x. rewrite alive_of, made_last_snoc, E, Al, marks_one. destruct (text_eqb x p); reflexivity.
  - destruct (X1 p 0x400%N (type_at w p) ltac:(cbn; auto 10) (type_at_ok _ _ T) eq_refl) as (r & -> & E & Lr). cbn in E.
    cbn [flat_map told_of event_for]. rewrite app_nil_r, Lr, E. split; [reflexivity|]. split; [|exact L].
    intros x. rewrite alive_of, made_last_snoc, E, Al. reflexivity.
  - destruct C as (Hp & _ & Hne & Hpq & Hqp). cbn [records] in F. inversion F as [|x1 r1 l1 rs1 (P1 & G1 & _) F1]; subst. inversion F1 as [|x2 r2 l2 rs2 (P2 & G2 & Q2) F2]; subst. inversion F2; subst.
    cbn [fst snd] in *. apply accounts_cons in A as [[A1 A2] A]. apply accounts_cons in A as [[A3 A4] _].
    pose proof (type_at_ok w p T) as Tt.
    destruct (rename_report h1 r1 p (type_at w p) A1 A2 Tt P1 G1) as (th1 & _ & E1 & L1 & V1). rewrite L in E1, L1. cbn in E1, L1.
    destruct (rename_report (h1 ++ [r1]) r2 q (type_at w p) A3 A4 Tt P2 G2) as (th2 & K2 & E2 & L2 & V2). rewrite L1 in K2, E2, L2.
    assert (th2 = false) as ->. { rewrite (Q2 _ _ K2 Hp). now apply moved_gone. }
    replace (is_nil p) with false in E2, L2 by now destruct p. rewrite Hne in E2, L2. cbn in E2, L2.
    cbn [flat_map told_of event_for]. rewrite E1, E2. cbn [app]. split; [reflexivity|].
    change [r1; r2] with ([r1] ++ [r2]). rewrite app_assoc. split; [|exact L2]. intros x. now rewrite V2, V1, made_last_snoc, Al.
Qed.

Lemma paced_told cs : forall w cs1 h1 h, typed w -> cans w cs -> Forall inside_tree cs ->
  (forall p, alive p h1 = made_last p cs1) -> left_behind h1 = [] -> paced w cs h -> accounts h1 h ->
  flat_map r_events h = told_from cs1 w cs /\ (forall p, alive p (h1 ++ h) = made_last p (cs1 ++ cs)) /\ left_behind (h1 ++ h) = [].
Proof.
  induction cs as [|c cs IH]; intros w cs1 h1 h T C I Al L P A; inversion P as [w'|w' c' cs' rs h' F P']; subst.
  - rewrite !app_nil_r. auto.
  - destruct C as [C Cs]. inversion I; subst.
    destruct (paced_change w cs1 h1 c rs) as (E1 & V1 & L1); auto. { intros a r b E. apply (A a r (b ++ h')). now rewrite E, <- app_assoc. }
    destruct (IH (after w c) (cs1 ++ [c]) (h1 ++ rs) h') as (E2 & V2 & L2); auto. { now apply after_typed. }
    { intros a r b E. rewrite <- app_assoc. apply (A (rs ++ a) r b). now rewrite E, <- app_assoc. }
    rewrite flat_map_app, E1, E2. rewrite <- !app_assoc in *. split; [reflexivity|]. auto.
Qed.

(** ** Where events come from *)
Lemma split_either {A} (l x l1 : list A) y l2 : l ++ x = l1 ++ y :: l2 ->
  (exists l2', l = l1 ++ y :: l2' /\ l2 = l2' ++ x) \/ exists x1, l1 = l ++ x1 /\ x = x1 ++ y :: l2.
Proof.
  revert l1. induction l as [|a l IH]; intros l1 E; [right; exists l1; auto|]. destruct l1 as [|b l1]; cbn in E; injection E as <- E.
  - left. exists l. auto.
  - destruct (IH _ E) as [(l2' & -> & ->)|(x1 & -> & ->)]; [left; exists l2'; auto|right; exists x1; auto].
Qed.
Lemma rec_from s w : dreach s dstart w -> forall o1 p fl o2, dlog w = o1 ++ DRec p fl :: o2 ->
  exists i rs, In (DOccur i (Some rs)) o1 /\ In (p, fl) rs.
Proof.
  intros H. remember dstart as w0 eqn:E0. induction H as [|w w' w'' H IH St]; subst; [intros [|? ?] p fl o2 E; discriminate E|].
  specialize (IH eq_refl). intros o1 p fl o2 E.
  assert (Old : forall x, dlog w'' = dlog w' ++ x -> ~ In (DRec p fl) x -> exists i rs, In (DOccur i (Some rs)) o1 /\ In (p, fl) rs).
  { intros x Ex Hx. rewrite Ex in E. destruct (split_left _ _ _ _ _ E Hx) as (l2 & _ & E'). exact (IH _ _ _ _ E'). }
  destruct (step_adds s _ _ St) as (x & Ex & Hx). destruct St; cbn [dlog] in *.
  all: try (apply (Old x Ex); destruct Hx as [(y & -> & _ & Hy)|[-> |[-> |(p' & fl' & o' & -> & _)]]];
            [intros [Z|[]]; exact (Hy _ _ Z)|intros []|intros [Z|[Z|[]]]; discriminate Z|]; apply app_inv_head in Ex; discriminate Ex).
  1:{ apply (Old []); [now rewrite app_nil_r|intros []]. }
  clear x Ex Hx. destruct (recv_one_spec s c p0 fl0 (o ++ [DRec p0 fl0])) as (oo & cc & there & E1 & P1 & _). rewrite H0 in E1. injection E1 as <- <-.
  destruct (life_reach s _ H) as (_ & _ & Se). destruct (se_in _ Se i ((p0, fl0) :: rs)) as (a & m & Eo & Ho & _). { cbn. apply in_elt. }
  cbn [dlog] in *.
  change (DRec p0 fl0 :: o') with ([DRec p0 fl0] ++ o') in E. rewrite app_assoc in E.
  destruct (split_left _ _ _ _ _ E) as (l2 & _ & E'). { intros X. rewrite Forall_forall in P1. exact (P1 _ X). }
  destruct (snoc_split _ _ _ _ _ E') as [(l3 & _ & El)|(E2 & E3 & _)].
  - exact (IH _ _ _ _ El).
  - injection E3 as -> ->. rewrite E2. exists i, (recs m ++ (p0, fl0) :: rs). split; [exact Ho|apply in_elt].
Qed.

Lemma cb_in_mine o e : Forall plain_obs o -> In (DCb e) o -> In (shape_of e) (mine o).
Proof. induction 1 as [|x o Hx _ IH]; [intros []|]. intros [-> |H]; [now left|]. destruct x; try destruct Hx; cbn; auto. Qed.
(** An event of a rename comes right after the question. *)
Lemma rename_after_question s c p fl tr o c' m e o2 : event_recv_one s c p fl tr = (o, Ok c') -> o = m ++ DCb e :: o2 -> sh_effect (shape_of e) = EtRename ->
  exists m1 m2, m = m1 ++ DAccess (last_rename c) false :: m2 /\ negb (is_nil (last_rename c)) && negb (path_eqb (last_rename c) p) = true /\
    b_renamed fl = true /\ shape_of e = Sh (last_rename c) EtRename (b_type fl) (Some (Sh p EtRename (b_type fl) None)).
Proof.
  unfold event_recv_one. rewrite fl_type. destruct (flag fl fsev_any); cbn [negb].
  2:{ intros E -> He. unfold d_send in E. cbn in E. injection E as E _. destruct m as [|x [|y [|z m]]]; try discriminate E. injection E as _ <- _. discriminate He. }
  set (t := b_type fl). intros E Em He.
  destruct (recv_create_spec s c p fl t tr) as (o1 & c1 & E1 & P1 & _ & M1 & _ & L1).
  destruct (recv_remove_spec s c1 p fl t (tr ++ o1)) as (o3 & c2 & E2 & P2 & _ & M2 & _ & L2).
  destruct (recv_modify_spec s c2 p fl t ((tr ++ o1) ++ o3)) as (o4 & E3 & P3 & _ & M3).
  destruct (recv_rename s c2 p fl t (((tr ++ o1) ++ o3) ++ o4)) as [o5 r5] eqn:E4.
  assert (E' : (o1 ++ o3 ++ o4 ++ o5, r5) = (o, Ok c')).
  { rewrite <- E. symmetry. eapply pbind_ok; [exact E1|]. eapply pbind_ok; [exact E2|]. eapply pbind_ok; [exact E3|exact E4]. }
  clear E. injection E' as E Er. rewrite <- E in Em.
  assert (Nn : forall x, Forall plain_obs x -> (forall y, In y (mine x) -> sh_effect y <> EtRename) -> ~ In (DCb e) x).
  { intros x Px Hx Hin. apply (Hx (shape_of e)); [|exact He]. now apply cb_in_mine. }
  apply split_right in Em as (x1 & -> & Em).
  2:{ apply Nn; [exact P1|]. rewrite M1. destruct (b_created fl && negb (is_seen c p)); intros y Hy; [|destruct Hy]. destruct Hy as [<-|[]]. discriminate. }
  apply split_right in Em as (x2 & -> & Em).
  2:{ apply Nn; [exact P2|]. rewrite M2. destruct (b_removed fl && is_seen c1 p); intros y Hy; [|destruct Hy]. destruct Hy as [<-|[]]. discriminate. }
  apply split_right in Em as (x3 & -> & Em).
  2:{ apply Nn; [exact P3|]. rewrite M3. destruct (b_content fl); intros y Hy; [|destruct Hy]. destruct Hy as [<-|[]]. discriminate. }
  unfold recv_rename in E4. rewrite fl_renamed in E4. destruct (b_renamed fl) eqn:Ef.
  2:{ injection E4 as <- _. destruct x3; discriminate Em. }
  unfold pbind at 1, ask at 1 in E4. cbv iota beta in E4. rewrite L2, L1 in E4.
  set (tr5 := ((tr ++ o1) ++ o3) ++ o4) in E4. destruct (df_access s tr5 (last_rename c)) eqn:Eb.
  - rewrite andb_false_r in E4. cbn in E4. injection E4 as <- _. destruct x3 as [|? [|? ?]]; discriminate Em.
  - destruct (negb (is_nil (last_rename c)) && negb (path_eqb (last_rename c) p)) eqn:Ed; cbn in E4; injection E4 as <- _.
    + exists (o1 ++ o3 ++ o4). destruct x3 as [|a1 [|a2 [|a3 [|a4 [|a5 x3]]]]]; try discriminate Em.
      injection Em as <- <- <- <- <- _. eexists. split; [rewrite <- !app_assoc; reflexivity|]. repeat (split; [reflexivity|]). reflexivity.
      exfalso. injection Em as _ _ _ _ _ Em. destruct x3; discriminate Em.
    + destruct x3 as [|? [|? ?]]; discriminate Em.
Qed.

(** The record an event comes from. *)
Lemma cb_from s w : dreach s dstart w -> forall o1 e o2, dlog w = o1 ++ DCb e :: o2 ->
  exists c a p fl m o' c', o1 = a ++ DRec p fl :: m /\ event_recv_one s c p fl (a ++ [DRec p fl]) = (m ++ DCb e :: o', Ok c') /\ dinv c a.
Proof.
  intros H. remember dstart as w0 eqn:E0. induction H as [|w w' w'' H IH St]; subst; [intros [|? ?] e o2 E; discriminate E|].
  specialize (IH eq_refl). intros o1 e o2 E.
  assert (Old : forall x, dlog w'' = dlog w' ++ x -> ~ In (DCb e) x ->
    exists c a p fl m o' c', o1 = a ++ DRec p fl :: m /\ event_recv_one s c p fl (a ++ [DRec p fl]) = (m ++ DCb e :: o', Ok c') /\ dinv c a).
  { intros x Ex Hx. rewrite Ex in E. destruct (split_left _ _ _ _ _ E Hx) as (l2 & _ & E'). exact (IH _ _ _ E'). }
  destruct (step_adds s _ _ St) as (x & Ex & Hx). destruct St; cbn [dlog] in *.
  all: try (apply (Old x Ex); destruct Hx as [(y & -> & Hy & _)|[-> |[-> |(p' & fl' & o' & -> & _)]]];
            [intros [Z|[]]; subst y; exact (Hy I)|intros []|intros [Z|[Z|[]]]; discriminate Z|]; apply app_inv_head in Ex; discriminate Ex).
  1:{ apply (Old []); [now rewrite app_nil_r|intros []]. }
  clear x Ex Hx. pose proof (dinv_reach s _ H) as D. cbn [dc dlog] in D.
  change (DRec p fl :: o') with ([DRec p fl] ++ o') in E. rewrite app_assoc in E.
  rewrite <- app_assoc in E. destruct (split_either _ _ _ _ _ E) as [(l2 & El & _)|(x1 & -> & Ex)]; [exact (IH _ _ _ El)|].
  destruct x1 as [|z x1]; [discriminate Ex|]. injection Ex as <- ->.
  exists c, o, p, fl, x1, o2, c'. split; [reflexivity|]. split; [exact H0|exact D].
Qed.

(** ** Soundness *)
Lemma in_reports r o : In r (reports o) -> In (DRec (r_path r) (r_flags r)) o.
Proof. induction o as [|x o IH]; [intros []|]. destruct x; cbn; auto. intros [<-|H]; [now left|auto]. Qed.
Lemma alive_made p h : accounts [] h -> alive p h = true -> exists r, In r h /\ r_path r = p /\ b_created (r_flags r) = true.
Proof.
  induction h as [|r h IH] using rev_ind; [discriminate|]. intros A H. rewrite alive_of in H.
  assert (A' : accounts [] h) by (intros a x b ->; apply (A a x (b ++ [r])); now rewrite <- app_assoc).
  destruct (A h r [] eq_refl) as [Ar _]. cbn [app] in Ar. destruct (rev (marks p (r_events r))) as [|f l] eqn:Em.
  - destruct (IH A' H) as (x & Hx & Y). exists x. split; [apply in_or_app; auto|exact Y].
  - destruct f; try discriminate H. exists r. split; [apply in_or_app; right; now left|].
    assert (Hin : In EtCreate (marks p (r_events r))) by (apply in_rev; rewrite Em; now left).
    unfold marks in Hin. apply in_map_iff in Hin as (x & Hx & Hin). apply filter_In in Hin as [Hin Hm]. unfold is_mark in Hm.
    apply andb_prop in Hm as [Hm _]. apply text_eqb_eq in Hm. unfold account in Ar. destruct (b_known (r_flags r)).
    + destruct Ar as (ren & E & Hren). rewrite E, !in_app_iff in Hin. destruct Hin as [Hin|[Hin|[Hin|Hin]]].
      * destruct (b_created (r_flags r)) eqn:Ec; [|destruct Hin]. destruct (alive (r_path r) h); [destruct Hin|]. destruct Hin as [<-|[]]. auto.
      * match type of Hin with context [if ?b then _ else _] => destruct b; [|destruct Hin] end. destruct Hin as [<-|[]]. discriminate Hx.
      * match type of Hin with context [if ?b then _ else _] => destruct b; [|destruct Hin] end. destruct Hin as [<-|[]]. discriminate Hx.
      * destruct Hren as [-> |(_ & from & ->)]; [destruct Hin|]. destruct Hin as [<-|[]]. discriminate Hx.
    + rewrite Ar in Hin. destruct Hin as [<-|[]]. discriminate Hx.
Qed.
Lemma left_flagged h : left_behind h <> [] -> exists r, In r h /\ r_path r = left_behind h /\ b_renamed (r_flags r) = true.
Proof.
  unfold left_behind. destruct (rev (flagged_renamed h)) as [|r l] eqn:E; [congruence|]. intros H.
  assert (Hin : In r (flagged_renamed h)) by (apply in_rev; rewrite E; now left). apply filter_In in Hin as [Hin Hf].
  exists r. destruct (renames_of r); [auto|congruence].
Qed.

Lemma hit_more k cs more : hit k cs -> hit k (cs ++ more).
Proof. intros (c & H & K). exists c. split; [apply in_or_app; auto|exact K]. Qed.
Lemma flags_more w0 cs more p fl : flags_true w0 cs p fl -> flags_true w0 (cs ++ more) p fl.
Proof.
  intros (A & B & C & D & E). repeat split; intros H.
  - destruct (A H) as (cs1 & cs2 & -> & Hw). exists cs1, (cs2 ++ more). split; [now rewrite app_assoc|exact Hw].
  - apply hit_more; auto.
  - apply in_or_app; auto.
  - apply in_or_app; auto.
  - apply hit_more; auto.
Qed.

Section Honest.
  Variables (s : dfs) (w : dworld) (w0 : tree) (hist : nat -> list change).
  Hypothesis R : dreach s dstart w.
  Hypothesis Ho : honest w0 hist (dlog w).
  Lemma rec_true a p fl b n : dlog w = a ++ b -> In (DRec p fl) a -> (length a <= n)%nat -> flags_true w0 (hist n) p fl.
  Proof.
    intros E Hin Hn. apply in_split in Hin as (a1 & a2 & ->). rewrite <- app_assoc in E. cbn in E.
    destruct (rec_from s w R _ _ _ _ E) as (i & rs & Hoc & Hp). apply in_split in Hoc as (b1 & b2 & ->). rewrite <- app_assoc in E. cbn in E.
    pose proof (ho_flags _ _ _ Ho _ _ _ _ _ _ E Hp) as F. rewrite !app_length in Hn.
    destruct (ho_grows _ _ _ Ho (length b1) n) as (more & ->); [lia|]. now apply flags_more.
  Qed.

  Lemma event_true o1 e o2 : dlog w = o1 ++ DCb e :: o2 ->
    exists p fl, In (DRec p fl) o1 /\ flags_true w0 (hist (length o1)) p fl /\
    let cs := hist (length o1) in
    match shape_of e with
    | Sh q EtCreate t None => q = p /\ t = b_type fl /\ b_known fl = true /\ hit (makes p) cs
    | Sh q EtDestroy t None => q = p /\ t = b_type fl /\ b_known fl = true /\ hit (makes p) cs /\ In (CDelete p) cs
    | Sh q EtModify t None => q = p /\ t = b_type fl /\ b_known fl = true /\ In (CWrite p) cs
    | Sh from EtRename t (Some (Sh to EtRename t' None)) =>
        to = p /\ t = b_type fl /\ t' = b_type fl /\ b_known fl = true /\ path_eqb from to = false /\
        exists n, (n <= length o1)%nat /\ hit (moves from) (hist n) /\ hit (moves to) (hist n) /\ is_there (afters w0 (hist n)) from = false
    | Sh q EtOther t None => q = p /\ t = b_type fl /\ b_known fl = false
    | _ => False
    end.
  Proof.
    intros E. destruct (cb_from s w R _ _ _ E) as (c & a & p & fl & m & o' & c' & -> & Ev & D). exists p, fl.
    split; [apply in_elt|]. set (n := length (a ++ DRec p fl :: m)).
    assert (F : flags_true w0 (hist n) p fl) by (eapply rec_true; [exact E|apply in_elt|apply le_n]). split; [exact F|]. cbv zeta.
    destruct (recv_one_spec s c p fl (a ++ [DRec p fl])) as (oo & cc & there & E1 & P1 & _ & M1 & _). rewrite Ev in E1. injection E1 as <- <-.
    assert (Hin : In (shape_of e) (pure_events c p fl there)) by (rewrite <- M1; apply cb_in_mine; [exact P1|apply in_elt]).
    destruct (sh_effect (shape_of e)) eqn:Ee.
    1:{ destruct (rename_after_question s c p fl _ _ _ m e o' Ev eq_refl Ee) as (m1 & m2 & -> & Hc & Hf & ->).
        apply andb_prop in Hc as [Hc1 Hc2]. apply negb_true_iff in Hc1, Hc2.
        assert (Hl : last_rename c <> []) by (intros X; rewrite X in Hc1; discriminate Hc1).
        repeat (split; [reflexivity|]). split; [unfold b_known; rewrite Hf; now rewrite !orb_true_r|]. split; [exact Hc2|].
        assert (E2 : dlog w = (a ++ DRec p fl :: m1) ++ DAccess (last_rename c) false :: m2 ++ DCb e :: o2) by (rewrite E, <- !app_assoc; cbn; now rewrite <- app_assoc).
        exists (length (a ++ DRec p fl :: m1)). split; [unfold n; rewrite !app_length; cbn; rewrite app_length; lia|]. split; [|split].
        - rewrite (di_last _ _ D) in *. destruct (left_flagged _ Hl) as (r & Hr & <- & Hfr). apply in_reports in Hr.
          destruct (rec_true _ _ _ _ (length (a ++ DRec p fl :: m1)) E2 (in_or_app _ _ _ (or_introl Hr)) (le_n _)) as (_ & _ & _ & _ & X). auto.
        - destruct (rec_true _ _ _ _ (length (a ++ DRec p fl :: m1)) E2 (in_elt _ _ _) (le_n _)) as (_ & _ & _ & _ & X). auto.
        - symmetry. exact (ho_there _ _ _ Ho _ _ _ _ E2 Hl). }
    all: unfold pure_events in Hin; destruct (b_known fl) eqn:Hk;
         [|destruct Hin as [Hin|[]]; rewrite <- Hin in Ee |- *; try discriminate Ee; cbn; auto].
    all: rewrite !in_app_iff in Hin; destruct F as (_ & F1 & F2 & F3 & _).
    all: assert (Hseen : is_seen c p = true -> hit (makes p) (hist n));
         [intros Hs; rewrite (di_seen _ _ D) in Hs; destruct (alive_made p (reports a)) as (r & Hr & <- & Hcr);
          [intros h1 x h2 Eh; exact (di_acc _ _ D _ _ _ Eh)|exact Hs|]; apply in_reports in Hr;
          destruct (rec_true _ _ _ _ n E (in_or_app _ _ _ (or_introl Hr)) (le_n _)) as (_ & X & _); auto|].
    all: destruct Hin as [Hin|[Hin|[Hin|Hin]]];
         match type of Hin with context [if ?b then _ else _] => destruct b eqn:Eb; [|destruct Hin] end; destruct Hin as [Hin|[]]; rewrite <- Hin in Ee |- *; try discriminate Ee.
    all: cbn; repeat (split; [reflexivity|]).
    - auto.
    - apply andb_prop in Eb as [Eb _]. auto.
    - apply andb_prop in Eb as [Er Eb]. split; [|auto]. destruct (b_created fl) eqn:Ec; auto.
  Qed.
End Honest.

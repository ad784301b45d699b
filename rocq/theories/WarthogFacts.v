(** Facts about the fallback adapter. *)
From Verif Require Import Base EventModel InotifySpec Mon WarthogModel WarthogSpec.

Lemma wshown_app a b : wshown (a ++ b) = wshown a ++ wshown b.
Proof.
  unfold wshown. rewrite <- map_app. f_equal. induction a as [|[] a IH]; cbn; try rewrite IH; reflexivity.
Qed.
Lemma rounds_app a b : rounds (a ++ b) = (rounds a + rounds b)%nat.
Proof. induction a as [|[| |[]| | | | | |] a IH]; cbn; try rewrite IH; reflexivity. Qed.

Lemma for_walk_eq s dir body b : for_walk s dir body b =
  ('(es, throws) <- w_walk s dir ;; b' <- weach body es b ;; if throws : bool then pcrash else pret b').
Proof. reflexivity. Qed.

(** ** One scan over fixed contents *)

Section Scan.
  Variable s : wfs.
  Variable root : text.
  Variable c : contents.
  Variable tr0 : list wobs.
  (** In this round. *)
  Hypothesis Hag : forall o, rounds o = 0%nat -> agrees s (tr0 ++ o) root c.

  Lemma ag o x : rounds o = 0%nat -> agrees s ((tr0 ++ o) ++ x) root c \/ rounds x <> 0%nat.
  Proof. intros H. destruct (Nat.eq_dec (rounds x) 0); [left|now right]. rewrite <- app_assoc. apply Hag. now rewrite rounds_app, H. Qed.

  Lemma scan_file_entry e b o : In e c -> rounds o = 0%nat ->
    exists o' b', scan_file s (en_path e) b (tr0 ++ o) = (o', Ok (en_regular e, b')) /\ rounds o' = 0%nat /\
      wshown o' = news (fun p => tfind p b) e /\
      (forall p, tfind p b' = learns (fun p => tfind p b) [e] p) /\
      (b <> [] -> (forall e, In e c -> en_time e <> None) -> b' <> []).
  Proof.
    intros He Ho. destruct e as [p reg ti]. cbn [en_path en_regular en_time].
    assert (A0 : forall o', rounds o' = 0%nat -> agrees s ((tr0 ++ o) ++ o') root c).
    { intros o' H. rewrite <- app_assoc. apply Hag. now rewrite rounds_app, Ho. }
    pose proof (ag_exists _ _ _ _ (Hag o Ho) _ He) as E1. cbn [en_path] in E1.
    pose proof (ag_regular _ _ _ _ (A0 [WExists p (Some true)] eq_refl) _ He) as E2. cbn [en_path en_regular] in E2.
    pose proof (ag_time _ _ _ _ (A0 [WExists p (Some true); WIsReg p (Some reg)] eq_refl) _ He) as E3. cbn [en_path en_time] in E3.
    unfold scan_file, w_exists, w_isreg, or_throw, w_time, w_send, ask, emit, pbind, pret.
    rewrite E1. cbn [app]. rewrite E2. cbn [app]. rewrite <- !app_assoc in *. cbn [app] in *.
    unfold news, learns. cbn [find en_path en_regular en_time].
    destruct reg.
    - rewrite E3. destruct ti as [t|].
      + destruct (tfind p b) as [t0|] eqn:Ef.
        * destruct (Z.eqb_spec t0 t) as [-> |Ht].
          -- do 2 eexists. split; [reflexivity|]. split; [reflexivity|]. split; [reflexivity|]. split; [|auto].
             intros q. destruct (text_eqb q p) eqn:Eq; [apply text_eqb_eq in Eq as ->; exact Ef|reflexivity].
          -- do 2 eexists. split; [reflexivity|]. split; [reflexivity|]. split; [reflexivity|]. split; [|discriminate].
             intros q. rewrite tfind_tset. destruct (text_eqb q p); reflexivity.
        * do 2 eexists. split; [reflexivity|]. split; [reflexivity|]. split; [reflexivity|]. split; [|discriminate].
          intros q. rewrite tfind_tset. destruct (text_eqb q p); reflexivity.
      + do 2 eexists. split; [reflexivity|]. split; [reflexivity|]. split; [reflexivity|]. split.
        * intros q. destruct (tfind p b) eqn:Ef; [rewrite tfind_terase; destruct (text_eqb q p); reflexivity|].
          destruct (text_eqb q p) eqn:Eq; [apply text_eqb_eq in Eq as ->; exact Ef|reflexivity].
        * intros _ Hn. now apply Hn in He.
    - do 2 eexists. split; [reflexivity|]. split; [reflexivity|]. split; [reflexivity|]. split; [|auto].
      intros q. destruct (text_eqb q p); reflexivity.
  Qed.

  Lemma learns_not_in k es p : ~ In p (paths es) -> learns k es p = k p.
  Proof.
    intros H. unfold learns. destruct (find _ es) as [e|] eqn:E; [|reflexivity]. apply find_some in E as [Hi E].
    apply text_eqb_eq in E as ->. exfalso. apply H. now apply in_map.
  Qed.

  Lemma weach_scan es : forall b o, incl es c -> NoDup (paths es) -> rounds o = 0%nat ->
    exists o' b', weach (fun e b => r <- scan_file s e b ;; pret (snd r)) (paths es) b (tr0 ++ o) = (o', Ok b') /\ rounds o' = 0%nat /\
      wshown o' = flat_map (news (fun p => tfind p b)) es /\
      (forall p, tfind p b' = learns (fun p => tfind p b) es p) /\
      (b <> [] -> (forall e, In e c -> en_time e <> None) -> b' <> []).
  Proof.
    induction es as [|e es IH]; intros b o Hin Hnd Ho; cbn [paths map weach].
    { exists [], b. repeat split; auto. }
    assert (He : In e c) by (apply Hin; now left). inversion Hnd as [|? ? Hnin Hnd']; subst.
    destruct (scan_file_entry e b o He Ho) as (o1 & b1 & E1 & R1 & S1 & L1 & N1).
    assert (Ho1 : rounds (o ++ o1) = 0%nat) by (now rewrite rounds_app, Ho).
    destruct (IH b1 (o ++ o1) ltac:(intros x Hx; apply Hin; now right) Hnd' Ho1) as (o2 & b2 & E2 & R2 & S2 & L2 & N2).
    exists (o1 ++ o2), b2. split.
    { eapply pbind_ok; [|rewrite <- app_assoc; exact E2]. rewrite <- (app_nil_r o1). eapply pbind_ok; [exact E1|]. reflexivity. }
    split; [now rewrite rounds_app, R1|]. split; [|split].
    - rewrite wshown_app, S1, S2. cbn [flat_map]. f_equal. clear - Hnin L1.
      assert (H : forall x, In x es -> tfind (en_path x) b1 = tfind (en_path x) b).
      { intros x Hx. rewrite L1. apply learns_not_in. intros [E|[]]. apply Hnin. rewrite E. now apply in_map. }
      clear L1. induction es as [|x es IH]; cbn [flat_map]; [reflexivity|]. rewrite IH.
      + f_equal. unfold news. now rewrite H by now left.
      + intros Hx. apply Hnin. now right.
      + intros y Hy. apply H. now right.
    - intros p. rewrite L2. unfold learns. cbn [find].
      destruct (text_eqb p (en_path e)) eqn:Ep.
      + apply text_eqb_eq in Ep as ->.
        destruct (find (fun e0 => text_eqb (en_path e) (en_path e0)) es) as [x|] eqn:Ef.
        { apply find_some in Ef as [Hx Ef]. apply text_eqb_eq in Ef. exfalso. apply Hnin. rewrite Ef. now apply in_map. }
        rewrite L1. unfold learns. cbn [find]. now rewrite text_eqb_refl.
      + assert (Hp : tfind p b1 = tfind p b) by (rewrite L1; unfold learns; cbn [find]; now rewrite Ep). now rewrite Hp.
    - intros Hb Ht. apply N2; [|exact Ht]. now apply N1.
  Qed.

  Lemma scan_contents b o : NoDup (paths c) -> rounds o = 0%nat ->
    exists o' b', scan s root b (tr0 ++ o) = (o', Ok (true, b')) /\ rounds o' = 0%nat /\
      wshown o' = flat_map (news (fun p => tfind p b)) c /\
      (forall p, tfind p b' = learns (fun p => tfind p b) c p) /\
      (b <> [] -> (forall e, In e c -> en_time e <> None) -> b' <> []).
  Proof.
    intros Hnd Ho. set (x1 := WIsDir root (Some true)). set (x2 := WWalk root (paths c) false).
    assert (H1 : rounds (o ++ [x1; x2]) = 0%nat) by (rewrite rounds_app, Ho; reflexivity).
    destruct (weach_scan c b (o ++ [x1; x2]) (fun x H => H) Hnd H1) as (o1 & b1 & E1 & R1 & S1 & L1 & N1).
    exists (x1 :: x2 :: o1), b1. split; [|auto].
    pose proof (proj2 (ag_root _ _ _ _ (Hag o Ho))) as E0.
    assert (Ho1 : rounds (o ++ [x1]) = 0%nat) by (rewrite rounds_app, Ho; reflexivity).
    pose proof (ag_walk _ _ _ _ (Hag _ Ho1)) as E2.
    unfold scan. change (x1 :: x2 :: o1) with ([x1; x2] ++ o1). rewrite <- (app_nil_r (_ ++ o1)).
    eapply (pbind_ok _ _ _ _ (true, b1)); [|reflexivity].
    unfold scan_directory. change ([x1; x2] ++ o1) with ([x1] ++ (x2 :: o1)). eapply pbind_ok.
    { unfold w_isdir, or_throw, ask, pbind, pret. rewrite E0. reflexivity. }
    cbv iota. rewrite <- (app_nil_r (x2 :: o1)). eapply (pbind_ok _ _ _ _ b1); [|reflexivity].
    rewrite for_walk_eq. change (x2 :: o1) with ([x2] ++ o1). eapply pbind_ok.
    { unfold w_walk, ask. rewrite <- app_assoc, E2. reflexivity. }
    cbv beta iota. rewrite <- (app_nil_r o1). eapply (pbind_ok _ _ _ _ b1); [|reflexivity].
    rewrite <- !app_assoc. cbn [app]. exact E1.
  Qed.

  Lemma weach_populate es : forall b o, incl es c -> rounds o = 0%nat ->
    exists o' b', weach (fun e b => ts <- w_time s e ;; match ts with Some t => pret (tset e t b) | None => t <- w_time_throwing s root ;; pret (tset e t b) end)
        (paths es) b (tr0 ++ o) = (o', Ok b') /\ rounds o' = 0%nat /\ wshown o' = [] /\
      (forall p, ~ In p (paths es) -> tfind p b' = tfind p b) /\
      (forall p, In p (paths es) -> tfind p b' <> None) /\
      (NoDup (paths es) -> forall e t, In e es -> en_time e = Some t -> tfind (en_path e) b' = Some t) /\
      (b <> [] \/ es <> [] -> b' <> []).
  Proof.
    induction es as [|e es IH]; intros b o Hin Ho; cbn [paths map weach].
    { exists [], b. split; [reflexivity|]. split; [reflexivity|]. split; [reflexivity|]. split; [reflexivity|].
      split; [intros ? []|]. split; [intros _ ? ? []|]. intros [H|H]; [exact H|contradiction]. }
    assert (He : In e c) by (apply Hin; now left).
    assert (Hb1 : exists o1 t, (ts <- w_time s (en_path e) ;; match ts with Some t => pret (tset (en_path e) t b) | None => t <- w_time_throwing s root ;; pret (tset (en_path e) t b) end) (tr0 ++ o)
      = (o1, Ok (tset (en_path e) t b)) /\ rounds o1 = 0%nat /\ wshown o1 = [] /\ (forall t', en_time e = Some t' -> t = t')).
    { unfold w_time, ask, pbind, pret, w_time_throwing, w_time, or_throw, ask, pbind. rewrite (ag_time _ _ _ _ (Hag o Ho) _ He).
      destruct (en_time e) as [t|].
      - do 2 eexists. split; [reflexivity|]. repeat split. congruence.
      - rewrite <- app_assoc. set (x := [WTime _ None]).
        assert (Hx : rounds (o ++ x) = 0%nat) by (rewrite rounds_app, Ho; reflexivity).
        pose proof (ag_root_time _ _ _ _ (Hag _ Hx)) as Hrt. destruct (wf_time s (tr0 ++ o ++ x) root) as [t|]; [|contradiction].
        do 2 eexists. split; [reflexivity|]. repeat split. discriminate. }
    destruct Hb1 as (o1 & t & E1 & R1 & S1 & T1).
    assert (Ho1 : rounds (o ++ o1) = 0%nat) by (now rewrite rounds_app, Ho).
    destruct (IH (tset (en_path e) t b) (o ++ o1) ltac:(intros x Hx; apply Hin; now right) Ho1) as (o2 & b2 & E2 & R2 & S2 & L2 & I2 & T2 & N2).
    exists (o1 ++ o2), b2. split; [eapply pbind_ok; [exact E1|rewrite <- app_assoc; exact E2]|].
    split; [now rewrite rounds_app, R1|]. split; [now rewrite wshown_app, S1, S2|]. split; [|split; [|split]].
    - intros p Hp. rewrite L2 by (intros H; apply Hp; now right). rewrite tfind_tset.
      destruct (text_eqb p (en_path e)) eqn:Ep; [|reflexivity]. apply text_eqb_eq in Ep as ->. exfalso. apply Hp. now left.
    - intros p Hp. destruct (in_dec text_eq_dec p (paths es)) as [Hd|Hd]; [now apply I2|].
      rewrite L2 by exact Hd. rewrite tfind_tset. destruct Hp as [-> |Hp]; [|contradiction]. now rewrite text_eqb_refl.
    - intros Hnd e' t' He' Et. inversion Hnd as [|? ? Hnin Hnd']; subst. destruct He' as [<-|He']; [|now apply T2].
      rewrite L2 by exact Hnin. rewrite tfind_tset, text_eqb_refl. f_equal. now apply T1.
    - intros _. apply N2. left. discriminate.
  Qed.

  Lemma populate_contents o : rounds o = 0%nat ->
    exists o' b', populate s root [] (tr0 ++ o) = (o', Ok (true, b')) /\ rounds o' = 0%nat /\ wshown o' = [] /\
      (forall p, ~ In p (paths c) -> tfind p b' = None) /\ (forall p, In p (paths c) -> tfind p b' <> None) /\
      (NoDup (paths c) -> forall e t, In e c -> en_time e = Some t -> tfind (en_path e) b' = Some t) /\
      (c <> [] -> b' <> []) /\ (c = [] -> b' = []).
  Proof.
    intros Ho. set (x0 := WExists root (Some true)). set (x1 := WIsDir root (Some true)). set (x2 := WWalk root (paths c) false).
    assert (H0 : rounds (o ++ [x0]) = 0%nat) by (rewrite rounds_app, Ho; reflexivity).
    assert (H1 : rounds (o ++ [x0; x1]) = 0%nat) by (rewrite rounds_app, Ho; reflexivity).
    assert (H2 : rounds (o ++ [x0; x1; x2]) = 0%nat) by (rewrite rounds_app, Ho; reflexivity).
    destruct (weach_populate c [] (o ++ [x0; x1; x2]) (fun x H => H) H2) as (o1 & b1 & E1 & R1 & S1 & L1 & I1 & T1 & N1).
    exists (x0 :: x1 :: x2 :: o1), b1. split; [|].
    { unfold populate. change (x0 :: x1 :: x2 :: o1) with ([x0] ++ (x1 :: x2 :: o1)). eapply pbind_ok.
      { unfold w_exists, or_throw, ask, pbind, pret. rewrite (proj1 (ag_root _ _ _ _ (Hag o Ho))). reflexivity. }
      cbn [negb]. cbv iota. change (x1 :: x2 :: o1) with ([x1] ++ (x2 :: o1)). eapply pbind_ok.
      { unfold w_isdir, or_throw, ask, pbind, pret. rewrite <- app_assoc. rewrite (proj2 (ag_root _ _ _ _ (Hag _ H0))). reflexivity. }
      cbn [negb]. cbv iota. rewrite <- (app_nil_r (x2 :: o1)). eapply (pbind_ok _ _ _ _ b1); [|reflexivity].
      rewrite for_walk_eq. change (x2 :: o1) with ([x2] ++ o1). eapply pbind_ok.
      { unfold w_walk, ask. rewrite <- !app_assoc. cbn [app]. fold x0 x1. rewrite (ag_walk _ _ _ _ (Hag _ H1)). reflexivity. }
      cbv beta iota. rewrite <- (app_nil_r o1). eapply (pbind_ok _ _ _ _ b1); [|reflexivity].
      rewrite <- !app_assoc. cbn [app]. exact E1. }
    split; [exact R1|]. split; [exact S1|]. split; [exact L1|]. split; [exact I1|]. split; [exact T1|].
    split; [intros H; apply N1; now right|].
    intros ->. cbn in E1. injection E1 as _ <-. reflexivity.
  Qed.
End Scan.

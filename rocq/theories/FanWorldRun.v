(** The fanotify adapter in the environment of [FanWorldSpec]. *)
From Verif Require Import Base PathModel EventModel Sys SysFacts LinuxModel InotifyModel FanotifyModel LinuxWatch LinuxSpec
  LinuxFacts LinuxRun LinuxProps LinuxChoice InotifySpec InotifyFacts InotifyRun FanotifySpec FanotifyFacts FanotifyLoop FanotifyRun Shift FanWorldSpec FanWorldFacts.

Lemma le_bytes_inj k : forall a b, (a < 256 ^ N.of_nat k)%N -> (b < 256 ^ N.of_nat k)%N -> le_bytes k a = le_bytes k b -> a = b.
Proof. intros a b Ha Hb E. rewrite <- (le_word_bytes k a Ha), <- (le_word_bytes k b Hb). now rewrite E. Qed.
Lemma opened_at j : forall dirs i, (i <= j)%N -> (j < i + N.of_nat (length dirs))%N -> (i + N.of_nat (length dirs) <= 2 ^ 63)%N ->
  opened (le_bytes 4 8 ++ le_bytes 4 1 ++ le_bytes 8 j) i dirs = (1000 + Z.of_N j, 0)%Z.
Proof.
  induction dirs as [|d dirs IH]; intros i H1 H2 H3; [cbn [length] in H2; lia|]. cbn [opened]. cbn [length] in H2, H3.
  destruct (text_eqb _ _) eqn:E.
  - apply text_eqb_eq in E. apply app_inv_head, app_inv_head in E. apply le_bytes_inj in E; [now subst j| |]; change (256 ^ N.of_nat 8)%N with (2 ^ 64)%N; lia.
  - assert (i <> j).
    { intros ->. assert (text_eqb (le_bytes 4 8 ++ le_bytes 4 1 ++ le_bytes 8 j) (le_bytes 4 8 ++ le_bytes 4 1 ++ le_bytes 8 j) = true) by (now apply text_eqb_eq). congruence. }
    apply IH; lia.
Qed.
Lemma opened_any h : forall dirs i, (0 < fst (opened h i dirs) \/ fst (opened h i dirs) < 0 /\ snd (opened h i dirs) <> 0)%Z.
Proof. induction dirs as [|d dirs IH]; intros i; cbn [opened]; [right; cbn; lia|]. destruct (text_eqb _ _); [left; cbn [fst]; lia|apply IH]. Qed.

Section Run.
  Variable e : fenv.
  Hypothesis He : fenv_ok e.
  Notation s := (system e).

  Lemma shift_handles tr : handles_ok (shift s tr).
  Proof.
    split; cbn [shift os_open_handle os_readlink system].
    - intros t h. apply opened_any.
    - intros t fd _. eexists. split; [reflexivity|]. unfold path_of. set (w := at_call e (tr ++ t)).
      pose proof (fi_paths w (at_call_fine e He _)) as Hp. rewrite Forall_forall in Hp.
      destruct (Nat.lt_ge_cases (Z.to_nat (fd - 1000)) (length (fw_dirs w))) as [Hl|Hl].
      + apply Hp, nth_In, Hl.
      + rewrite nth_overflow by exact Hl. discriminate.
  Qed.
  Lemma handle_bytes dirs r i : rec_in dirs r i -> handle_of r = le_bytes 4 8 ++ le_bytes 4 1 ++ le_bytes 8 i.
  Proof. intros H. unfold handle_of. rewrite (ri_handle _ _ _ H), (ri_type _ _ _ H), le_bytes_len. reflexivity. Qed.
  Lemma opens_later tr t r i : rec_in (fw_dirs (at_call e tr)) r i -> os_open_handle (shift s tr) t (handle_of r) = (1000 + Z.of_N i, 0)%Z.
  Proof.
    intros Hr. cbn [shift os_open_handle system]. rewrite (handle_bytes _ _ _ Hr). destruct (at_call_later e tr t) as [[more E] _].
    pose proof (ri_lt _ _ _ Hr) as Hl. pose proof (fi_count _ (at_call_fine e He (tr ++ t))) as Hc. rewrite E, app_length in *.
    apply opened_at; rewrite ?app_length; lia.
  Qed.
  Lemma named_path tr r i p : rec_in (fw_dirs (at_call e tr)) r i -> named (shift s tr) r p -> p = rec_path (at_call e tr) r.
  Proof.
    intros Hr (t & fd & err & d & Eo & Hfd & El & ->). rewrite (opens_later tr t r i Hr) in Eo.
    assert (fd = (1000 + Z.of_N i)%Z /\ err = 0%Z) as [-> ->] by (split; congruence). clear Eo.
    cbn [shift os_readlink system] in El.
    assert (Ed : d = path_of (1000 + Z.of_N i) (fw_dirs (at_call e (tr ++ t ++ [OOpenHandle (handle_of r) (1000 + Z.of_N i) 0])))) by congruence.
    clear El. subst d. rewrite (rec_path_i _ _ _ (at_call_fine e He tr) Hr).
    destruct (at_call_later e tr (t ++ [OOpenHandle (handle_of r) (1000 + Z.of_N i) 0])) as [[more E] _].
    unfold path_of. rewrite E. replace (Z.to_nat (1000 + Z.of_N i - 1000)) with (N.to_nat i) by lia. pose proof (ri_lt _ _ _ Hr) as Hl. rewrite app_nth1 by lia.
    rewrite (nth_indep _ (lit "/") []) by lia. set (d := nth (N.to_nat i) (fw_dirs (at_call e tr)) []).
    pose proof (ri_name _ _ _ Hr) as Hn. fold d in Hn. apply sound_name_facts in Hn as (_ & _ & _ & Hdot & Hlen).
    unfold fpath. rewrite Hdot. unfold at_path in *. rewrite !app_length in Hlen.
    rewrite (firstn_all2 d) by lia. apply firstn_all2. rewrite !app_length. lia.
  Qed.
  Lemma never_unnamed tr r i : rec_in (fw_dirs (at_call e tr)) r i -> ~ unnamed (shift s tr) r.
  Proof. intros Hr (t & Ht). rewrite (opens_later tr t r i Hr) in Ht. cbn [fst] in Ht. lia. Qed.

  (** What a batch tells. *)
  Definition good_rec (tr : trace) (r : frec) : Prop := exists i, rec_in (fw_dirs (at_call e tr)) r i.
  Lemma fits_zero x rs : fits 0 (x :: rs).
  Proof. cbn [fits]. rewrite fencode_cons, app_length. lia. Qed.
  Lemma fits_zero_nil rs : ~ fits 0 rs -> rs = [].
  Proof. destruct rs as [|x rs]; [reflexivity|]. intros H. destruct (H (fits_zero x rs)). Qed.
  Lemma mentions_one p f t : mentions p (Sh p f t None).
  Proof. now left. Qed.

  Lemma batch_reaches tr m rs sh en : fbatch (shift s tr) m rs sh en -> forall b x b', rs = map Chg (b ++ x :: b') -> m = 0%nat -> Forall (good_rec tr) (b ++ x :: b') ->
    (exists y, In y sh /\ about_fs y = true /\ mentions (rec_path (at_call e tr) x) y) \/ exists b1 r1 r2 b2, b ++ [x] = b1 ++ r1 :: r2 :: b2 /\ crossed r1 r2.
  Proof.
    assert (Lift : forall z sh0 sh (b : list frec) x p,
      ((exists y, In y sh /\ about_fs y = true /\ mentions p y) \/ exists b1 r1 r2 b2, b ++ [x] = b1 ++ r1 :: r2 :: b2 /\ crossed r1 r2) ->
      ((exists y, In y (sh0 ++ sh) /\ about_fs y = true /\ mentions p y) \/ exists b1 r1 r2 b2, (z :: b) ++ [x] = b1 ++ r1 :: r2 :: b2 /\ crossed r1 r2)).
    { intros z sh0 sh' b x p [(y & Hy & H)|(b1 & r1 & r2 & b2 & E & H)].
      - left. exists y. split; [apply in_or_app; now right|exact H].
      - right. exists (z :: b1), r1, r2, b2. split; [cbn [app]; now rewrite E|exact H]. }
    induction 1 as [m rs Hf|m rs Hf|m r rs Hf Hu|m r n rs Hf Hp Hu|m r rs p w o en Hf Hp Hn Hw Hb IH|m r n rs p q o en Hf1 Hf2 Hm H1 H2 Hn1 Hn2 Hb IH|m r n rs p q o en Hf1 Hf2 Hm H0 H1 H2 Hn1 Hn2 Hb IH];
      intros b x b' Eb Em Hg; subst m.
    - apply fits_zero_nil in Hf. subst rs. destruct b; discriminate.
    - destruct b; discriminate.
    - exfalso. destruct (b ++ x :: b') as [|r' l]; [discriminate|]. injection Eb as -> _. inversion Hg as [|? ? Hr _]; subst. destruct Hr as (i & Hi). destruct (never_unnamed tr r' i Hi Hu).
    - exfalso. destruct (b ++ x :: b') as [|r' [|n' l]]; try discriminate. injection Eb as -> -> _. inversion Hg as [|? ? _ Hg']; subst. inversion Hg' as [|? ? Hn _]; subst.
      destruct Hn as (i & Hi). destruct (never_unnamed tr n' i Hi Hu).
    - destruct b as [|r' b]; cbn [map app] in Eb; injection Eb as -> ->; inversion Hg as [|? ? Hr Hg']; subst.
      + left. destruct Hr as (i & Hi). apply (named_path tr x i p Hi) in Hn. subst p. eexists. split; [apply in_or_app; right; now left|]. split; [unfold f_ptype; destruct (f_dir x); reflexivity|apply mentions_one].
      + change (w ++ ?s :: o) with (w ++ [s] ++ o). rewrite app_assoc. apply Lift. exact (IH b x b' eq_refl eq_refl Hg').
    - destruct b as [|r' b]; cbn [map app] in Eb, Hg.
      + destruct b' as [|n' b']; [discriminate Eb|]. injection Eb as -> -> ->. inversion Hg as [|? ? Hr _]; subst.
        destruct Hr as (i & Hi). apply (named_path tr x i p Hi) in Hn1. subst p. left. eexists. split; [now left|]. split; [unfold f_ptype; destruct (f_dir x); reflexivity|]. now left.
      + injection Eb as -> Eb. inversion Hg as [|? ? _ Hg']; subst. change (?s :: o) with ([] ++ [s] ++ o). apply Lift. destruct b as [|n' b]; cbn [map app] in Eb, Hg'.
        * injection Eb as -> ->. inversion Hg' as [|? ? Hn _]; subst. destruct Hn as (j & Hj). apply (named_path tr x j q Hj) in Hn2. subst q.
          left. eexists. split; [now left|]. split; [unfold f_ptype; destruct (f_dir r'); reflexivity|]. right. eauto 10.
        * injection Eb as -> ->. inversion Hg' as [|? ? _ Hg'']; subst. apply Lift. exact (IH b x b' eq_refl eq_refl Hg'').
    - destruct b as [|r' b]; cbn [map app] in Eb, Hg.
      + destruct b' as [|n' b']; [discriminate Eb|]. injection Eb as -> -> ->. inversion Hg as [|? ? Hr _]; subst.
        destruct Hr as (i & Hi). apply (named_path tr x i q Hi) in Hn2. subst q. left. eexists. split; [now left|]. split; [unfold f_ptype; destruct (f_dir x); reflexivity|]. right. eauto 10.
      + injection Eb as -> Eb. right. destruct b as [|n' b]; cbn [map app] in Eb.
        * injection Eb as -> ->. exists [], r', x, []. split; [reflexivity|]. split; [exact Hm|]. split; [exact H1|]. split; [exact H2|exact H0].
        * injection Eb as -> ->. exists [], r', n', (b ++ [x]). split; [reflexivity|]. split; [exact Hm|]. split; [exact H1|]. split; [exact H2|exact H0].
  Qed.
  Lemma uncrossed_not rs : uncrossed rs -> forall b1 r1 r2 b2, rs = b1 ++ r1 :: r2 :: b2 -> ~ crossed r1 r2.
  Proof.
    induction rs as [|r rs IH]; intros Hu b1 r1 r2 b2 E; [destruct b1; discriminate|]. destruct b1 as [|z b1]; cbn [app] in E.
    - injection E as -> ->. apply Hu.
    - injection E as _ E. apply (IH ltac:(destruct rs; [exact I|apply Hu]) _ _ _ _ E).
  Qed.

  Definition warns (x : shape) : Prop := exists q, x = warning "w/sys/not_watched@" q.
  Lemma one_happened l r p : f_kinds r <> [] -> (forall k, has k r = true -> In (p, k, f_dir r) l) -> happened l (Sh p (f_effect r) (f_ptype r) None).
  Proof.
    intros Hne Hl. unfold f_effect, f_ptype. destruct (has FCreate r) eqn:E1; [cbn; exists (f_dir r); auto|]. destruct (has FDelete r) eqn:E2; [cbn; exists (f_dir r); auto|].
    destruct (has FModify r) eqn:E3; [cbn; exists (f_dir r); auto|]. cbn. exists (f_dir r). split; [|reflexivity].
    destruct (has FFrom r) eqn:E4; [left; auto|]. destruct (has FTo r) eqn:E5; [right; auto|]. exfalso.
    destruct (f_kinds r) as [|k ks] eqn:Ek; [congruence|]. assert (Hk : has k r = true) by (rewrite has_like, Ek; destruct k; reflexivity). destruct k; congruence.
  Qed.
  Lemma batch_happened tr l m rs sh en : fbatch (shift s tr) m rs sh en -> forall b, rs = map Chg b -> Forall (good_rec tr) b ->
    (forall r k, In r b -> has k r = true -> In (rec_path (at_call e tr) r, k, f_dir r) l) ->
    forall x, In x sh -> warns x \/ happened l x.
  Proof.
    induction 1 as [m rs Hf|m rs Hf|m r rs Hf Hu|m r n rs Hf Hp Hu|m r rs p w o en Hf Hp Hn Hw Hb IH|m r n rs p q o en Hf1 Hf2 Hm H1 H2 Hn1 Hn2 Hb IH|m r n rs p q o en Hf1 Hf2 Hm H0 H1 H2 Hn1 Hn2 Hb IH];
      intros b Eb Hg Hl x Hx; try (destruct Hx; fail).
    - destruct b as [|r' b]; [discriminate|]. injection Eb as -> ->. inversion Hg as [|? ? Hr Hg']; subst. destruct Hr as (i & Hi). apply (named_path tr r' i p Hi) in Hn. subst p.
      apply in_app_or in Hx as [Hx|[<-|Hx]].
      + left. destruct (match f_effect r', f_ptype r' with EtCreate, PtDir => true | _, _ => false end); [|subst w; destruct Hx].
        destruct Hw as [->| ->]; [destruct Hx|]. destruct Hx as [<-|[]]. eexists. reflexivity.
      + right. apply one_happened; [apply (ri_kinds _ _ _ Hi)|]. intros k Hk. apply Hl; [now left|exact Hk].
      + apply (IH b eq_refl Hg'); [|exact Hx]. intros y k Hy Hk. apply Hl; [now right|exact Hk].
    - destruct b as [|r' [|n' b]]; try discriminate. injection Eb as -> -> ->. inversion Hg as [|? ? Hr Hg']; subst. inversion Hg' as [|? ? Hn Hg'']; subst.
      destruct Hr as (i & Hi). destruct Hn as (j & Hj). apply (named_path tr r' i p Hi) in Hn1. apply (named_path tr n' j q Hj) in Hn2. subst p q.
      destruct Hx as [<-|Hx].
      + right. cbn. unfold f_ptype. pose proof (ri_files _ _ _ Hi (or_introl H1)) as Ed. pose proof (ri_files _ _ _ Hj (or_intror H2)) as Ed'. rewrite Ed.
        split; [rewrite <- Ed; apply Hl; cbn; auto|]. split; [rewrite <- Ed'; apply Hl; cbn; auto|]. auto.
      + apply (IH b eq_refl Hg''); [|exact Hx]. intros y k Hy Hk. apply Hl; [right; now right|exact Hk].
    - destruct b as [|r' [|n' b]]; try discriminate. injection Eb as -> -> ->. inversion Hg as [|? ? Hr Hg']; subst. inversion Hg' as [|? ? Hn Hg'']; subst.
      destruct Hr as (i & Hi). destruct Hn as (j & Hj). apply (named_path tr n' j p Hj) in Hn1. apply (named_path tr r' i q Hi) in Hn2. subst p q.
      destruct Hx as [<-|Hx].
      + right. cbn. unfold f_ptype. pose proof (ri_files _ _ _ Hi (or_intror H1)) as Ed. pose proof (ri_files _ _ _ Hj (or_introl H2)) as Ed'. rewrite Ed.
        split; [rewrite <- Ed'; apply Hl; cbn; auto|]. split; [rewrite <- Ed; apply Hl; cbn; auto|]. auto.
      + apply (IH (n' :: b) eq_refl Hg'); [|exact Hx]. intros y k Hy Hk. apply Hl; [now right|exact Hk].
  Qed.

  (** Without renames. *)
  Lemma batch_exact tr m rs sh en : fbatch (shift s tr) m rs sh en -> forall b, rs = map Chg b -> m = 0%nat -> Forall (good_rec tr) b ->
    (forall r, In r b -> has FFrom r = false /\ has FTo r = false) -> filter about_fs sh = map (rec_event (at_call e tr)) b.
  Proof.
    induction 1 as [m rs Hf|m rs Hf|m r rs Hf Hu|m r n rs Hf Hp Hu|m r rs p w o en Hf Hp Hn Hw Hb IH|m r n rs p q o en Hf1 Hf2 Hm H1 H2 Hn1 Hn2 Hb IH|m r n rs p q o en Hf1 Hf2 Hm H0 H1 H2 Hn1 Hn2 Hb IH];
      intros b Eb Em Hg Hno; subst m.
    - apply fits_zero_nil in Hf. subst rs. destruct b; [reflexivity|discriminate].
    - destruct b; discriminate.
    - destruct b as [|r' b]; [discriminate|]. injection Eb as -> _. inversion Hg as [|? ? Hr _]; subst. destruct Hr as (i & Hi). destruct (never_unnamed tr r' i Hi Hu).
    - destruct b as [|r' [|n' b]]; try discriminate. injection Eb as -> -> _. inversion Hg as [|? ? _ Hg']; subst. inversion Hg' as [|? ? Hn _]; subst.
      destruct Hn as (i & Hi). destruct (never_unnamed tr n' i Hi Hu).
    - destruct b as [|r' b]; [discriminate|]. injection Eb as -> ->. inversion Hg as [|? ? Hr Hg']; subst. destruct Hr as (i & Hi).
      apply (named_path tr r' i p Hi) in Hn. rewrite filter_app.
      assert (Ew : filter about_fs w = []).
      { destruct (match f_effect r', f_ptype r' with EtCreate, PtDir => true | _, _ => false end); [|subst w; reflexivity]. destruct Hw as [->| ->]; reflexivity. }
      rewrite Ew. cbn [app filter map]. replace (about_fs (Sh p (f_effect r') (f_ptype r') None)) with true by (unfold f_ptype; destruct (f_dir r'); reflexivity).
      rewrite (IH b eq_refl eq_refl Hg') by (intros y Hy; apply Hno; now right). unfold rec_event at 2. now rewrite <- Hn.
    - destruct b as [|r' [|n' b]]; try discriminate. injection Eb as -> -> ->. destruct (Hno r' (or_introl eq_refl)). congruence.
    - destruct b as [|r' [|n' b]]; try discriminate. injection Eb as -> -> ->. destruct (Hno r' (or_introl eq_refl)). congruence.
  Qed.

  (** ** Runs *)
  Definition took (w : fworld) (b : list frec) (sh : list shape) : Prop :=
    exists t en, fbatch (shift s t) 0 (map Chg b) sh en /\ Forall (good_rec t) b /\ later (at_call e t) w.
  Lemma took_later w w' b sh : later w w' -> took w b sh -> took w' b sh.
  Proof. intros H (t & en & H1 & H2 & H3). exists t, en. split; [exact H1|]. split; [exact H2|]. now apply (later_trans _ _ _ H3). Qed.
  (** What an event tells of had happened when it was sent. *)
  Definition sound (tr o : trace) : Prop :=
    forall x ev y, o = x ++ OCallback ev :: y -> warns (shape_of ev) \/ happened (fw_log (state e (tr ++ x))) (shape_of ev).
  Lemma sound_app tr a b : sound tr a -> sound (tr ++ a) b -> sound tr (a ++ b).
  Proof.
    intros Ha Hb x ev y E. revert x E Ha Hb. revert tr. induction a as [|z a IH]; intros tr x E Ha Hb; [rewrite app_nil_r in Hb; exact (Hb x ev y E)|].
    destruct x as [|z' x]; cbn [app] in E; injection E as -> E; [exact (Ha [] ev a eq_refl)|].
    specialize (IH (tr ++ [z']) x E). rewrite <- !app_assoc in IH. cbn [app] in IH. apply IH; [|exact Hb].
    intros x' ev' y' E'. specialize (Ha (z' :: x') ev' y'). rewrite <- app_assoc. apply Ha. cbn. now rewrite E'.
  Qed.
  Lemma sound_silent tr o : shown o = [] -> sound tr o.
  Proof. intros H x ev y ->. rewrite shown_app in H. destruct (shown x); discriminate H. Qed.
  Definition went (tr o : trace) : Prop :=
    (exists bs shs, fw_batches (state e (tr ++ o)) = fw_batches (state e tr) ++ bs /\ shown o = concat shs /\ Forall2 (took (state e (tr ++ o))) bs shs) /\ sound tr o.
  Lemma went_app tr a b : went tr a -> went (tr ++ a) b -> went tr (a ++ b).
  Proof.
    intros [(bs1 & sh1 & E1 & S1 & T1) N1] [(bs2 & sh2 & E2 & S2 & T2) N2]. split; [|now apply sound_app]. exists (bs1 ++ bs2), (sh1 ++ sh2). rewrite (app_assoc tr a b).
    split; [rewrite E2, E1, <- app_assoc; reflexivity|]. split; [rewrite shown_app, concat_app; congruence|]. apply Forall2_app; [|exact T2].
    clear -T1. induction T1; constructor; auto. eapply took_later; [apply state_later|eassumption].
  Qed.
  Lemma went_quiet tr o : Forall no_read o -> shown o = [] -> went tr o.
  Proof. intros Hn Hs. split; [|now apply sound_silent]. exists [], []. rewrite app_nil_r. split; [now apply state_batches|]. split; [exact Hs|constructor]. Qed.

  Lemma recv_went ke tr : kfa_ok ke ->
    exists o r ke', fa_recv s ke tr = (o, Ok (r, ke')) /\ kfa_fd ke' = kfa_fd ke /\ kfa_ok ke' /\ went tr o.
  Proof.
    intros Hk. rewrite fa_recv_shift. set (w := at_call e tr).
    assert (Erd : forall n, os_read (shift s tr) [] (kfa_fd ke) n = fst (reading (kfa_fd ke =? fe_fd e)%Z (fe_want e tr) w)).
    { intros n. cbn [shift os_read system]. now rewrite !app_nil_r. }
    assert (Hst : forall x, state e (tr ++ [ORead (kfa_fd ke) x]) = snd (reading (kfa_fd ke =? fe_fd e)%Z (fe_want e tr) w)).
    { intros x. apply (state_snoc e tr (ORead (kfa_fd ke) x)). }
    assert (Hw : fine w) by (apply at_call_fine, He).
    destruct (call_later e tr) as [_ Hbw]. fold w in Hbw.
    unfold reading in Erd, Hst. set (mine := (kfa_fd ke =? fe_fd e)%Z) in *.
    assert (Hno : (forall n, os_read (shift s tr) [] (kfa_fd ke) n = {| rd_len := -1; rd_bytes := []; rd_errno := 11 |}) -> (forall x, state e (tr ++ [ORead (kfa_fd ke) x]) = w) ->
      exists o r ke', fa_recv (shift s tr) ke [] = (o, Ok (r, ke')) /\ kfa_fd ke' = kfa_fd ke /\ kfa_ok ke' /\ went tr o).
    { intros E1 E2. exists [ORead (kfa_fd ke) {| rd_len := -1; rd_bytes := []; rd_errno := 11 |}], r_e_sys_api_read, ke. split; [|split; [reflexivity|split; [exact Hk|]]].
      - unfold fa_recv, bind, sys_read. rewrite E1. destruct ke. reflexivity.
      - split; [|now apply sound_silent]. exists [], []. rewrite app_nil_r, E2. split; [exact Hbw|]. split; [reflexivity|constructor]. }
    destruct mine; [|apply Hno; [exact Erd|exact Hst]].
    destruct (fw_queue w) as [|r0 q0] eqn:Eq; [apply Hno; [exact Erd|exact Hst]|]. clear Hno.
    set (k := fitting 4095 (S (fe_want e tr)) (r0 :: q0)) in *. set (b := firstn k (r0 :: q0)) in *. cbn [fst snd] in Erd, Hst.
    assert (Hfine : fine (state e (tr ++ [ORead (kfa_fd ke) (os_read s tr (kfa_fd ke) 4096)]))) by (apply state_fine, He).
    rewrite Hst in Hfine. destruct (fi_batches _ Hfine b) as [Hne Hsz]; [cbn [fw_batches]; apply in_or_app; right; now left|].
    assert (Hgood : Forall (good_rec tr) b).
    { apply Forall_forall. intros r Hr. apply (fi_recs w Hw). apply in_or_app. right. rewrite Eq. rewrite <- (firstn_skipn k (r0 :: q0)). apply in_or_app. left. exact Hr. }
    assert (Hok : fbatch_ok (map Chg b)).
    { split; [|exact Hsz]. apply Forall_forall. intros x Hx. apply in_map_iff in Hx as (r & <- & Hr). rewrite Forall_forall in Hgood. destruct (Hgood r Hr) as (i & Hi).
      exact (proj1 (rec_in_ok _ _ _ Hi)). }
    assert (Hne' : map Chg b <> []) by (destruct b; [congruence|discriminate]).
    destruct (fa_recv_batch (shift s tr) ke [] (map Chg b) (shift_handles tr) Hok Hne' ltac:(rewrite Erd; reflexivity) ltac:(rewrite Erd; reflexivity) Hk) as (o & en & Hfb & Hnr & Hrun).
    destruct ke as [fd buf]. cbn [kfa_fd kfa_buf] in *. destruct (Hrun buf Hk) as (buf' & E & Hk').
    eexists _, (result_of en), _. split; [exact E|]. split; [reflexivity|]. split; [exact Hk'|].
    set (rd := os_read (shift s tr) [] fd 4096).
    assert (Hsound : sound tr (ORead fd rd :: o)).
    { intros x ev y Ex. destruct x as [|z x]; cbn [app] in Ex; [discriminate Ex|]. injection Ex as <- Ex.
      assert (Hin : In (shape_of ev) (shown o)) by (rewrite Ex, shown_app; apply in_or_app; right; now left).
      apply (batch_happened tr (fw_log (state e (tr ++ ORead fd rd :: x))) _ _ _ _ Hfb b eq_refl Hgood); [|exact Hin].
      intros r k0 Hr Hk0. destruct (state_later e (tr ++ [ORead fd rd]) x) as [_ [l El]]. rewrite <- app_assoc in El. cbn [app] in El. rewrite El. apply in_or_app. left.
      rewrite Hst. cbn [fw_log]. apply (fi_log w Hw); [|exact Hk0]. apply in_or_app. right. rewrite Eq. rewrite <- (firstn_skipn k (r0 :: q0)). apply in_or_app. left. exact Hr. }
    split; [|exact Hsound]. clear Hsound. exists [b], [shown o]. change (ORead fd rd :: o) with ([ORead fd rd] ++ o). rewrite app_assoc.
    assert (Hb1 : fw_batches (state e ((tr ++ [ORead fd rd]) ++ o)) = fw_batches (state e tr) ++ [b]).
    { rewrite state_batches by exact Hnr. rewrite Hst. cbn [fw_batches]. now rewrite Hbw. }
    split; [exact Hb1|]. split; [cbn [concat]; now rewrite app_nil_r|]. constructor; [|constructor].
    exists tr, en. split; [exact Hfb|]. split; [exact Hgood|]. fold w.
    refine (later_trans _ _ _ _ (state_later e (tr ++ [ORead fd rd]) o)). rewrite Hst. split; exists []; now rewrite app_nil_r.
  Qed.

  Lemma each_ready_went il : forall fds ok ke tr, kfa_ok ke ->
    exists o ok' ke', each_ready kfa kfa_fd (fa_recv s) il fds ok ke tr = (o, Ok (ok', ke')) /\ kfa_ok ke' /\ went tr o /\ kfa_fd ke' = kfa_fd ke.
  Proof.
    induction fds as [|fd fds IH]; intros ok ke tr Hk; cbn [each_ready].
    - exists [], ok, ke. split; [reflexivity|]. split; [exact Hk|]. split; [|reflexivity]. apply went_quiet; [constructor|reflexivity].
    - destruct (fd =? il)%Z; [now apply IH|]. destruct (fd =? kfa_fd ke)%Z; [|now apply IH].
      destruct (recv_went ke tr Hk) as (o1 & r1 & ke1 & E1 & F1 & Hk1 & Hw1).
      destruct (IH r1 ke1 (tr ++ o1) Hk1) as (o2 & ok2 & ke2 & E2 & Hk2 & Hw2 & F2).
      exists (o1 ++ o2), ok2, ke2. split; [eapply bind_ok_eq; [exact E1|exact E2]|]. split; [exact Hk2|]. split; [now apply went_app|congruence].
  Qed.
  Lemma ep_loop_went il : forall fuel ep ok ke tr, kfa_ok ke ->
    exists o r, ep_loop s kfa kfa_fd (fa_recv s) il fuel ep ok ke tr = (o, r) /\ not_ub r /\ went tr o.
  Proof.
    induction fuel as [|n IH]; intros ep ok ke tr Hk; cbn [ep_loop].
    { exists [], Fuel. split; [reflexivity|]. split; [exact I|]. apply went_quiet; [constructor|reflexivity]. }
    destruct (negb (r_lt ok r_complete)).
    { exists [], (Ok (ok, ke)). split; [reflexivity|]. split; [exact I|]. apply went_quiet; [constructor|reflexivity]. }
    unfold bind at 1, epoll_wait. set (w := os_epoll_wait s tr ep).
    assert (Hq : forall x, went tr [OEpollWait ep x]) by (intros x; apply went_quiet; [repeat constructor|reflexivity]).
    destruct w as [fds|].
    - destruct (each_ready_went il (firstn 64 fds) ok ke (tr ++ [OEpollWait ep (Some fds)]) Hk) as (o1 & ok1 & ke1 & E1 & Hk1 & Hw1 & _).
      destruct (IH ep ok1 ke1 ((tr ++ [OEpollWait ep (Some fds)]) ++ o1) Hk1) as (o2 & r2 & E2 & Hu2 & Hw2).
      rewrite (bind_ok_eq _ _ _ _ _ _ _ E1 E2).
      exists (OEpollWait ep (Some fds) :: o1 ++ o2), r2. split; [reflexivity|]. split; [exact Hu2|].
      change (OEpollWait ep (Some fds) :: o1 ++ o2) with ([OEpollWait ep (Some fds)] ++ (o1 ++ o2)). apply went_app; [apply Hq|]. now apply went_app.
    - destruct (IH ep r_e_sys_api_epoll ke (tr ++ [OEpollWait ep None]) Hk) as (o2 & r2 & E2 & Hu2 & Hw2). rewrite E2.
      exists (OEpollWait ep None :: o2), r2. split; [reflexivity|]. split; [exact Hu2|].
      change (OEpollWait ep None :: o2) with ([OEpollWait ep None] ++ o2). now apply went_app.
  Qed.

  Lemma start_no_read' o : Forall start_obs o -> Forall no_read o.
  Proof. apply start_no_read. Qed.
  (** A run: first warnings, then batches, then perhaps the last event. *)
  Lemma watch_went fuel path il :
    exists a b c r, linux_watch s fuel path il [] = (a ++ b ++ c, r) /\ not_ub r /\
      Forall no_read a /\ (forall x, In x (shown a) -> warns x) /\ went a b /\ Forall no_read c /\
      (shown c = [] \/ exists ev, callbacks c = [ev] /\ fatal_message path ev /\ r = Ok false).
  Proof.
    rewrite linux_watch_split. unfold adapters, try_fanotify. rewrite !bind_assoc. unfold bind at 1, geteuid.
    change (os_geteuid s []) with 0%Z. change (0 =? 0)%Z with true. cbv iota. set (g := OGeteuid 0). set (tr1 := [] ++ [g]).
    destruct (fa_make_start s fuel path il tr1) as (Hst & Hub & Hko).
    destruct (run_fanotify_init s fuel path il tr1) as (fd0 & rest0 & Hini & _ & _ & Hnf).
    assert (Hfd0 : (1 <= fd0)%Z).
    { unfold run_fanotify, platform_watch, fa_make_sysres in Hini. rewrite bind_assoc in Hini. unfold bind at 1, fanotify_init in Hini.
      match type of Hini with context [let (_, _) := ?m ?t in _] => destruct (m t) end. injection Hini as <- _. apply (fv_fd e He). }
    specialize (Hnf Hfd0).
    assert (Hrun : exists a b c r, run_fanotify s fuel path il tr1 = (a ++ b ++ c, r) /\ not_ub r /\ Forall start_obs a /\
      went (g :: a) b /\ Forall no_read c /\ callbacks c = []).
    { unfold run_fanotify, platform_watch. unfold bind at 1. destruct (fa_make_sysres s fuel path il tr1) as [a ra]. cbn [fst snd] in *.
      destruct ra as [[[ok ke] ep]|u| |]; try contradiction.
      - destruct (ep_loop_went il fuel ep ok ke (tr1 ++ a) (Hko _ _ _ eq_refl)) as (b & rb & Eb & Hub' & Hwb).
        unfold bind at 1. rewrite Eb. destruct rb as [[ok' ke']|u| |]; try contradiction.
        + exists a, b, [OClose (kfa_fd ke'); OClose ep], (Ok ok'). cbn. split; [reflexivity|]. split; [exact I|]. split; [exact Hst|]. split; [exact Hwb|]. split; [repeat constructor|reflexivity].
        + exists a, b, [], Fuel. rewrite app_nil_r. split; [reflexivity|]. split; [exact I|]. split; [exact Hst|]. split; [exact Hwb|]. split; [constructor|reflexivity].
      - exists a, [], [], Fuel. rewrite app_nil_r. split; [reflexivity|]. split; [exact I|]. split; [exact Hst|].
        split; [apply went_quiet; [constructor|reflexivity]|]. split; [constructor|reflexivity]. }
    destruct Hrun as (a & b & c & r & E & Hubr & Hsta & Hw & Hrc & Hcc).
    assert (Hma : forall x, In x (shown (g :: a)) -> warns x).
    { change (shown (g :: a)) with (shown a). intros x Hx. unfold shown in Hx. apply in_map_iff in Hx as (ev & <- & Hev).
      assert (Hin : In (OCallback ev) a).
      { clear -Hev. induction a as [|y a IH]; [destruct Hev|]. destruct y; try (right; now apply IH). cbn [callbacks] in Hev. destruct Hev as [->|Hev]; [now left|right; now apply IH]. }
      rewrite Forall_forall in Hsta. apply (Hsta _ Hin). }
    assert (Hra : Forall no_read (g :: a)) by (constructor; [exact I|apply start_no_read', Hsta]).
    rewrite E in Hnf. cbn [snd] in Hnf. unfold bind at 1. rewrite E.
    destruct r as [r|u| |]; try contradiction.
    - assert (Hneq : r_eqb r r_e_sys_api_fanotify = false) by (destruct r; try reflexivity; exfalso; now apply Hnf).
      rewrite Hneq. rewrite bind_ret.
      pose proof (linux_watch_inv s fuel path il []) as Hinv. rewrite linux_watch_split in Hinv.
      unfold adapters, try_fanotify in Hinv. rewrite !bind_assoc in Hinv. unfold bind at 1, geteuid in Hinv. change (os_geteuid s []) with 0%Z in Hinv.
      change (0 =? 0)%Z with true in Hinv. cbv iota in Hinv. fold g in Hinv. fold tr1 in Hinv.
      unfold bind at 1 in Hinv. rewrite E in Hinv. rewrite Hneq in Hinv. rewrite bind_ret in Hinv.
      destruct (r_ge r r_e) eqn:Er.
      + cbn in Hinv |- *. match goal with |- context [OCallback ?x] => set (e0 := x) in * end.
        pose proof (Hinv _ _ eq_refl) as [(Hf & _)|(_ & o1 & ev & Ho & _ & Hfat)]; [discriminate|].
        exists (g :: a), b, (c ++ [ONow (ev_time e0); OCallback e0]), (Ok false).
        split; [cbn; now rewrite <- !app_assoc|]. split; [exact I|]. split; [exact Hra|]. split; [exact Hma|]. split; [exact Hw|].
        split; [apply Forall_app; split; [exact Hrc|repeat constructor]|]. right. exists e0. split; [|split; [|reflexivity]].
        * rewrite callbacks_app, Hcc. reflexivity.
        * assert (Hee : e0 = ev); [|now rewrite Hee].
          assert (Hl : last (g :: (a ++ b ++ c) ++ [ONow (ev_time e0); OCallback e0]) g = OCallback e0).
          { rewrite app_comm_cons. change [ONow (ev_time e0); OCallback e0] with ([ONow (ev_time e0)] ++ [OCallback e0]).
            rewrite app_assoc. apply last_last. }
          unfold e0 in Hl at 1. cbn [ev_time ev_make] in Hl. rewrite Ho in Hl.
          change [ONow (ev_time ev); OCallback ev] with ([ONow (ev_time ev)] ++ [OCallback ev]) in Hl.
          rewrite app_assoc, last_last in Hl. injection Hl as Hl. symmetry. exact Hl.
      + cbn. exists (g :: a), b, c, (Ok true). rewrite app_nil_r. split; [reflexivity|]. split; [exact I|]. split; [exact Hra|]. split; [exact Hma|].
        split; [exact Hw|]. split; [exact Hrc|]. left. unfold shown. now rewrite Hcc.
    - exists (g :: a), b, c, Fuel. split; [reflexivity|]. split; [exact I|]. split; [exact Hra|]. split; [exact Hma|].
      split; [exact Hw|]. split; [exact Hrc|]. left. unfold shown. now rewrite Hcc.
  Qed.

  (** ** What the theorems use *)
  Lemma rec_path_later t w r : good_rec t r -> later (at_call e t) w -> rec_path w r = rec_path (at_call e t) r.
  Proof.
    intros (i & Hi) [[more E] _]. unfold rec_path. rewrite (handle_of_i _ _ _ Hi (fi_count _ (at_call_fine e He t))), E.
    rewrite app_nth1 by (pose proof (ri_lt _ _ _ Hi); lia). reflexivity.
  Qed.
  Lemma took_reaches w b sh : took w b sh -> forall b1 r b2, b = b1 ++ r :: b2 ->
    (exists x, In x (filter about_fs sh) /\ mentions (rec_path w r) x) \/ exists c1 r1 r2 c2, b1 ++ [r] = c1 ++ r1 :: r2 :: c2 /\ crossed r1 r2.
  Proof.
    intros (t & en & Hb & Hg & Hl) b1 r b2 Eb. subst b. destruct (batch_reaches t _ _ _ _ Hb b1 r b2 eq_refl eq_refl Hg) as [(x & Hx & Hfs & Hm)|H]; [left|right; exact H].
    exists x. split; [apply filter_In; auto|]. rewrite Forall_forall in Hg. now rewrite (rec_path_later t w r (Hg r (in_elt r b1 b2)) Hl).
  Qed.
  Lemma took_mentions w b sh : took w b sh -> uncrossed b -> forall r, In r b -> exists x, In x (filter about_fs sh) /\ mentions (rec_path w r) x.
  Proof.
    intros T Hu r Hr. apply in_split in Hr as (b1 & b2 & ->). destruct (took_reaches w _ sh T b1 r b2 eq_refl) as [H|(c1 & r1 & r2 & c2 & E & H)]; [exact H|].
    exfalso. apply (uncrossed_not _ Hu c1 r1 r2 (c2 ++ b2)); [|exact H]. change (c1 ++ r1 :: r2 :: c2 ++ b2) with (c1 ++ (r1 :: r2 :: c2) ++ b2). rewrite app_assoc, <- E, <- app_assoc. reflexivity.
  Qed.
  Lemma took_happened w b sh l : took w b sh -> (forall r k, In r b -> has k r = true -> In (rec_path w r, k, f_dir r) l) ->
    forall x, In x (filter about_fs sh) -> happened l x.
  Proof.
    intros (t & en & Hb & Hg & Hl) Hh x Hx. apply filter_In in Hx as [Hx Hfs].
    destruct (batch_happened t l _ _ _ _ Hb b eq_refl Hg) with (x := x) as [(q & ->)|H]; [|exact Hx|discriminate Hfs|exact H].
    intros r k Hr Hk. rewrite Forall_forall in Hg. rewrite <- (rec_path_later t w r (Hg r Hr) Hl). now apply Hh.
  Qed.
  Lemma took_exact w b sh : took w b sh -> (forall r, In r b -> has FFrom r = false /\ has FTo r = false) -> filter about_fs sh = map (rec_event w) b.
  Proof.
    intros (t & en & Hb & Hg & Hl) Hno. rewrite (batch_exact t _ _ _ _ Hb b eq_refl eq_refl Hg Hno). apply map_ext_in. intros r Hr. unfold rec_event.
    rewrite Forall_forall in Hg. now rewrite (rec_path_later t w r (Hg r Hr) Hl).
  Qed.

  Lemma run_facts fuel path il o r : linux_watch s fuel path il [] = (o, r) -> not_ub r /\
    exists shs, fs_events o = filter about_fs (concat shs) /\ Forall2 (took (state e o)) (fw_batches (state e o)) shs.
  Proof.
    intros E. destruct (watch_went fuel path il) as (a & b & c & r' & E' & Hub & Ha & Hwa & [(bs & shs & Eb & Es & Ht) _] & Hc & Hcs).
    rewrite E in E'. injection E' as -> ->. split; [exact Hub|]. exists shs. split.
    - unfold fs_events. rewrite !shown_app, !filter_app, Es.
      assert (Fa : filter about_fs (shown a) = []).
      { clear -Hwa. induction (shown a) as [|x l IH]; [reflexivity|]. cbn [filter]. destruct (Hwa x (or_introl eq_refl)) as (q & ->). cbn. apply IH. intros y Hy. apply Hwa. now right. }
      assert (Fc : filter about_fs (shown c) = []).
      { destruct Hcs as [->|(ev & Ec & (Herr & _) & _)]; [reflexivity|]. unfold shown. rewrite Ec. cbn. destruct ev as [p f t n a0]. destruct Herr as (Hm & _). unfold is_message in *. cbn in *.
        destruct t; try reflexivity; discriminate Hm. }
      rewrite Fa, Fc, app_nil_r. reflexivity.
    - assert (E0 : fw_batches (state e a) = []).
      { rewrite <- (app_nil_l a), state_batches by exact Ha. unfold state. cbn [rev state_rev]. destruct (fv_start e He) as (d & f & -> & _). reflexivity. }
      rewrite E0 in Eb. cbn [app] in Eb. rewrite (app_assoc a b c). rewrite (state_batches e (a ++ b) c Hc), Eb.
      clear -Ht He. induction Ht; constructor; auto. eapply took_later; [apply state_later|eassumption].
  Qed.
  Lemma in_concat_took w : forall bs shs b, Forall2 (took w) bs shs -> In b bs -> exists sh, took w b sh /\ forall x, In x sh -> In x (concat shs).
  Proof.
    intros bs shs b H. induction H as [|b0 sh0 bs shs H0 H IH]; [intros []|]. intros [<-|Hb].
    - exists sh0. split; [exact H0|]. intros x Hx. cbn [concat]. apply in_or_app. now left.
    - destruct (IH Hb) as (sh & Hs & Hx). exists sh. split; [exact Hs|]. intros x Hxs. cbn [concat]. apply in_or_app. right. now apply Hx.
  Qed.
  Lemma concat_took_in w : forall bs shs x, Forall2 (took w) bs shs -> In x (concat shs) -> exists b sh, In b bs /\ took w b sh /\ In x sh.
  Proof.
    intros bs shs x H. induction H as [|b0 sh0 bs shs H0 H IH]; [intros []|]. cbn [concat]. intros Hx. apply in_app_or in Hx as [Hx|Hx].
    - exists b0, sh0. cbn. auto.
    - destruct (IH Hx) as (b & sh & Hb & Ht). exists b, sh. split; [now right|exact Ht].
  Qed.
  Lemma read_logged o b r k : In b (fw_batches (state e o)) -> In r b -> has k r = true -> In (rec_path (state e o) r, k, f_dir r) (fw_log (state e o)).
  Proof. intros Hb Hr Hk. apply (fi_log _ (state_fine e He o)); [|exact Hk]. apply in_or_app. left. apply in_concat. eauto. Qed.

  Lemma all_accounted fuel path il o r : linux_watch s fuel path il [] = (o, r) ->
    forall p k d, In (p, k, d) (fw_log (state e o)) -> (exists x, In x (fs_events o) /\ mentions p x) \/ pending_for (state e o) p k d \/ behind_crossing (state e o) p k d.
  Proof.
    intros E p k d Hin. destruct (run_facts fuel path il o r E) as (_ & shs & Ef & Ht).
    destruct (fi_told _ (state_fine e He o) p k d Hin) as (x & Hx & Hp & Hk & Hd). apply in_app_or in Hx as [Hx|Hx]; [|right; left; exists x; auto].
    apply in_concat in Hx as (b & Hb & Hxb). destruct (in_concat_took _ _ _ b Ht Hb) as (sh & Hs & Hin'). apply in_split in Hxb as (b1 & b2 & ->).
    destruct (took_reaches _ _ _ Hs b1 x b2 eq_refl) as [(y & Hy & Hm)|H].
    - left. rewrite Hp in Hm. exists y. split; [|exact Hm]. rewrite Ef. apply filter_In in Hy as [Hy Hfs]. apply filter_In. auto.
    - right. right. exists b1, x, b2. auto.
  Qed.
  Lemma uncrossed_not_behind w p k d : Forall uncrossed (fw_batches w) -> ~ behind_crossing w p k d.
  Proof.
    intros Hu (b & r & b' & Hb & _ & _ & _ & c1 & r1 & r2 & c2 & E & H). rewrite Forall_forall in Hu. apply (uncrossed_not _ (Hu _ Hb) c1 r1 r2 (c2 ++ b')); [|exact H].
    change (c1 ++ r1 :: r2 :: c2 ++ b') with (c1 ++ (r1 :: r2 :: c2) ++ b'). rewrite app_assoc, <- E, <- app_assoc. reflexivity.
  Qed.
  Lemma all_mentioned fuel path il o r : linux_watch s fuel path il [] = (o, r) -> Forall uncrossed (fw_batches (state e o)) ->
    forall p k d, In (p, k, d) (fw_log (state e o)) -> (exists x, In x (fs_events o) /\ mentions p x) \/ pending_for (state e o) p k d.
  Proof.
    intros E Hu p k d Hin. destruct (all_accounted fuel path il o r E p k d Hin) as [H|[H|H]]; [now left|now right|]. destruct (uncrossed_not_behind _ p k d Hu H).
  Qed.
  Lemma all_happened fuel path il o r : linux_watch s fuel path il [] = (o, r) -> forall x, In x (fs_events o) -> happened (fw_log (state e o)) x.
  Proof.
    intros E x Hx. destruct (run_facts fuel path il o r E) as (_ & shs & Ef & Ht). rewrite Ef in Hx. apply filter_In in Hx as [Hx Hfs].
    destruct (concat_took_in _ _ _ x Ht Hx) as (b & sh & Hb & Hs & Hin). apply (took_happened _ _ _ _ Hs); [|apply filter_In; auto].
    intros y k Hy Hk. now apply (read_logged o b).
  Qed.
  Lemma no_moves_logged (Hno : no_renames e) tr : forall p k d, In (p, k, d) (fw_log (state e tr)) -> k <> FFrom /\ k <> FTo.
  Proof.
    assert (Hh : forall w o, match o with FRename _ _ _ _ _ => False | _ => True end ->
      (forall p k d, In (p, k, d) (fw_log w) -> k <> FFrom /\ k <> FTo) -> forall p k d, In (p, k, d) (fw_log (happen w o)) -> k <> FFrom /\ k <> FTo).
    { intros w o Ho H p k d. unfold happen. destruct (may w o); [|apply H]. cbn [fw_log]. intros Hin. apply in_app_or in Hin as [Hin|Hin]; [now apply (H p k d)|].
      unfold noted in Hin. apply in_map_iff in Hin as ([[[p' n'] k'] d'] & E & Hin). apply filter_In in Hin as [Hin _]. injection E as _ <- _.
      destruct o; try contradiction; cbn in Hin; destruct Hin as [[= _ _ <- _]|[]]; split; discriminate. }
    assert (Hhs : forall os w, Forall (fun o => match o with FRename _ _ _ _ _ => False | _ => True end) os ->
      (forall p k d, In (p, k, d) (fw_log w) -> k <> FFrom /\ k <> FTo) -> forall p k d, In (p, k, d) (fw_log (happens w os)) -> k <> FFrom /\ k <> FTo).
    { induction os as [|o os IH]; intros w Hos H; [exact H|]. inversion Hos; subst. apply IH; [assumption|]. apply Hh; assumption. }
    induction tr as [|x tr IH] using rev_ind.
    - unfold state. cbn [rev state_rev]. destruct (fv_start e He) as (dd & f & -> & _). intros p k d [].
    - rewrite state_snoc. assert (Ha : forall p k d, In (p, k, d) (fw_log (at_call e tr)) -> k <> FFrom /\ k <> FTo) by (apply Hhs; [apply Hno|exact IH]).
      destruct x; try exact Ha.
      + unfold marking. destruct (_ || _); [exact Ha|]. cbn [snd]. destruct (asks _); exact Ha.
      + unfold reading. destruct (fd =? fe_fd e)%Z; [|exact Ha]. destruct (fw_queue _); exact Ha.
  Qed.
  Lemma no_moves_recs (Hno : no_renames e) tr r : In r (all_recs (state e tr)) -> has FFrom r = false /\ has FTo r = false.
  Proof.
    intros Hr. split; match goal with |- has ?k r = false => destruct (has k r) eqn:E; [|reflexivity] end; exfalso;
      apply (fi_log _ (state_fine e He tr) r _ Hr) in E; apply (no_moves_logged Hno) in E; destruct E; congruence.
  Qed.
  Lemma all_exact (Hno : no_renames e) fuel path il o r : linux_watch s fuel path il [] = (o, r) -> fs_events o = map (rec_event (state e o)) (concat (fw_batches (state e o))).
  Proof.
    intros E. destruct (run_facts fuel path il o r E) as (_ & shs & Ef & Ht). rewrite Ef.
    assert (Hm : forall x, In x (concat (fw_batches (state e o))) -> has FFrom x = false /\ has FTo x = false).
    { intros x Hx. apply (no_moves_recs Hno o). apply in_or_app. now left. }
    clear Ef E. revert Hm. induction Ht as [|b sh bs shs H0 H IH]; intros Hm; [reflexivity|]. cbn [concat] in *. rewrite filter_app, map_app. f_equal.
    - apply took_exact; [exact H0|]. intros y Hy. apply Hm, in_or_app. now left.
    - apply IH. intros y Hy. apply Hm, in_or_app. now right.
  Qed.
  Lemma all_told (Hno : no_renames e) fuel path il o r : linux_watch s fuel path il [] = (o, r) ->
    forall p k d, In (p, k, d) (fw_log (state e o)) -> (exists x, In x (fs_events o) /\ told_as p k d x) \/ pending_for (state e o) p k d.
  Proof.
    intros E p k d Hin. rewrite (all_exact Hno fuel path il o r E).
    destruct (no_moves_logged Hno o p k d Hin) as [K1 K2].
    destruct (fi_told _ (state_fine e He o) p k d Hin) as (x & Hx & Hp & Hk & Hd). pose proof (no_moves_recs Hno o x Hx) as [M1 M2]. apply in_app_or in Hx as [Hx|Hx]; [|right; exists x; auto].
    left. exists (rec_event (state e o) x). split; [now apply in_map|]. exists (f_effect x). unfold rec_event, f_ptype. rewrite Hp, Hd. split; [reflexivity|].
    unfold f_effect. destruct k; try congruence; rewrite ?Hk; auto; destruct (has FCreate x); auto; destruct (has FDelete x); auto; rewrite ?Hk; auto.
  Qed.
End Run.

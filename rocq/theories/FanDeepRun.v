(** The fanotify adapter in the environment of [FanDeepSpec]. *)
From Verif Require Import Base PathModel EventModel Sys SysFacts LinuxModel InotifyModel FanotifyModel LinuxWatch LinuxSpec
  LinuxFacts LinuxRun LinuxProps LinuxChoice InotifySpec InotifyFacts InotifyRun FanotifySpec FanotifyFacts FanotifyLoop FanotifyRun Shift Pin
  FanWorldSpec FanWorldFacts FanWorldRun FanDeepSpec FanDeepFacts.

Lemma event_path_eq d n : text_eqb n (lit ".") = false -> fpath d n = event_path d n.
Proof.
  intros H. unfold fpath, event_path, at_path. rewrite H. set (k := N.to_nat 4095). clearbody k. set (z := lit "/" ++ n). clearbody z. clear H n.
  revert k. induction d as [|x d IH]; intros [|k]; try reflexivity. cbn [firstn app]. now rewrite IH.
Qed.
Lemma gopened_at j : forall dirs i, (i <= j)%N -> (j < i + N.of_nat (length dirs))%N -> (i + N.of_nat (length dirs) <= 2 ^ 63)%N ->
  let res := gopened (le_bytes 4 8 ++ le_bytes 4 1 ++ le_bytes 8 j) i dirs in
  (exists p, nth_error dirs (N.to_nat (j - i)) = Some (p, true) /\ res = (1000 + Z.of_N j, 0)%Z) \/
  (exists p, nth_error dirs (N.to_nat (j - i)) = Some (p, false) /\ (fst res < 0)%Z).
Proof.
  cbv zeta. induction dirs as [|[d t] dirs IH]; intros i H1 H2 H3; [cbn [length] in H2; lia|]. cbn [length] in H2, H3.
  assert (Hneg : forall dirs i, (j < i)%N -> (i + N.of_nat (length dirs) <= 2 ^ 63)%N -> (fst (gopened (le_bytes 4 8 ++ le_bytes 4 1 ++ le_bytes 8 j) i dirs) < 0)%Z).
  { clear. induction dirs as [|[d t] dirs IH]; intros i H1 H2; cbn [gopened fst length] in *; [lia|]. destruct (text_eqb _ _) eqn:E.
    - exfalso. apply text_eqb_eq in E. apply app_inv_head, app_inv_head in E. apply le_bytes_inj in E; [lia| |]; change (256 ^ N.of_nat 8)%N with (2 ^ 64)%N; lia.
    - rewrite andb_false_r. apply IH; lia. }
  cbn [gopened snd]. destruct (text_eqb _ _) eqn:E.
  - apply text_eqb_eq in E. apply app_inv_head, app_inv_head in E. apply le_bytes_inj in E; [subst j| |]; [|change (256 ^ N.of_nat 8)%N with (2 ^ 64)%N; lia..].
    rewrite N.sub_diag. cbn [N.to_nat nth_error]. destruct t; cbn [andb]; [left; eauto|]. right. exists d. split; [reflexivity|]. apply Hneg; lia.
  - assert (i <> j).
    { intros ->. assert (text_eqb (le_bytes 4 8 ++ le_bytes 4 1 ++ le_bytes 8 j) (le_bytes 4 8 ++ le_bytes 4 1 ++ le_bytes 8 j) = true) by (now apply text_eqb_eq). congruence. }
    rewrite andb_false_r. replace (N.to_nat (j - i)) with (S (N.to_nat (j - (i + 1)))) by lia. cbn [nth_error]. apply IH; lia.
Qed.
Lemma gopened_any h : forall dirs i, (0 < fst (gopened h i dirs) \/ fst (gopened h i dirs) < 0 /\ snd (gopened h i dirs) <> 0)%Z.
Proof. induction dirs as [|d dirs IH]; intros i; cbn [gopened]; [right; cbn; lia|]. destruct (_ && _); [left; cbn [fst]; lia|apply IH]. Qed.

Section Run.
  Variable e : genv.
  Hypothesis He : genv_ok e.
  Notation s := (gsystem e).

  Lemma pin_handles tr x : handles_ok (pin (shift s tr) x).
  Proof.
    split; cbn [pin shift os_open_handle os_readlink gsystem].
    - intros t h. apply gopened_any.
    - intros t fd _. eexists. split; [reflexivity|]. unfold gpath_of. set (w := gat_call e _).
      pose proof (gf_paths w (gat_call_fine e He _)) as Hp. rewrite Forall_forall in Hp.
      destruct (Nat.lt_ge_cases (Z.to_nat (fd - 1000)) (length (gw_dirs w))) as [Hl|Hl].
      + specialize (Hp _ (nth_In _ (lit "/", true) Hl)). unfold shown_as. destruct (snd _); [exact Hp|]. destruct (fst _); discriminate.
      + rewrite nth_overflow by exact Hl. discriminate.
  Qed.
  Lemma shift_handles' tr : handles_ok (shift s tr).
  Proof.
    split; cbn [shift os_open_handle os_readlink gsystem].
    - intros t h. apply gopened_any.
    - intros t fd _. eexists. split; [reflexivity|]. unfold gpath_of. set (w := gat_call e _).
      pose proof (gf_paths w (gat_call_fine e He _)) as Hp. rewrite Forall_forall in Hp.
      destruct (Nat.lt_ge_cases (Z.to_nat (fd - 1000)) (length (gw_dirs w))) as [Hl|Hl].
      + specialize (Hp _ (nth_In _ (lit "/", true) Hl)). unfold shown_as. destruct (snd _); [exact Hp|]. destruct (fst _); discriminate.
      + rewrite nth_overflow by exact Hl. discriminate.
  Qed.
  Lemma ghandle_bytes c r : grec c r -> handle_of r = le_bytes 4 8 ++ le_bytes 4 1 ++ le_bytes 8 (rec_dir r).
  Proof. intros H. unfold handle_of. rewrite (gr_type _ _ H). rewrite (gr_handle _ _ H) at 1 2. now rewrite le_bytes_len. Qed.
  (** Opening the directory of a record, later. *)
  Lemma opens tr t r : grec (length (gw_dirs (gat_call e tr))) r ->
    let w := gat_call e (tr ++ t) in let res := gopened (handle_of r) 0 (gw_dirs w) in
    (exists p, gdir w (rec_dir r) = Some (p, true) /\ res = (1000 + Z.of_N (rec_dir r), 0)%Z) \/
    (exists p, gdir w (rec_dir r) = Some (p, false) /\ (fst res < 0)%Z).
  Proof.
    intros Hr w res. unfold res, gdir. rewrite (ghandle_bytes _ _ Hr). pose proof (gr_lt _ _ Hr) as Hl.
    destruct (gat_call_later e tr t) as [[Hn _] _]. fold w in Hn. pose proof (gf_count _ (gat_call_fine e He (tr ++ t))) as Hc. fold w in Hc.
    pose proof (gopened_at (rec_dir r) (gw_dirs w) 0 ltac:(lia) ltac:(lia) ltac:(lia)) as H. cbv zeta in H. rewrite N.sub_0_r in H. exact H.
  Qed.
  Lemma moment_pre x t : x <> [] -> exists y z c, x = y :: z ++ c /\ moment x t = y :: z.
  Proof.
    intros Hx. destruct x as [|y x]; [congruence|]. unfold moment. destruct (length t) as [|n]; cbn [Nat.max firstn].
    - exists y, [], x. auto.
    - exists y, (firstn n x), (skipn n x). now rewrite firstn_skipn.
  Qed.
  Lemma moment_step x t u : exists z, moment x (t ++ u) = moment x t ++ z.
  Proof.
    unfold moment. rewrite app_length. set (n := Nat.max 1 (length t)). set (m := Nat.max 1 (length t + length u)). assert (H : (n <= m)%nat) by lia. clearbody n m.
    exists (firstn (m - n) (skipn n x)). replace m with (n + (m - n))%nat at 1 by lia. clear H. generalize (m - n)%nat. intros k. clear m t u.
    revert x. induction n as [|n IH]; intros x; [reflexivity|]. destruct x as [|y x]; [cbn; now rewrite firstn_nil|]. cbn [Nat.add firstn skipn app]. now rewrite IH.
  Qed.
  (** A path given for a record is one of its directory's. *)
  Lemma named_where tr fd rd x r p : grec (length (gw_dirs (gat_call e tr))) r -> Forall no_read x ->
    named (pin (shift s tr) (ORead fd rd :: x)) r p ->
    exists d, whereabouts e (tr ++ ORead fd rd :: x) (rec_dir r) d /\ p = event_path d (f_name r).
  Proof.
    intros Hr Hx (t & fd' & err & d & Eo & Hfd & El & ->). set (X := ORead fd rd :: x) in *.
    cbn [pin shift os_open_handle os_readlink gsystem] in Eo, El.
    destruct (moment_pre X t ltac:(discriminate)) as (y & z & c & EX & Em). destruct (moment_step X t [OOpenHandle (handle_of r) fd' err]) as (z' & Em').
    rewrite Em' in El. rewrite Em in Eo, El. injection EX as <- EX.
    destruct (opens tr (ORead fd rd :: z) r Hr) as [(p & Hp & Eres)|(p & Hp & Hneg)]; [|rewrite Eo in Hneg; cbn [fst] in Hneg; lia].
    rewrite Eo in Eres. assert (fd' = (1000 + Z.of_N (rec_dir r))%Z /\ err = 0%Z) as [-> ->] by (split; congruence). clear Eo Eres.
    assert (Ed : d = gpath_of (1000 + Z.of_N (rec_dir r)) (gw_dirs (gat_call e (tr ++ (ORead fd rd :: z) ++ z')))) by (injection El as <-; reflexivity). clear El.
    unfold gpath_of in Ed. replace (Z.to_nat (1000 + Z.of_N (rec_dir r) - 1000)) with (N.to_nat (rec_dir r)) in Ed by lia.
    destruct (gat_call_later e (tr ++ ORead fd rd :: z) z') as [[_ Hages] _]. destruct (Hages _ _ Hp) as (p' & Hp' & _). rewrite <- app_assoc in Hp'.
    assert (Ec : exists c', X = (ORead fd rd :: z) ++ z' ++ c').
    { destruct (moment_pre X (t ++ [OOpenHandle (handle_of r) (1000 + Z.of_N (rec_dir r)) 0]) ltac:(discriminate)) as (y' & z2 & c2 & E2 & F2).
      exists c2. transitivity ((y' :: z2) ++ c2); [exact E2|]. assert (Ez : y' :: z2 = (ORead fd rd :: z) ++ z') by (rewrite <- F2, Em', Em; reflexivity).
      rewrite Ez, <- app_assoc. reflexivity. }
    destruct Ec as (c' & Ec). cbn [app] in Ec. unfold X in Ec at 1. injection Ec as Ec.
    exists d. split.
    - exists (tr ++ ORead fd rd :: z), z', c', p'. split; [unfold X; rewrite Ec, <- app_assoc; reflexivity|]. split.
      { rewrite Ec in Hx. apply Forall_app in Hx as [_ Hx]. exact Hx. }
      split; [exists p; exact Hp|]. rewrite <- app_assoc. split; [exact Hp'|]. rewrite Ed. f_equal. apply nth_error_nth. exact Hp'.
    - destruct (gr_name _ _ Hr) as (q & Hq). apply sound_name_facts in Hq as (_ & _ & _ & Hdot & _). now apply event_path_eq.
  Qed.

  (** ** What a batch tells *)
  Lemma one_truly T r p : f_kinds r <> [] -> (forall k, has k r = true -> told_change e T k (f_dir r) p) -> truly e T (Sh p (f_effect r) (f_ptype r) None).
  Proof.
    intros Hne Hl. unfold f_effect, f_ptype. destruct (has FCreate r) eqn:E1; [cbn; exists (f_dir r); auto|]. destruct (has FDelete r) eqn:E2; [cbn; exists (f_dir r); auto|].
    destruct (has FModify r) eqn:E3; [cbn; exists (f_dir r); auto|]. cbn. exists (f_dir r). split; [|reflexivity].
    destruct (has FFrom r) eqn:E4; [left; auto|]. destruct (has FTo r) eqn:E5; [right; auto|]. exfalso.
    destruct (f_kinds r) as [|k ks] eqn:Ek; [congruence|]. assert (Hk : has k r = true) by (rewrite has_like, Ek; destruct k; reflexivity). destruct k; congruence.
  Qed.
  Lemma batch_truly s' T m rs sh en : fbatch s' m rs sh en ->
    (forall r, In (Chg r) rs -> f_kinds r <> []) ->
    (forall r p, In (Chg r) rs -> named s' r p -> exists d, whereabouts e T (rec_dir r) d /\ p = event_path d (f_name r)) ->
    (forall r k, In (Chg r) rs -> has k r = true -> In (Did (rec_dir r) (f_name r) k (f_dir r) true) (gw_log (gstate e T))) ->
    forall x, In x sh -> warns x \/ truly e T x.
  Proof.
    assert (Htc : forall r p k, (exists d, whereabouts e T (rec_dir r) d /\ p = event_path d (f_name r)) ->
      In (Did (rec_dir r) (f_name r) k (f_dir r) true) (gw_log (gstate e T)) -> told_change e T k (f_dir r) p).
    { intros r p k (d & Hd & ->) Hin. exists (rec_dir r), (f_name r), d. auto. }
    induction 1 as [m rs Hf|m rs Hf|m r rs Hf Hu|m r n rs Hf Hp Hu|m r rs p w o en Hf Hp Hn Hw Hb IH|m r n rs p q o en Hf1 Hf2 Hm H1 H2 Hn1 Hn2 Hb IH|m r n rs p q o en Hf1 Hf2 Hm H0 H1 H2 Hn1 Hn2 Hb IH];
      intros Hne Hnm Hl x Hx; try (destruct Hx; fail).
    - apply in_app_or in Hx as [Hx|[<-|Hx]].
      + left. destruct (match f_effect r, f_ptype r with EtCreate, PtDir => true | _, _ => false end); [|subst w; destruct Hx].
        destruct Hw as [->| ->]; [destruct Hx|]. destruct Hx as [<-|[]]. eexists. reflexivity.
      + right. apply one_truly; [apply Hne; now left|]. intros k Hk. apply Htc; [apply Hnm; [now left|exact Hn]|apply Hl; [now left|exact Hk]].
      + apply IH; [| | |exact Hx]; intros; [apply Hne|apply Hnm|apply Hl]; try (right; assumption); assumption.
    - destruct Hx as [<-|Hx].
      + right. cbn. exists (f_dir r), (f_dir n). split; [apply Htc; [apply Hnm; [now left|exact Hn1]|apply Hl; [now left|exact H1]]|].
        split; [apply Htc; [apply Hnm; [right; now left|exact Hn2]|apply Hl; [right; now left|exact H2]]|]. auto.
      + apply IH; [| | |exact Hx]; intros; [apply Hne|apply Hnm|apply Hl]; try (right; right; assumption); assumption.
    - destruct Hx as [<-|Hx].
      + right. cbn. exists (f_dir n), (f_dir r). split; [apply Htc; [apply Hnm; [right; now left|exact Hn1]|apply Hl; [right; now left|exact H2]]|].
        split; [apply Htc; [apply Hnm; [now left|exact Hn2]|apply Hl; [now left|exact H1]]|]. auto.
      + apply IH; [| | |exact Hx]; intros; [apply Hne|apply Hnm|apply Hl]; try (right; assumption); assumption.
  Qed.
  Lemma batch_names s' m rs sh en : fbatch s' m rs sh en -> forall b r b', rs = b ++ Chg r :: b' -> m = 0%nat ->
    (exists x p, In x sh /\ about_fs x = true /\ named s' r p /\ mentions p x) \/
    In Ovf b \/ (exists b1 r1 r2 b2, b ++ [Chg r] = b1 ++ Chg r1 :: Chg r2 :: b2 /\ crossed r1 r2) \/
    (exists r1, (In (Chg r1) (b ++ [Chg r]) \/ exists b2, b' = Chg r1 :: b2 /\ meet r r1) /\ unnamed s' r1).
  Proof.
    assert (Lift : forall s' z sh0 sh b r b',
      ((exists x p, In x sh /\ about_fs x = true /\ named s' r p /\ mentions p x) \/
       In Ovf b \/ (exists b1 r1 r2 b2, b ++ [Chg r] = b1 ++ Chg r1 :: Chg r2 :: b2 /\ crossed r1 r2) \/
       (exists r1, (In (Chg r1) (b ++ [Chg r]) \/ exists b2, b' = Chg r1 :: b2 /\ meet r r1) /\ unnamed s' r1)) ->
      ((exists x p, In x (sh0 ++ sh) /\ about_fs x = true /\ named s' r p /\ mentions p x) \/
       In Ovf (z :: b) \/ (exists b1 r1 r2 b2, (z :: b) ++ [Chg r] = b1 ++ Chg r1 :: Chg r2 :: b2 /\ crossed r1 r2) \/
       (exists r1, (In (Chg r1) ((z :: b) ++ [Chg r]) \/ exists b2, b' = Chg r1 :: b2 /\ meet r r1) /\ unnamed s' r1))).
    { intros s0 z sh0 sh0' b r b' [(x & p & Hx & H)|[H|[(b1 & r1 & r2 & b2 & E & H)|(r1 & [H|H] & Hu)]]].
      - left. exists x, p. split; [apply in_or_app; now right|exact H].
      - right. left. now right.
      - right. right. left. exists (z :: b1), r1, r2, b2. split; [cbn [app]; now rewrite E|exact H].
      - right. right. right. exists r1. split; [left; now right|exact Hu].
      - right. right. right. exists r1. split; [right; exact H|exact Hu]. }
    induction 1 as [m rs Hf|m rs Hf|m r rs Hf Hu|m r n rs Hf Hp Hu|m r rs p w o en Hf Hp Hn Hw Hb IH|m r n rs p q o en Hf1 Hf2 Hm H1 H2 Hn1 Hn2 Hb IH|m r n rs p q o en Hf1 Hf2 Hm H0 H1 H2 Hn1 Hn2 Hb IH];
      intros b x b' Eb Em; subst m.
    - apply fits_zero_nil in Hf. subst rs. destruct b; discriminate.
    - destruct b as [|z b]; cbn [app] in Eb; [discriminate|]. injection Eb as <- _. right. left. now left.
    - right. right. right. exists r. split; [|exact Hu]. left. destruct b as [|z b]; cbn [app] in Eb; [injection Eb as -> _|injection Eb as <- _]; now left.
    - right. right. right. exists n. split; [|exact Hu]. destruct b as [|z b]; cbn [app] in Eb.
      + injection Eb as -> Eb. right. exists rs. split; [now symmetry|]. destruct Hp as (n' & rest & [= <- <-] & _ & H1 & H2). split; assumption.
      + injection Eb as <- Eb. left. right. destruct b as [|z b]; cbn [app] in Eb; [injection Eb as -> _|injection Eb as <- _]; now left.
    - destruct b as [|z b]; cbn [app] in Eb.
      + injection Eb as -> _. left. eexists _, p. split; [apply in_or_app; right; now left|]. split; [unfold f_ptype; destruct (f_dir x); reflexivity|]. split; [exact Hn|apply mentions_one].
      + injection Eb as <- Eb. change (w ++ ?s :: o) with (w ++ [s] ++ o). rewrite app_assoc. apply Lift. exact (IH b x b' Eb eq_refl).
    - destruct b as [|z b]; cbn [app] in Eb.
      + injection Eb as -> _. left. eexists _, p. split; [now left|]. split; [unfold f_ptype; destruct (f_dir x); reflexivity|]. split; [exact Hn1|now left].
      + injection Eb as <- Eb. change (?s :: o) with ([] ++ [s] ++ o). apply Lift. destruct b as [|z b]; cbn [app] in Eb.
        * injection Eb as -> _. left. eexists _, q. split; [now left|]. split; [unfold f_ptype; destruct (f_dir r); reflexivity|]. split; [exact Hn2|]. right. eauto 10.
        * injection Eb as <- Eb. apply Lift. exact (IH b x b' Eb eq_refl).
    - destruct b as [|z b]; cbn [app] in Eb.
      + injection Eb as -> _. left. eexists _, q. split; [now left|]. split; [unfold f_ptype; destruct (f_dir x); reflexivity|]. split; [exact Hn2|]. right. eauto 10.
      + injection Eb as <- Eb. right. right. left. destruct b as [|z b]; cbn [app] in Eb.
        * injection Eb as -> _. exists [], r, x, []. split; [reflexivity|]. split; [exact Hm|]. split; [exact H1|]. split; [exact H2|exact H0].
        * injection Eb as <- Eb. exists [], r, n, (b ++ [Chg x]). split; [reflexivity|]. split; [exact Hm|]. split; [exact H1|]. split; [exact H2|exact H0].
  Qed.

  (** ** Runs *)
  Definition gsound (tr o : trace) : Prop :=
    forall x ev y, o = x ++ OCallback ev :: y -> warns (shape_of ev) \/ truly e (tr ++ x) (shape_of ev).
  Lemma gsound_app tr a b : gsound tr a -> gsound (tr ++ a) b -> gsound tr (a ++ b).
  Proof.
    intros Ha Hb x ev y E. revert x E Ha Hb. revert tr. induction a as [|z a IH]; intros tr x E Ha Hb; [rewrite app_nil_r in Hb; exact (Hb x ev y E)|].
    destruct x as [|z' x]; cbn [app] in E; injection E as -> E; [exact (Ha [] ev a eq_refl)|].
    specialize (IH (tr ++ [z']) x E). rewrite <- !app_assoc in IH. cbn [app] in IH. apply IH; [|exact Hb].
    intros x' ev' y' E'. specialize (Ha (z' :: x') ev' y'). rewrite <- app_assoc. apply Ha. cbn. now rewrite E'.
  Qed.
  Lemma gsound_silent tr o : shown o = [] -> gsound tr o.
  Proof. intros H x ev y ->. rewrite shown_app in H. destruct (shown x); discriminate H. Qed.
  Lemma steady_left tr a b : steady e tr (a ++ b) -> steady e tr a.
  Proof. intros H x fd rd z y E Hl Hz r Hr. apply (H x fd rd z (y ++ b)); auto. rewrite E, <- !app_assoc. cbn [app]. now rewrite <- !app_assoc. Qed.
  Lemma steady_right tr a b : steady e tr (a ++ b) -> steady e (tr ++ a) b.
  Proof.
    intros H x fd rd z y E Hl Hz r Hr. specialize (H (a ++ x) fd rd z y). rewrite <- !app_assoc in *. apply H; auto. now rewrite E.
  Qed.
  Lemma fs_events_app a b : fs_events (a ++ b) = fs_events a ++ fs_events b.
  Proof. unfold fs_events. now rewrite shown_app, filter_app. Qed.
  Lemma mentioned_left tr a b i n : mentioned e tr a i n -> mentioned e tr (a ++ b) i n.
  Proof.
    intros (x & y & d & sh & E & Hw & Hin & Hm). exists x, (y ++ b), d, sh. split; [now rewrite E, <- app_assoc|]. split; [exact Hw|].
    rewrite fs_events_app. split; [apply in_or_app; now left|exact Hm].
  Qed.
  Lemma mentioned_right tr a b i n : mentioned e (tr ++ a) b i n -> mentioned e tr (a ++ b) i n.
  Proof.
    intros (x & y & d & sh & E & Hw & Hin & Hm). exists (a ++ x), y, d, sh. split; [now rewrite E, <- app_assoc|]. rewrite <- app_assoc in Hw. split; [exact Hw|].
    rewrite fs_events_app. split; [apply in_or_app; now right|exact Hm].
  Qed.
  Lemma cut_left tr a o b r b' : cut_in e tr a b r b' -> cut_in e tr (a ++ o) b r b'.
  Proof. intros (x & fd & rd & h & y & E & H). exists x, fd, rd, h, (y ++ o). split; [rewrite E, <- !app_assoc; cbn [app]; now rewrite <- !app_assoc|exact H]. Qed.
  Lemma cut_right tr a o b r b' : cut_in e (tr ++ a) o b r b' -> cut_in e tr (a ++ o) b r b'.
  Proof. intros (x & fd & rd & h & y & E & H). exists (a ++ x), fd, rd, h, y. rewrite <- !app_assoc in *. split; [now rewrite E|exact H]. Qed.
  (** In a steady run no tidy batch is cut. *)
  Lemma tidy_not_crossed rs : uncrossed rs -> forall b1 r1 r2 b2, map Chg rs = b1 ++ Chg r1 :: Chg r2 :: b2 -> ~ crossed r1 r2.
  Proof.
    induction rs as [|r rs IH]; intros Hu b1 r1 r2 b2 E; [destruct b1; discriminate|]. destruct b1 as [|z b1]; cbn [map app] in E.
    - injection E as -> E. destruct rs as [|n rs]; [discriminate|]. injection E as -> _. apply Hu.
    - injection E as _ E. apply (IH ltac:(destruct rs; [exact I|apply Hu]) _ _ _ _ E).
  Qed.
  Lemma tidy_not_cut tr o b r b' : steady e tr o -> tidy (b ++ Chg r :: b') -> ~ cut_in e tr o b r b'.
  Proof.
    intros Hs (rs & t & Eb & Et & Hu) (a & fd & rd & h & y & Eo & Hl & Hh & El & Hurdle).
    assert (X : exists b0 r', rs = b0 ++ r :: r' /\ b = map Chg b0 /\ b' = map Chg r' ++ t).
    { clear -Eb Et. revert rs Eb. induction b as [|z b IH]; intros rs Eb; cbn [app] in Eb.
      - destruct rs as [|r0 rs]; cbn [map app] in Eb; [destruct Et; subst t; discriminate|]. injection Eb as -> Eb. exists [], rs. auto.
      - destruct rs as [|r0 rs]; cbn [map app] in Eb; [destruct Et; subst t; [discriminate|destruct b; discriminate]|]. injection Eb as -> Eb.
        destruct (IH rs Eb) as (b0 & r' & -> & -> & ->). exists (r0 :: b0), r'. auto. }
    destruct X as (b0 & r' & -> & -> & ->). destruct Hurdle as [H|[(b1 & r1 & r2 & b2 & E & H)|(r1 & Hr & Hn)]].
    - apply in_map_iff in H as (x & [=] & _).
    - change [Chg r] with (map Chg [r]) in E. rewrite <- map_app in E.
      assert (E' : map Chg (b0 ++ r :: r') = b1 ++ Chg r1 :: Chg r2 :: b2 ++ map Chg r').
      { rewrite app_comm_cons, app_comm_cons, app_assoc, <- E, <- map_app, <- app_assoc. reflexivity. }
      exact (tidy_not_crossed _ Hu _ _ _ _ E' H).
    - apply Hn. apply (Hs a fd rd h y Eo Hl Hh). rewrite El. destruct Hr as [Hr|(b2 & -> & _)].
      + apply in_app_or in Hr as [Hr|[Hr|[]]]; apply in_or_app; [now left|right; now left].
      + apply in_or_app. right. right. now left.
  Qed.
  Definition went (tr o : trace) : Prop :=
    (exists bs, gw_batches (gstate e (tr ++ o)) = gw_batches (gstate e tr) ++ bs /\
       forall b r b', In (b ++ Chg r :: b') bs -> mentioned e tr o (rec_dir r) (f_name r) \/ cut_in e tr o b r b') /\ gsound tr o.
  Lemma went_app tr a b : went tr a -> went (tr ++ a) b -> went tr (a ++ b).
  Proof.
    intros [(bs1 & E1 & T1) N1] [(bs2 & E2 & T2) N2]. split; [|now apply gsound_app]. exists (bs1 ++ bs2). rewrite (app_assoc tr a b).
    split; [rewrite E2, E1, <- app_assoc; reflexivity|]. intros c r c' Hc. apply in_app_or in Hc as [Hc|Hc].
    - destruct (T1 c r c' Hc); [left; now apply mentioned_left|right; now apply cut_left].
    - destruct (T2 c r c' Hc); [left; now apply mentioned_right|right; now apply cut_right].
  Qed.
  Lemma went_quiet tr o : Forall no_read o -> shown o = [] -> went tr o.
  Proof. intros Hn Hs. split; [|now apply gsound_silent]. exists []. rewrite app_nil_r. split; [now apply gstate_batches|]. intros b r b' []. Qed.

  Lemma recv_went ke tr : kfa_ok ke ->
    exists o r ke', fa_recv s ke tr = (o, Ok (r, ke')) /\ kfa_fd ke' = kfa_fd ke /\ kfa_ok ke' /\ went tr o.
  Proof.
    intros Hk. pose proof (ev_fa_recv s (Forall no_wait) (closed_no_wait s) ke tr) as Hnw. rewrite fa_recv_shift in Hnw |- *. set (w := gat_call e tr).
    assert (Erd : forall n, os_read (shift s tr) [] (kfa_fd ke) n = fst (greading (kfa_fd ke =? ge_fd e)%Z (ge_want e tr) w)).
    { intros n. cbn [shift os_read gsystem]. now rewrite !app_nil_r. }
    assert (Hst : forall x, gstate e (tr ++ [ORead (kfa_fd ke) x]) = snd (greading (kfa_fd ke =? ge_fd e)%Z (ge_want e tr) w)).
    { intros x. apply (gstate_snoc e tr (ORead (kfa_fd ke) x)). }
    assert (Hw : gfine w) by (apply gat_call_fine, He).
    destruct (gcall_later e tr) as [_ Hbw]. fold w in Hbw.
    unfold greading in Erd, Hst. set (mine := (kfa_fd ke =? ge_fd e)%Z) in *.
    assert (Hno : (forall n, os_read (shift s tr) [] (kfa_fd ke) n = {| rd_len := -1; rd_bytes := []; rd_errno := 11 |}) -> (forall x, gstate e (tr ++ [ORead (kfa_fd ke) x]) = w) ->
      exists o r ke', fa_recv (shift s tr) ke [] = (o, Ok (r, ke')) /\ kfa_fd ke' = kfa_fd ke /\ kfa_ok ke' /\ went tr o).
    { intros E1 E2. exists [ORead (kfa_fd ke) {| rd_len := -1; rd_bytes := []; rd_errno := 11 |}], r_e_sys_api_read, ke. split; [|split; [reflexivity|split; [exact Hk|]]].
      - unfold fa_recv, bind, sys_read. rewrite E1. destruct ke. reflexivity.
      - split; [|now apply gsound_silent]. exists []. rewrite app_nil_r, E2. split; [exact Hbw|]. intros b r b' []. }
    destruct mine; [|apply Hno; [exact Erd|exact Hst]].
    destruct (gw_queue w) as [|r0 q0] eqn:Eq; [apply Hno; [exact Erd|exact Hst]|]. clear Hno.
    set (k := gfitting 4095 (S (ge_want e tr)) (r0 :: q0)) in *. set (b := firstn k (r0 :: q0)) in *. cbn [fst snd] in Erd, Hst.
    assert (Hfine : gfine (gstate e (tr ++ [ORead (kfa_fd ke) (os_read s tr (kfa_fd ke) 4096)]))) by (apply gstate_fine, He).
    rewrite Hst in Hfine. destruct (gf_batches _ Hfine b) as [Hne Hsz]; [cbn [gw_batches]; apply in_or_app; right; now left|].
    assert (Hin : forall x, In x b -> In x (gall w)).
    { intros x Hx. apply in_or_app. right. rewrite Eq, <- (firstn_skipn k (r0 :: q0)). apply in_or_app. left. exact Hx. }
    assert (Hgood : forall r, In (Chg r) b -> grec (length (gw_dirs w)) r) by (intros r Hr; apply (gf_recs w Hw), Hin, Hr).
    assert (Hok : fbatch_ok b).
    { split; [|exact Hsz]. apply Forall_forall. intros [r|] Hx; [|exact I]. exact (proj1 (grec_ok _ _ (Hgood r Hx))). }
    assert (Hpos : (0 < length (fencode b))%nat).
    { destruct b as [|x b']; [congruence|]. rewrite fencode_cons, app_length. destruct x as [r|]; [|cbn; lia].
      destruct (grec_ok _ _ (Hgood r (or_introl eq_refl))) as (Ho & _ & Hp). pose proof (flen_chg r Ho) as Hf. unfold flen in Hf. lia. }
    destruct (fa_recv_batch (shift s tr) ke [] b (shift_handles' tr) Hok Hne ltac:(rewrite Erd; reflexivity) ltac:(rewrite Erd; reflexivity) Hk) as (o & en & _ & Hnr & Hrun).
    destruct ke as [fd buf]. cbn [kfa_fd kfa_buf] in *. destruct (Hrun buf Hk) as (buf' & E & Hk'). rewrite E in Hnw. cbn [fst] in Hnw.
    set (rd := os_read (shift s tr) [] fd 4096) in *.
    (** The same run, with the answers pinned. *)
    assert (Hpin : forall x X, (forall t y c, t <> [] -> X = t ++ y :: c -> moment x t = t) -> pre X (ORead fd rd :: o) -> (exists rd0, pre [ORead fd rd0] X) ->
      exists o' en', fbatch (pin (shift s tr) x) 0 b (shown o') en' /\ pre X (ORead fd rd :: o') /\ (X = ORead fd rd :: o -> o' = o)).
    { intros x X Hag Hp Hr. destruct (pn_fa_recv (shift s tr) x X Hag _ _ _ E Hp Hr) as (o' & r' & E' & Hp' & Hsame).
      destruct (fa_recv_batch (pin (shift s tr) x) {| kfa_fd := fd; kfa_buf := buf |} [] b (pin_handles tr x) Hok Hne ltac:(cbn [pin os_read kfa_fd]; rewrite Erd; reflexivity) ltac:(cbn [pin os_read kfa_fd]; rewrite Erd; reflexivity) Hk) as (o2 & en2 & Hfb & _ & Hrun2).
      destruct (Hrun2 buf Hk) as (buf2 & E2 & _). cbn [kfa_fd] in E2. rewrite E2 in E'. injection E' as E' _. assert (E3 : ORead fd rd :: o2 = o') by exact E'. clear E'. rename E3 into E'.
      exists o2, en2. split; [exact Hfb|]. split; [rewrite E'; exact Hp'|]. intros HX. destruct (Hsame HX) as [Ho _]. rewrite <- E' in Ho. now injection Ho. }
    clear Hrun.
    eexists _, (result_of en), _. split; [exact E|]. split; [reflexivity|]. split; [exact Hk'|].
    assert (Hlog : forall x r k0, In (Chg r) b -> has k0 r = true -> In (Did (rec_dir r) (f_name r) k0 (f_dir r) true) (gw_log (gstate e (tr ++ ORead fd rd :: x)))).
    { intros x r k0 Hr Hk0. destruct (gstate_later e (tr ++ [ORead fd rd]) x) as [_ [l El]]. rewrite <- app_assoc in El. cbn [app] in El. rewrite El. apply in_or_app. left.
      rewrite Hst. cbn [gw_log]. apply (gf_log w Hw); [|exact Hk0]. now apply Hin. }
    assert (Hwhere : forall x r p, In (Chg r) b -> Forall no_read x -> named (pin (shift s tr) (ORead fd rd :: x)) r p ->
      exists d, whereabouts e (tr ++ ORead fd rd :: x) (rec_dir r) d /\ p = event_path d (f_name r)).
    { intros x r p Hr Hx Hn. apply named_where; [apply Hgood, Hr|exact Hx|exact Hn]. }
    assert (Hsound : gsound tr (ORead fd rd :: o)).
    { intros x ev y Ex. destruct x as [|z x]; cbn [app] in Ex; [discriminate Ex|]. injection Ex as <- Ex.
      assert (Hx : Forall no_read x) by (rewrite Ex in Hnr; apply Forall_app in Hnr; apply Hnr).
      destruct (Hpin (ORead fd rd :: x) ((ORead fd rd :: x) ++ [OCallback ev])) as (o' & en' & Hfb & (c & Hp) & _).
      - intros t y0 c0 Ht HX. unfold moment. assert (Hl : (length t <= length (ORead fd rd :: x))%nat).
        { apply (f_equal (@length obs)) in HX. rewrite !app_length in HX. cbn [length] in *. lia. }
        replace (Nat.max 1 (length t)) with (length t) by (destruct t; [congruence|cbn; lia]).
        assert (Hf : firstn (length t) ((ORead fd rd :: x) ++ [OCallback ev]) = t) by (rewrite HX, firstn_app, Nat.sub_diag, firstn_all, firstn_O; apply app_nil_r).
        rewrite firstn_app in Hf. replace (length t - length (ORead fd rd :: x))%nat with 0%nat in Hf by lia. rewrite firstn_O, app_nil_r in Hf. exact Hf.
      - exists y. cbn [app]. rewrite Ex, <- app_assoc. reflexivity.
      - exists rd. exists (x ++ [OCallback ev]). reflexivity.
      - cbn [app] in Hp. injection Hp as Hp. rewrite <- app_assoc in Hp.
        apply (batch_truly _ (tr ++ ORead fd rd :: x) _ _ _ _ Hfb).
        + intros r Hr. apply (gr_kinds _ _ (Hgood r Hr)).
        + intros r p Hr Hn. apply Hwhere; assumption.
        + intros r k0 Hr Hk0. now apply Hlog.
        + rewrite Hp, shown_app. apply in_or_app. right. now left. }
    split; [|exact Hsound]. clear Hsound. exists [b]. split.
    { change (ORead fd rd :: o) with ([ORead fd rd] ++ o). rewrite app_assoc, gstate_batches by exact Hnr. rewrite Hst. cbn [gw_batches]. now rewrite Hbw. }
    intros b0 r b' [Eb|[]].
    assert (Hr : In (Chg r) b) by (rewrite Eb; apply in_elt).
    destruct (Hpin (ORead fd rd :: o) (ORead fd rd :: o)) as (o' & en' & Hfb & _ & Hsame).
    - intros t y0 c0 Ht HX. unfold moment. replace (Nat.max 1 (length t)) with (length t) by (destruct t; [congruence|cbn; lia]).
      rewrite HX, firstn_app, Nat.sub_diag, firstn_all, firstn_O. apply app_nil_r.
    - apply pre_refl.
    - exists rd. now exists o.
    - rewrite (Hsame eq_refl) in Hfb. clear o' Hsame.
      assert (Hcut : forall z c, o = z ++ c -> hurdle e (tr ++ ORead fd rd :: z) b0 r b' -> cut_in e tr (ORead fd rd :: o) b0 r b').
      { intros z c EX Hh. exists [], fd, rd, z, c. split; [cbn [app]; now rewrite EX|]. split; [unfold rd; rewrite Erd; cbn [rd_len]; lia|]. split.
        - assert (Hz : Forall no_read z) by (rewrite EX in Hnr; apply Forall_app in Hnr; apply Hnr).
          assert (Hz' : Forall no_wait z) by (inversion Hnw as [|? ? _ Hno]; rewrite EX in Hno; apply Forall_app in Hno; apply Hno).
          clear -Hz Hz'. induction z as [|a z IH]; [constructor|]. inversion Hz; inversion Hz'; subst. constructor; [|auto]. destruct a; try exact I; assumption.
        - cbn [app]. rewrite Hst. cbn [gw_batches]. rewrite last_last. split; [exact Eb|exact Hh]. }
      destruct (batch_names _ _ _ _ _ Hfb b0 r b' Eb eq_refl) as [(x & p & Hx & Hfs & Hn & Hm)|[H|[H|(r1 & Hr1 & (t & Ht))]]].
      + left. destruct (Hwhere o r p Hr Hnr Hn) as (d & Hd & ->). exists (ORead fd rd :: o), [], d, x. split; [now rewrite app_nil_r|]. split; [exact Hd|].
        split; [|exact Hm]. unfold fs_events. apply filter_In. split; [exact Hx|exact Hfs].
      + right. apply (Hcut [] o eq_refl). left. exact H.
      + right. apply (Hcut [] o eq_refl). right. left. exact H.
      + right. cbn [pin shift os_open_handle gsystem] in Ht.
        destruct (moment_pre (ORead fd rd :: o) t ltac:(discriminate)) as (y0 & z & c & EX & Em). injection EX as <- EX. rewrite Em in Ht.
        assert (Hb1 : In (Chg r1) b).
        { rewrite Eb. apply in_or_app. destruct Hr1 as [Hr1|(b2 & -> & _)]; [|right; right; now left]. apply in_app_or in Hr1 as [Hr1|[Hr1|[]]]; [now left|right; now left]. }
        apply (Hcut z c EX). right. right. exists r1. split; [exact Hr1|]. intros (p & Hp).
        destruct (opens tr (ORead fd rd :: z) r1 (Hgood r1 Hb1)) as [(p' & _ & Er)|(p' & Hp' & _)]; [|cbv zeta in Hp'; congruence].
        cbv zeta in Er. rewrite Er in Ht. cbn [fst] in Ht. lia.
  Qed.

  Lemma each_ready_went il : forall fds ok ke tr, kfa_ok ke ->
    exists o ok' ke', each_ready kfa kfa_fd (fa_recv s) il fds ok ke tr = (o, Ok (ok', ke')) /\ kfa_ok ke' /\ went tr o /\ kfa_fd ke' = kfa_fd ke.
  Proof.
    induction fds as [|fd fds IH]; intros ok ke tr Hk; cbn [each_ready].
    - exists [], ok, ke. split; [reflexivity|]. split; [exact Hk|]. split; [|reflexivity]. apply went_quiet; [constructor|reflexivity].
    - destruct (fd =? il)%Z; [now apply IH|]. destruct (fd =? kfa_fd ke)%Z; [|now apply IH].
      destruct (recv_went ke tr Hk) as (o1 & r1 & ke1 & E1 & F1 & Hk1 & Hw1).
      destruct (IH r1 ke1 (tr ++ o1) Hk1) as (o2 & ok2 & ke2 & E2 & Hk2 & Hw2 & F2).
      exists (o1 ++ o2), ok2, ke2. split; [eapply bind_ok_eq; [exact E1|exact E2]|]. split; [exact Hk2|]. split; [now apply went_app|congruence].
  Qed.
  Lemma ep_loop_went il : forall fuel ep ok ke tr, kfa_ok ke ->
    exists o r, ep_loop s kfa kfa_fd (fa_recv s) il fuel ep ok ke tr = (o, r) /\ not_ub r /\ went tr o.
  Proof.
    induction fuel as [|n IH]; intros ep ok ke tr Hk; cbn [ep_loop].
    { exists [], Fuel. split; [reflexivity|]. split; [exact I|]. apply went_quiet; [constructor|reflexivity]. }
    destruct (negb (r_lt ok r_complete)).
    { exists [], (Ok (ok, ke)). split; [reflexivity|]. split; [exact I|]. apply went_quiet; [constructor|reflexivity]. }
    unfold bind at 1, epoll_wait. set (w := os_epoll_wait s tr ep).
    assert (Hq : forall x, went tr [OEpollWait ep x]) by (intros x; apply went_quiet; [repeat constructor|reflexivity]).
    destruct w as [fds|].
    - destruct (each_ready_went il (firstn 64 fds) ok ke (tr ++ [OEpollWait ep (Some fds)]) Hk) as (o1 & ok1 & ke1 & E1 & Hk1 & Hw1 & _).
      destruct (IH ep ok1 ke1 ((tr ++ [OEpollWait ep (Some fds)]) ++ o1) Hk1) as (o2 & r2 & E2 & Hu2 & Hw2).
      rewrite (bind_ok_eq _ _ _ _ _ _ _ E1 E2).
      exists (OEpollWait ep (Some fds) :: o1 ++ o2), r2. split; [reflexivity|]. split; [exact Hu2|].
      change (OEpollWait ep (Some fds) :: o1 ++ o2) with ([OEpollWait ep (Some fds)] ++ (o1 ++ o2)). apply went_app; [apply Hq|]. now apply went_app.
    - destruct (IH ep r_e_sys_api_epoll ke (tr ++ [OEpollWait ep None]) Hk) as (o2 & r2 & E2 & Hu2 & Hw2). rewrite E2.
      exists (OEpollWait ep None :: o2), r2. split; [reflexivity|]. split; [exact Hu2|].
      change (OEpollWait ep None :: o2) with ([OEpollWait ep None] ++ o2). now apply went_app.
  Qed.

  Lemma start_no_read' o : Forall start_obs o -> Forall no_read o.
  Proof. apply start_no_read. Qed.
  (** A run: first warnings, then batches, then perhaps the last event. *)
  Lemma watch_went fuel path il :
    exists a b c r, linux_watch s fuel path il [] = (a ++ b ++ c, r) /\ not_ub r /\
      Forall no_read a /\ (forall x, In x (shown a) -> warns x) /\ went a b /\ Forall no_read c /\
      (shown c = [] \/ exists ev, callbacks c = [ev] /\ fatal_message path ev /\ r = Ok false).
  Proof.
    rewrite linux_watch_split. unfold adapters, try_fanotify. rewrite !bind_assoc. unfold bind at 1, geteuid.
    change (os_geteuid s []) with 0%Z. change (0 =? 0)%Z with true. cbv iota. set (g := OGeteuid 0). set (tr1 := [] ++ [g]).
    destruct (fa_make_start s fuel path il tr1) as (Hst & Hub & Hko).
    destruct (run_fanotify_init s fuel path il tr1) as (fd0 & rest0 & Hini & _ & _ & Hnf).
    assert (Hfd0 : (1 <= fd0)%Z).
    { unfold run_fanotify, platform_watch, fa_make_sysres in Hini. rewrite bind_assoc in Hini. unfold bind at 1, fanotify_init in Hini.
      match type of Hini with context [let (_, _) := ?m ?t in _] => destruct (m t) end. injection Hini as <- _. apply (gv_fd e He). }
    specialize (Hnf Hfd0).
    assert (Hrun : exists a b c r, run_fanotify s fuel path il tr1 = (a ++ b ++ c, r) /\ not_ub r /\ Forall start_obs a /\
      went (g :: a) b /\ Forall no_read c /\ callbacks c = []).
    { unfold run_fanotify, platform_watch. unfold bind at 1. destruct (fa_make_sysres s fuel path il tr1) as [a ra]. cbn [fst snd] in *.
      destruct ra as [[[ok ke] ep]|u| |]; try contradiction.
      - destruct (ep_loop_went il fuel ep ok ke (tr1 ++ a) (Hko _ _ _ eq_refl)) as (b & rb & Eb & Hub' & Hwb).
        unfold bind at 1. rewrite Eb. destruct rb as [[ok' ke']|u| |]; try contradiction.
        + exists a, b, [OClose (kfa_fd ke'); OClose ep], (Ok ok'). cbn. split; [reflexivity|]. split; [exact I|]. split; [exact Hst|]. split; [exact Hwb|]. split; [repeat constructor|reflexivity].
        + exists a, b, [], Fuel. rewrite app_nil_r. split; [reflexivity|]. split; [exact I|]. split; [exact Hst|]. split; [exact Hwb|]. split; [constructor|reflexivity].
      - exists a, [], [], Fuel. rewrite app_nil_r. split; [reflexivity|]. split; [exact I|]. split; [exact Hst|].
        split; [apply went_quiet; [constructor|reflexivity]|]. split; [constructor|reflexivity]. }
    destruct Hrun as (a & b & c & r & E & Hubr & Hsta & Hw & Hrc & Hcc).
    assert (Hma : forall x, In x (shown (g :: a)) -> warns x).
    { change (shown (g :: a)) with (shown a). intros x Hx. unfold shown in Hx. apply in_map_iff in Hx as (ev & <- & Hev).
      assert (Hin : In (OCallback ev) a).
      { clear -Hev. induction a as [|y a IH]; [destruct Hev|]. destruct y; try (right; now apply IH). cbn [callbacks] in Hev. destruct Hev as [->|Hev]; [now left|right; now apply IH]. }
      rewrite Forall_forall in Hsta. apply (Hsta _ Hin). }
    assert (Hra : Forall no_read (g :: a)) by (constructor; [exact I|apply start_no_read', Hsta]).
    rewrite E in Hnf. cbn [snd] in Hnf. unfold bind at 1. rewrite E.
    destruct r as [r|u| |]; try contradiction.
    - assert (Hneq : r_eqb r r_e_sys_api_fanotify = false) by (destruct r; try reflexivity; exfalso; now apply Hnf).
      rewrite Hneq. rewrite bind_ret.
      pose proof (linux_watch_inv s fuel path il []) as Hinv. rewrite linux_watch_split in Hinv.
      unfold adapters, try_fanotify in Hinv. rewrite !bind_assoc in Hinv. unfold bind at 1, geteuid in Hinv. change (os_geteuid s []) with 0%Z in Hinv.
      change (0 =? 0)%Z with true in Hinv. cbv iota in Hinv. fold g in Hinv. fold tr1 in Hinv.
      unfold bind at 1 in Hinv. rewrite E in Hinv. rewrite Hneq in Hinv. rewrite bind_ret in Hinv.
      destruct (r_ge r r_e) eqn:Er.
      + cbn in Hinv |- *. match goal with |- context [OCallback ?x] => set (e0 := x) in * end.
        pose proof (Hinv _ _ eq_refl) as [(Hf & _)|(_ & o1 & ev & Ho & _ & Hfat)]; [discriminate|].
        exists (g :: a), b, (c ++ [ONow (ev_time e0); OCallback e0]), (Ok false).
        split; [cbn; now rewrite <- !app_assoc|]. split; [exact I|]. split; [exact Hra|]. split; [exact Hma|]. split; [exact Hw|].
        split; [apply Forall_app; split; [exact Hrc|repeat constructor]|]. right. exists e0. split; [|split; [|reflexivity]].
        * rewrite callbacks_app, Hcc. reflexivity.
        * assert (Hee : e0 = ev); [|now rewrite Hee].
          assert (Hl : last (g :: (a ++ b ++ c) ++ [ONow (ev_time e0); OCallback e0]) g = OCallback e0).
          { rewrite app_comm_cons. change [ONow (ev_time e0); OCallback e0] with ([ONow (ev_time e0)] ++ [OCallback e0]).
            rewrite app_assoc. apply last_last. }
          unfold e0 in Hl at 1. cbn [ev_time ev_make] in Hl. rewrite Ho in Hl.
          change [ONow (ev_time ev); OCallback ev] with ([ONow (ev_time ev)] ++ [OCallback ev]) in Hl.
          rewrite app_assoc, last_last in Hl. injection Hl as Hl. symmetry. exact Hl.
      + cbn. exists (g :: a), b, c, (Ok true). rewrite app_nil_r. split; [reflexivity|]. split; [exact I|]. split; [exact Hra|]. split; [exact Hma|].
        split; [exact Hw|]. split; [exact Hrc|]. left. unfold shown. now rewrite Hcc.
    - exists (g :: a), b, c, Fuel. split; [reflexivity|]. split; [exact I|]. split; [exact Hra|]. split; [exact Hma|].
      split; [exact Hw|]. split; [exact Hrc|]. left. unfold shown. now rewrite Hcc.
  Qed.


  (** ** What the theorems use *)
  Lemma about_not_warn x : about_fs x = true -> ~ warns x.
  Proof. intros H (q & ->). discriminate H. Qed.
  Lemma fatal_not_fs path ev : fatal_message path ev -> about_fs (shape_of ev) = false.
  Proof. intros ((Hm & _) & _). destruct ev as [p f t n a0]. unfold is_message in *. cbn in *. destruct t; try reflexivity; discriminate Hm. Qed.
  Lemma callbacks_in x ev y : In ev (callbacks (x ++ OCallback ev :: y)).
  Proof. rewrite callbacks_app. apply in_or_app. right. now left. Qed.
  Lemma all_truly fuel path il o r : linux_watch s fuel path il [] = (o, r) ->
    forall x ev y, o = x ++ OCallback ev :: y -> about_fs (shape_of ev) = true -> truly e x (shape_of ev).
  Proof.
    intros E x ev y Ex Hfs. destruct (watch_went fuel path il) as (a & b & c & r' & E' & _ & _ & Hwa & [_ Hsb] & _ & Hcs).
    rewrite E in E'. injection E' as Eo _.
    assert (Ha : gsound [] a).
    { intros x' ev' y' E1. left. apply Hwa. rewrite E1, shown_app. apply in_or_app. right. now left. }
    assert (Hc : forall tr x' ev' y', c = x' ++ OCallback ev' :: y' -> about_fs (shape_of ev') = true -> truly e (tr ++ x') (shape_of ev')).
    { intros tr x' ev' y' E1 Hf. exfalso. destruct Hcs as [Hcs|(ev0 & Ec & Hfat & _)].
      - rewrite E1, shown_app in Hcs. destruct (shown x'); discriminate Hcs.
      - pose proof (callbacks_in x' ev' y') as Hin. rewrite <- E1, Ec in Hin. destruct Hin as [->|[]]. now rewrite (fatal_not_fs path ev' Hfat) in Hf. }
    assert (Hab : gsound [] (a ++ b)) by (apply gsound_app; [exact Ha|exact Hsb]).
    assert (Hsplit : (exists y1, a ++ b = x ++ OCallback ev :: y1) \/ (exists x1, c = x1 ++ OCallback ev :: y /\ x = (a ++ b) ++ x1)).
    { rewrite app_assoc in Eo. rewrite Eo in Ex. clear -Ex. revert x Ex. generalize (a ++ b). intros l. clear a b. induction l as [|z l IH]; intros x Ex; [right; exists x; auto|].
      destruct x as [|z' x]; cbn [app] in Ex; injection Ex as -> Ex.
      - left. exists l. reflexivity.
      - destruct (IH x Ex) as [(y1 & ->)|(x1 & -> & ->)]; [left; exists y1; reflexivity|right; exists x1; auto]. }
    destruct Hsplit as [(y1 & E1)|(x1 & E1 & ->)].
    - destruct (Hab x ev y1 E1) as [Hw|H]; [destruct (about_not_warn _ Hfs Hw)|exact H].
    - apply (Hc (a ++ b) x1 ev y E1 Hfs).
  Qed.
  Lemma all_accounted fuel path il o r : linux_watch s fuel path il [] = (o, r) ->
    forall i n k d, In (Did i n k d true) (gw_log (gstate e o)) -> mentioned e [] o i n \/ still_pending (gstate e o) i n k d \/ cut e o i n k d.
  Proof.
    intros E i n k d Hin. destruct (watch_went fuel path il) as (a & b & c & r' & E' & _ & Ha & _ & [(bs & Eb & Hbs) _] & Hc & _).
    rewrite E in E'. injection E' as Eo _. subst o.
    destruct (gf_told _ (gstate_fine e He _) i n k d Hin) as (x & Hx & Hi & Hn & Hk & Hd). apply in_app_or in Hx as [Hx|Hx]; [|right; left; exists x; auto].
    apply in_concat in Hx as (b0 & Hb0 & Hxb).
    assert (E0 : gw_batches (gstate e a) = []).
    { rewrite <- (app_nil_l a), gstate_batches by exact Ha. unfold gstate. cbn [rev gstate_rev]. destruct (gv_start e He) as (dd & f & -> & _). reflexivity. }
    rewrite E0 in Eb. cbn [app] in Eb. assert (Eall : gw_batches (gstate e (a ++ b ++ c)) = bs) by (rewrite app_assoc, gstate_batches by exact Hc; exact Eb).
    rewrite Eall in Hb0. apply in_split in Hxb as (b1 & b2 & ->).
    destruct (Hbs b1 x b2 Hb0) as [H|H]; [left; rewrite Hi, Hn in H; apply (mentioned_right [] a (b ++ c)), mentioned_left; exact H|].
    right. right. exists b1, x, b2. split; [apply (cut_right [] a (b ++ c)), cut_left; exact H|auto].
  Qed.
  Lemma batches_grow tr t : exists y, gw_batches (gstate e (tr ++ t)) = gw_batches (gstate e tr) ++ y.
  Proof.
    induction t as [|x t [y IH]] using rev_ind; [exists []; now rewrite !app_nil_r|]. rewrite app_assoc, gstate_snoc. destruct (gcall_later e (tr ++ t)) as [_ Hb]. rewrite IH in Hb.
    destruct x; try (exists y; exact Hb).
    - exists y. rewrite (proj2 (gmarking_later _ _ _ _ _)). exact Hb.
    - unfold greading. destruct (fd =? ge_fd e)%Z; [|exists y; exact Hb]. destruct (gw_queue _); [exists y; exact Hb|]. cbn [snd gw_batches]. rewrite Hb, <- app_assoc. eexists. reflexivity.
  Qed.
  Lemma cut_batch o b r b' : cut_in e [] o b r b' -> In (b ++ Chg r :: b') (gw_batches (gstate e o)).
  Proof.
    intros (a & fd & rd & h & y & -> & _ & _ & El & _). cbn [app] in El.
    destruct (batches_grow (a ++ [ORead fd rd]) (h ++ y)) as [l El']. rewrite <- app_assoc in El'. cbn [app] in El'. rewrite El'. apply in_or_app. left.
    rewrite <- El. destruct (gw_batches (gstate e (a ++ [ORead fd rd]))) as [|z l0]; [destruct b; discriminate El|]. destruct (exists_last (l := z :: l0)) as (q & w & ->); [discriminate|]. rewrite last_last. apply in_elt.
  Qed.
  Lemma steady_not_cut o i n k d : steady e [] o -> Forall tidy (gw_batches (gstate e o)) -> ~ cut e o i n k d.
  Proof.
    intros Hs Ht (b & r & b' & Hc & _). rewrite Forall_forall in Ht. exact (tidy_not_cut [] o b r b' Hs (Ht _ (cut_batch _ _ _ _ Hc)) Hc).
  Qed.
  Lemma all_kept_told fuel path il o r : linux_watch s fuel path il [] = (o, r) -> steady e [] o -> Forall tidy (gw_batches (gstate e o)) ->
    forall i n k d, In (Did i n k d true) (gw_log (gstate e o)) -> mentioned e [] o i n \/ still_pending (gstate e o) i n k d.
  Proof.
    intros E Hst Ht i n k d Hin. destruct (all_accounted fuel path il o r E i n k d Hin) as [H|[H|H]]; [now left|now right|]. destruct (steady_not_cut o i n k d Hst Ht H).
  Qed.
  (** Where no directory is removed. *)
  Lemma steady_all_there o : forallb (fun k => forallb (fun d => snd d) (gw_dirs (gat_call e (firstn k o)))) (seq 0 (S (length o))) = true -> steady e [] o.
  Proof.
    intros H a fd rd b y Eo _ _ r Hr. rewrite forallb_forall in H. cbn [app] in *. set (t := a ++ ORead fd rd :: b).
    assert (Ht : firstn (length t) o = t).
    { unfold t. rewrite Eo. replace (a ++ ORead fd rd :: b ++ y) with ((a ++ ORead fd rd :: b) ++ y) by (rewrite <- app_assoc; reflexivity).
      rewrite firstn_app, Nat.sub_diag, firstn_all, firstn_O. apply app_nil_r. }
    assert (Hl : (length t <= length o)%nat) by (rewrite <- Ht, firstn_length; lia).
    specialize (H (length t) ltac:(apply in_seq; lia)). rewrite Ht in H. rewrite forallb_forall in H.
    set (w0 := gstate e (a ++ [ORead fd rd])) in *. assert (Hw0 : gfine w0) by (apply gstate_fine, He).
    assert (Hg : grec (length (gw_dirs w0)) r).
    { apply (gf_recs w0 Hw0), in_or_app. left. apply in_concat. exists (last (gw_batches w0) []). split; [|exact Hr].
      destruct (gw_batches w0) as [|x l] using rev_ind; [destruct Hr|]. rewrite last_last. apply in_or_app. right. now left. }
    assert (Hage : ages (gw_dirs w0) (gw_dirs (gat_call e t))).
    { destruct (gstate_later e (a ++ [ORead fd rd]) b) as [Ha _]. fold w0 in Ha. replace ((a ++ [ORead fd rd]) ++ b) with t in Ha by (unfold t; rewrite <- app_assoc; reflexivity).
      destruct (gcall_later e t) as [[Hc _] _]. now apply (ages_trans _ _ _ Ha). }
    pose proof (gr_lt _ _ Hg) as Hlt. destruct Hage as [_ Hage].
    destruct (nth_error (gw_dirs w0) (N.to_nat (rec_dir r))) as [p|] eqn:Ep; [|apply nth_error_None in Ep; lia].
    destruct (Hage _ _ Ep) as ([q live] & Eq & _). exists q. unfold gdir. rewrite Eq. f_equal. f_equal. apply (H (q, live)). now apply nth_error_In in Eq.
  Qed.
End Run.

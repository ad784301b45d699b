(** Lemmas about the environment of [FanDeepSpec]: what is true of every state. *)
From Verif Require Import Base EventModel Sys SysFacts WatchFacts InotifySpec InotifyRun FanotifySpec FanotifyFacts FanWorldSpec FanWorldFacts FanDeepSpec.

(** A record of the world: its directory has (or had) the number, its name is sound. *)
Record grec (count : nat) (r : frec) : Prop := {
  gr_lt : (rec_dir r < N.of_nat count)%N;
  gr_handle : f_handle r = le_bytes 8 (rec_dir r);
  gr_type : f_htype r = 1%N;
  gr_name : exists p, sound_name p (f_name r) = true;
  gr_pad : f_pad r = (4 - Nat.modulo (length (f_name r)) 4)%nat;
  gr_fsid : f_fsid r = repeat 1%N 8;
  gr_kinds : f_kinds r <> [] }.
Definition gall (w : gworld) : list fan := concat (gw_batches w) ++ gw_queue w.
Record gfine (w : gworld) : Prop := {
  gf_paths : Forall (fun d => fst d <> []) (gw_dirs w);
  gf_count : (N.of_nat (length (gw_dirs w)) <= 2 ^ 63)%N;
  gf_recs : forall r, In (Chg r) (gall w) -> grec (length (gw_dirs w)) r;
  gf_log : forall r k, In (Chg r) (gall w) -> has k r = true -> In (Did (rec_dir r) (f_name r) k (f_dir r) true) (gw_log w);
  gf_told : forall i n k d, In (Did i n k d true) (gw_log w) -> exists r, In (Chg r) (gall w) /\ rec_dir r = i /\ f_name r = n /\ has k r = true /\ f_dir r = d;
  gf_batches : forall b, In b (gw_batches w) -> b <> [] /\ (length (fencode b) < N.to_nat 4096)%nat }.

Lemma grec_ok c r : grec c r -> frec_ok r /\ (f_len r <= 4095)%nat /\ (0 < f_len r)%nat.
Proof.
  intros [H1 H2 H3 (p & H4) H5 H6 H7]. apply sound_name_facts in H4 as (Hn1 & Hn2 & Hn3 & Hn4 & Hn5).
  assert (Hl : f_len r = (52 + (length (f_name r) + (4 - Nat.modulo (length (f_name r)) 4)))%nat).
  { unfold f_len. rewrite H2, H5, le_bytes_len. lia. }
  pose proof (Nat.mod_upper_bound (length (f_name r)) 4 ltac:(lia)) as Hm. pose proof (Nat.div_mod (length (f_name r)) 4 ltac:(lia)) as Hd.
  split; [|lia]. split.
  - rewrite H6. reflexivity.
  - exact Hn3.
  - rewrite H5. lia.
  - exists (14 + Nat.div (length (f_name r)) 4)%nat. lia.
  - lia.
  - exact H7.
Qed.
Lemma grec_more c c' r : (c <= c')%nat -> grec c r -> grec c' r.
Proof. intros H []. split; auto. lia. Qed.

(** ** Joining *)
Lemma gjoin_in q r x : In (Chg x) (gjoin q r) -> In (Chg x) q \/ x = r \/ exists y, In (Chg y) q /\ joins y r = true /\ x = joined y r.
Proof.
  induction q as [|[y|] q IH]; cbn [gjoin].
  - intros [[= <-]|[]]. auto.
  - destruct (joins y r) eqn:E.
    + intros [[= <-]|H]; [right; right; exists y; cbn; auto|left; now right].
    + intros [[= <-]|H]; [left; now left|]. destruct (IH H) as [?|[?|(z & ? & ? & ?)]]; [left; now right|auto|]. right. right. exists z. cbn. auto.
  - intros [H|H]; [discriminate|]. destruct (IH H) as [?|[?|(z & ? & ? & ?)]]; [left; now right|auto|]. right. right. exists z. cbn. auto.
Qed.
Lemma gjoin_has q r x k : In (Chg x) q -> has k x = true ->
  exists y, In (Chg y) (gjoin q r) /\ has k y = true /\ f_handle y = f_handle x /\ f_name y = f_name x /\ f_dir y = f_dir x.
Proof.
  induction q as [|[z|] q IH]; [intros []| |]; cbn [gjoin].
  - intros [[= ->]|H] Hk.
    + destruct (joins x r) eqn:E.
      * exists (joined x r). split; [now left|]. split; [rewrite has_joined, Hk; reflexivity|]. auto.
      * exists x. split; [now left|]. auto.
    + destruct (joins z r) eqn:E.
      * exists x. split; [now right|]. auto.
      * destruct (IH H Hk) as (y & Hy & H'). exists y. split; [now right|]. exact H'.
  - intros [H|H] Hk; [discriminate|]. destruct (IH H Hk) as (y & Hy & H'). exists y. split; [now right|]. exact H'.
Qed.
Lemma gjoin_new q r k : has k r = true ->
  exists y, In (Chg y) (gjoin q r) /\ has k y = true /\ f_handle y = f_handle r /\ f_name y = f_name r /\ f_dir y = f_dir r.
Proof.
  intros Hk. induction q as [|[z|] q IH]; cbn [gjoin].
  - exists r. split; [now left|]. auto.
  - destruct (joins z r) eqn:E.
    + exists (joined z r). split; [now left|]. split; [rewrite has_joined, Hk; apply orb_true_r|]. apply joins_facts in E. exact E.
    + destruct IH as (y & Hy & H'). exists y. split; [now right|]. exact H'.
  - destruct IH as (y & Hy & H'). exists y. split; [now right|]. exact H'.
Qed.
Lemma grec_joined c y r : grec c y -> joins y r = true -> grec c (joined y r).
Proof.
  intros [] Hj. split; auto. intros E.
  assert (Hk : exists k, has k y = true).
  { destruct (f_kinds y) as [|k ks] eqn:Ek; [congruence|]. exists k. rewrite has_like, Ek. destruct k; reflexivity. }
  destruct Hk as (k & Hk). assert (Hk' : has k (joined y r) = true) by (rewrite has_joined, Hk; reflexivity). rewrite has_like, E in Hk'. discriminate.
Qed.

(** ** Numbers *)
Lemma number_in_lt p : forall dirs i j, number_in p i dirs = Some j -> (i <= j)%N /\ (j < i + N.of_nat (length dirs))%N.
Proof.
  induction dirs as [|[q t] dirs IH]; intros i j; cbn [number_in length]; [discriminate|].
  destruct (t && text_eqb p q); [intros [= <-]; lia|]. intros H. apply IH in H. lia.
Qed.
Lemma number_lt w p i : number w p = Some i -> (i < N.of_nat (length (gw_dirs w)))%N.
Proof. unfold number. intros H. apply number_in_lt in H. lia. Qed.

(** ** One record more *)
Lemma g_rec_dir pid i n k d : (i < 2 ^ 64)%N -> rec_dir (g_rec pid i n k d) = i.
Proof. intros H. unfold rec_dir, g_rec. cbn [f_handle]. apply le_word_bytes. exact H. Qed.
Lemma gpost_fine max pid w p n k d : gfine w -> sound_name p n = true -> gfine (gpost max pid w (p, n, k, d)).
Proof.
  intros Hw Hn. unfold gpost. destruct (number w p) as [i|] eqn:Ei; [|exact Hw]. destruct (existsb (N.eqb i) (gw_marks w)); [|exact Hw].
  pose proof Hw as [Hp Hc Hr Hl Ht Hb]. unfold gall in *. pose proof (number_lt w p i Ei) as Hi.
  destruct (max <=? length (gw_queue w))%nat; cbn [negb].
  - set (q := if existsb is_ovf (gw_queue w) then gw_queue w else gw_queue w ++ [Ovf]).
    assert (Hq : forall r, In (Chg r) q <-> In (Chg r) (gw_queue w)).
    { intros r. unfold q. destruct (existsb is_ovf (gw_queue w)); [tauto|]. rewrite in_app_iff. cbn. split; [intros [H|[H|[]]]; [exact H|discriminate]|auto]. }
    assert (Ha : forall r, In (Chg r) (concat (gw_batches w) ++ q) <-> In (Chg r) (concat (gw_batches w) ++ gw_queue w)) by (intros r; rewrite !in_app_iff, Hq; tauto).
    split; cbn [gw_dirs gw_log gw_batches]; auto.
    + intros r H. apply Hr, Ha, H.
    + intros r k' H Hk. apply in_or_app. left. apply Hl; [apply Ha, H|exact Hk].
    + intros i' n' k' d' H. apply in_app_or in H as [H|[H|[]]]; [|discriminate]. destruct (Ht _ _ _ _ H) as (r & H1 & H2). exists r. split; [apply Ha, H1|exact H2].
  - set (r0 := g_rec pid i n k d). assert (Ed : rec_dir r0 = i) by (apply g_rec_dir; lia).
    assert (Hr0 : grec (length (gw_dirs w)) r0).
    { split; try reflexivity; try (rewrite Ed; auto); [exists p; exact Hn|discriminate]. }
    split; cbn [gw_dirs gw_log gw_batches]; auto; unfold gall; cbn [gw_batches gw_queue].
    + intros r H. apply in_app_or in H as [H|H]; [apply Hr, in_or_app; now left|].
      apply gjoin_in in H as [H|[->|(y & Hy & Hj & ->)]]; [apply Hr, in_or_app; now right|exact Hr0|]. apply grec_joined; [|exact Hj]. apply Hr, in_or_app. now right.
    + intros r k' H Hk. apply in_or_app. apply in_app_or in H as [H|H]; [left; apply Hl; [apply in_or_app; now left|exact Hk]|].
      assert (Hnew : forall k1, has k1 r0 = true -> In (Did (rec_dir r0) (f_name r0) k1 (f_dir r0) true) [Did i n k d true]).
      { intros k1 H1. rewrite Ed. left. cbn. destruct k, k1; try discriminate H1; reflexivity. }
      apply gjoin_in in H as [H|[->|(y & Hy & Hj & ->)]].
      * left. apply Hl; [apply in_or_app; now right|exact Hk].
      * right. now apply Hnew.
      * rewrite has_joined, orb_true_iff in Hk. change (rec_dir (joined y r0)) with (rec_dir y). change (f_name (joined y r0)) with (f_name y). change (f_dir (joined y r0)) with (f_dir y).
        destruct Hk as [Hk|Hk]; [left; apply Hl; [apply in_or_app; now right|exact Hk]|]. right. apply joins_facts in Hj as (E1 & E2 & E3).
        unfold rec_dir. rewrite E1, E2, E3. exact (Hnew k' Hk).
    + intros i' n' k' d' H. apply in_app_or in H as [H|[H|[]]].
      * destruct (Ht _ _ _ _ H) as (r & H1 & H2 & H3 & H4 & H5). apply in_app_or in H1 as [H1|H1]; [exists r; split; [apply in_or_app; now left|auto]|].
        destruct (gjoin_has _ r0 r k' H1 H4) as (y & Hy & Hk & E1 & E2 & E3). exists y. split; [apply in_or_app; now right|].
        unfold rec_dir in *. rewrite E1, E2, E3. auto.
      * injection H as <- <- <- <-. destruct (gjoin_new (gw_queue w) r0 k) as (y & Hy & Hk & E1 & E2 & E3).
        { rewrite has_like. cbn. destruct k; reflexivity. }
        exists y. split; [apply in_or_app; now right|]. unfold rec_dir in *. rewrite E1, E2, E3. auto.
Qed.
Lemma gpost_same max pid w t : gw_dirs (gpost max pid w t) = gw_dirs w /\ gw_batches (gpost max pid w t) = gw_batches w /\ exists l, gw_log (gpost max pid w t) = gw_log w ++ l.
Proof.
  destruct t as [[[p n] k] d]. unfold gpost. destruct (number w p) as [i|]; [|split; [reflexivity|split; [reflexivity|exists []; now rewrite app_nil_r]]].
  destruct (existsb (N.eqb i) (gw_marks w)); [|split; [reflexivity|split; [reflexivity|exists []; now rewrite app_nil_r]]]. cbn. eauto.
Qed.
Lemma gposts_same max pid ts : forall w, let w' := fold_left (gpost max pid) ts w in gw_dirs w' = gw_dirs w /\ gw_batches w' = gw_batches w /\ exists l, gw_log w' = gw_log w ++ l.
Proof.
  induction ts as [|t ts IH]; intros w; cbn [fold_left]; [split; [reflexivity|split; [reflexivity|exists []; now rewrite app_nil_r]]|].
  destruct (IH (gpost max pid w t)) as (H1 & H2 & l & H3). destruct (gpost_same max pid w t) as (H4 & H5 & l' & H6). cbv zeta in *.
  rewrite H1, H2, H3, H4, H5, H6. split; [reflexivity|]. split; [reflexivity|]. exists (l' ++ l). now rewrite app_assoc.
Qed.
Lemma gposts_fine max pid ts : Forall (fun t => sound_name (fst (fst (fst t))) (snd (fst (fst t))) = true) ts ->
  forall w, gfine w -> gfine (fold_left (gpost max pid) ts w).
Proof.
  induction 1 as [|[[[p n] k] d] ts H _ IH]; intros w Hw; cbn [fold_left]; [exact Hw|]. apply IH, gpost_fine; [exact Hw|exact H].
Qed.

(** ** A change *)
(** Which directories there are: numbers stay, what is gone stays gone. *)
Definition ages (l l' : list (text * bool)) : Prop := (length l <= length l')%nat /\
  forall i p, nth_error l i = Some p -> exists p', nth_error l' i = Some p' /\ (snd p = false -> p' = p).
Lemma ages_refl l : ages l l.
Proof. split; [lia|]. intros i p H. eauto. Qed.
Lemma ages_trans a b c : ages a b -> ages b c -> ages a c.
Proof.
  intros [L1 H1] [L2 H2]. split; [lia|]. intros i p H. destruct (H1 i p H) as (p' & E & F). destruct (H2 i p' E) as (p'' & E' & F').
  exists p''. split; [exact E'|]. intros Hf. rewrite <- (F Hf). apply F'. now rewrite (F Hf).
Qed.
Lemma ages_map (f : text * bool -> text * bool) l : (forall p, snd p = false -> f p = p) -> ages l (map f l).
Proof.
  intros Hf. split; [now rewrite map_length|]. intros i p H. exists (f p). split; [now apply map_nth_error|]. apply Hf.
Qed.
Lemma gdirs_age w o : ages (gw_dirs w) (gdirs_then w o).
Proof.
  destruct o as [pid [|] p n|pid p n|pid p n|pid p n|pid [|] p n q m]; cbn [gdirs_then]; try apply ages_refl.
  - split; [rewrite app_length; lia|]. intros i x H. exists x. split; [|reflexivity]. rewrite nth_error_app1; [exact H|]. apply nth_error_Some. congruence.
  - apply ages_map. intros [x t] H. cbn in H. subst t. cbn [fst]. destruct (text_eqb _ _); reflexivity.
  - apply ages_map. intros [x t] H. cbn in H. subst t. reflexivity.
Qed.
Lemma touches_names w o : gmay w o = true -> Forall (fun t => sound_name (fst (fst (fst t))) (snd (fst (fst t))) = true) (gtouches o).
Proof.
  destruct o as [pid d p n|pid p n|pid p n|pid p n|pid d p n q m]; cbn [gmay gtouches]; rewrite !andb_true_iff; intros H;
    repeat match goal with H : _ /\ _ |- _ => destruct H end; repeat (constructor; [assumption|]); constructor.
Qed.
Lemma relocated_ne p n q m x : relocated (at_path p n) (at_path q m) x <> [] \/ x = [].
Proof. unfold relocated. destruct (at_or_in _ _); [left; unfold at_path; destruct q; discriminate|]. destruct x; [now right|left; discriminate]. Qed.
Lemma ghappen_fine max w o : gfine w -> gfine (ghappen max w o).
Proof.
  intros Hw. unfold ghappen. destruct (gmay w o) eqn:Hm; [|exact Hw].
  pose proof (gposts_fine max (gpid o) _ (touches_names w o Hm) w Hw) as Hf. destruct (gposts_same max (gpid o) (gtouches o) w) as (E1 & E2 & _).
  set (w1 := fold_left (gpost max (gpid o)) (gtouches o) w) in *. destruct Hf as [F1 F2 F3 F4 F5 F6]. unfold gall in *. rewrite E1, E2 in *.
  destruct (gdirs_age w o) as [Hl _].
  split; cbn [gw_dirs gw_batches gw_log gall]; unfold gall; cbn [gw_queue gw_batches]; auto.
  - clear -F1. destruct o as [pid [|] p n|pid p n|pid p n|pid p n|pid [|] p n q m]; cbn [gdirs_then]; try exact F1.
    + apply Forall_app. split; [exact F1|]. constructor; [unfold at_path; destruct p; discriminate|constructor].
    + apply Forall_map. eapply Forall_impl; [|exact F1]. intros [x t]. cbn [fst]. destruct (text_eqb _ _); auto.
    + apply Forall_map. eapply Forall_impl; [|exact F1]. intros [x [|]]; cbn [fst snd]; auto. intros Hx. destruct (relocated_ne p n q m x); congruence.
  - destruct o as [pid [|] p n|pid p n|pid p n|pid p n|pid [|] p n q m]; cbn [gdirs_then]; try rewrite map_length; try exact F2.
    cbn [gmay] in Hm. rewrite !andb_true_iff in Hm. destruct Hm as (_ & Hm). apply N.ltb_lt in Hm. rewrite app_length. cbn [length]. lia.
  - intros r H. eapply grec_more; [exact Hl|now apply F3].
Qed.
Lemma ghappens_fine max os : forall w, gfine w -> gfine (ghappens max w os).
Proof. induction os as [|o os IH]; intros w Hw; [exact Hw|]. apply IH, ghappen_fine, Hw. Qed.

(** ** Calls *)
Lemma gmarking_fine mine deny m w p : gfine w -> gfine (snd (gmarking mine deny m w p)).
Proof.
  intros Hw. unfold gmarking. destruct (number w p); [|exact Hw]. destruct (negb mine || deny); [exact Hw|]. cbn [snd]. destruct (asks m); [|exact Hw].
  destruct Hw. split; auto.
Qed.
Lemma gfitting_len : forall n q room, (N.of_nat (length (fencode (firstn (gfitting room n q) q))) <= room)%N.
Proof.
  induction n as [|n IH]; intros [|x q] room; cbn [gfitting firstn]; try (cbn; lia).
  destruct (N.leb_spec (N.of_nat (length (fencode_rec x))) room) as [Hle|]; [|cbn; lia]. cbn [firstn]. rewrite fencode_cons, app_length.
  specialize (IH q (room - N.of_nat (length (fencode_rec x)))%N). lia.
Qed.
Lemma greading_fine mine want w : gfine w -> gfine (snd (greading mine want w)).
Proof.
  intros Hw. unfold greading. destruct mine; [|exact Hw]. destruct (gw_queue w) as [|x q] eqn:Eq; [exact Hw|]. cbn [snd].
  set (k := gfitting 4095 (S want) (x :: q)). rewrite <- Eq in *.
  assert (Hall : gall (GWorld (gw_dirs w) (gw_files w) (gw_marks w) (skipn k (gw_queue w)) (gw_batches w ++ [firstn k (gw_queue w)]) (gw_log w)) = gall w).
  { unfold gall. cbn [gw_queue gw_batches]. rewrite concat_app. cbn [concat]. now rewrite app_nil_r, <- app_assoc, firstn_skipn. }
  pose proof Hw as [H1 H2 H3 H4 H5 H6]. split; cbn [gw_dirs gw_log gw_batches]; rewrite ?Hall; auto.
  intros b Hb. apply in_app_or in Hb as [Hb|[<-|[]]]; [now apply H6|]. split.
  - unfold k. rewrite Eq. cbn [gfitting].
    assert (Hl : (length (fencode_rec x) <= 4095)%nat).
    { destruct x as [r|]; [|cbn; lia]. destruct (grec_ok _ r (H3 r ltac:(unfold gall; apply in_or_app; right; rewrite Eq; now left))) as (Hok & Hl & _). pose proof (flen_chg r Hok) as Hf. unfold flen in Hf. lia. }
    destruct (N.leb_spec (N.of_nat (length (fencode_rec x))) 4095); [discriminate|lia].
  - pose proof (gfitting_len (S want) (gw_queue w) 4095) as Hl. rewrite Eq in Hl at 1. fold k in Hl. lia.
Qed.

(** ** States *)
Lemma gstate_snoc e tr x : gstate e (tr ++ [x]) =
  match x with
  | OFanMark fd p m _ => snd (gmarking (fd =? ge_fd e)%Z (ge_deny e tr) m (gat_call e tr) p)
  | ORead fd _ => snd (greading (fd =? ge_fd e)%Z (ge_want e tr) (gat_call e tr))
  | _ => gat_call e tr
  end.
Proof. unfold gstate, gat_call. rewrite rev_app_distr. cbn [rev app gstate_rev]. rewrite rev_involutive. reflexivity. Qed.

Section States.
  Variable e : genv.
  Hypothesis He : genv_ok e.
  Lemma gstate_fine tr : gfine (gstate e tr).
  Proof.
    induction tr as [|x tr IH] using rev_ind.
    - unfold gstate. cbn [rev gstate_rev]. destruct (gv_start e He) as (dirs & files & -> & Hd & Hl). split; cbn; try (intros; contradiction).
      + apply Forall_map. eapply Forall_impl; [|exact Hd]. intros d [H _]. exact H.
      + now rewrite map_length.
    - rewrite gstate_snoc. assert (Ha : gfine (gat_call e tr)) by (apply ghappens_fine, IH).
      destruct x; try exact Ha; [now apply gmarking_fine|now apply greading_fine].
  Qed.
  Lemma gat_call_fine tr : gfine (gat_call e tr).
  Proof. apply ghappens_fine, gstate_fine. Qed.
  Definition glater (w w' : gworld) : Prop := ages (gw_dirs w) (gw_dirs w') /\ exists more, gw_log w' = gw_log w ++ more.
  Lemma glater_refl w : glater w w.
  Proof. split; [apply ages_refl|]. exists []. now rewrite app_nil_r. Qed.
  Lemma glater_trans a b c : glater a b -> glater b c -> glater a c.
  Proof. intros [A1 [l1 F1]] [A2 [l2 F2]]. split; [now apply (ages_trans _ _ _ A1)|]. exists (l1 ++ l2). now rewrite F2, F1, app_assoc. Qed.
  Lemma ghappen_later max w o : glater w (ghappen max w o) /\ gw_batches (ghappen max w o) = gw_batches w.
  Proof.
    unfold ghappen. destruct (gmay w o); [|split; [apply glater_refl|reflexivity]]. split; [|reflexivity].
    destruct (gposts_same max (gpid o) (gtouches o) w) as (_ & _ & l & E). split; cbn [gw_dirs gw_log]; [apply gdirs_age|exists l; exact E].
  Qed.
  Lemma ghappens_later max os : forall w, glater w (ghappens max w os) /\ gw_batches (ghappens max w os) = gw_batches w.
  Proof.
    induction os as [|o os IH]; intros w; [split; [apply glater_refl|reflexivity]|]. unfold ghappens. cbn [fold_left]. fold (ghappens max (ghappen max w o) os).
    destruct (IH (ghappen max w o)) as [H1 H2]. destruct (ghappen_later max w o) as [H3 H4]. split; [now apply (glater_trans _ _ _ H3)|congruence].
  Qed.
  Lemma gmarking_later mine deny m w p : glater w (snd (gmarking mine deny m w p)) /\ gw_batches (snd (gmarking mine deny m w p)) = gw_batches w.
  Proof.
    unfold gmarking. destruct (number w p); [|split; [apply glater_refl|reflexivity]]. destruct (negb mine || deny); [split; [apply glater_refl|reflexivity]|].
    cbn [snd]. destruct (asks m); (split; [|reflexivity]); [|apply glater_refl]. split; [apply ages_refl|]. exists []. cbn. now rewrite app_nil_r.
  Qed.
  Lemma greading_later mine want w : glater w (snd (greading mine want w)).
  Proof. unfold greading. destruct mine; [|apply glater_refl]. destruct (gw_queue w); [apply glater_refl|]. split; [apply ages_refl|]. exists []. cbn. now rewrite app_nil_r. Qed.
  Lemma gcall_later tr : glater (gstate e tr) (gat_call e tr) /\ gw_batches (gat_call e tr) = gw_batches (gstate e tr).
  Proof. apply ghappens_later. Qed.
  Lemma gstep_later tr x : glater (gat_call e tr) (gstate e (tr ++ [x])).
  Proof. rewrite gstate_snoc. destruct x; try apply glater_refl; [apply gmarking_later|apply greading_later]. Qed.
  Lemma gstate_later tr t : glater (gstate e tr) (gstate e (tr ++ t)).
  Proof.
    induction t as [|x t IH] using rev_ind; [rewrite app_nil_r; apply glater_refl|]. rewrite app_assoc. apply (glater_trans _ _ _ IH).
    destruct (gcall_later (tr ++ t)) as [H _]. apply (glater_trans _ _ _ H). apply gstep_later.
  Qed.
  Lemma gat_call_later tr t : glater (gat_call e tr) (gat_call e (tr ++ t)).
  Proof.
    induction t as [|x t IH] using rev_ind; [rewrite app_nil_r; apply glater_refl|]. rewrite app_assoc. apply (glater_trans _ _ _ IH).
    apply (glater_trans _ _ _ (gstep_later (tr ++ t) x)). apply gcall_later.
  Qed.
  Lemma gstate_batches tr t : Forall no_read t -> gw_batches (gstate e (tr ++ t)) = gw_batches (gstate e tr).
  Proof.
    induction t as [|x t IH] using rev_ind; intros H; [now rewrite app_nil_r|]. apply Forall_app in H as [Ht Hx]. inversion Hx; subst.
    rewrite app_assoc, gstate_snoc, <- (IH Ht). destruct (gcall_later (tr ++ t)) as [_ E]. destruct x; try exact E; [|contradiction].
    rewrite <- E. apply gmarking_later.
  Qed.
End States.

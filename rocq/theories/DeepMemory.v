(** What the inotify adapter remembers, on the kernel of [DeepSpec]: lemmas. *)
From Verif Require Import Base PathModel EventModel Sys SysFacts LinuxModel InotifyModel FanotifyModel LinuxWatch
  LinuxSpec LinuxFacts LinuxRun LinuxProps LinuxChoice InotifySpec InotifyFacts InotifyRun KernelSpec KernelFacts KernelRun
  DeepSpec DeepFacts DeepRun DeepLog DeepWatch MemoryRun.

(** ** The end of a directory is told, unless the record is lost *)
Lemma post_has max x s q : In x q -> In x (fst (post max q s)).
Proof.
  intros H. destruct (post_cases max q s) as [(f & -> & _)|[->| ->]]; cbn [fst]; [exact H|apply in_app_iff; now left..].
Qed.
Lemma posts_has max x l : forall q, In x q -> In x (fst (posts max q l)).
Proof.
  induction l as [|s l IH]; intros q H; [exact H|]. cbn [posts]. pose proof (post_has max x s q H) as Hp. destruct (post max q s) as [q1 f].
  specialize (IH q1 Hp). destruct (posts max q1 l) as [q2 fs]. exact IH.
Qed.
Lemma posts_or_lost max s l : is_modify (fst s) = false -> forall q, In s l ->
  In s (fst (posts max q l)) \/ (0 < length (filter is_lost (snd (posts max q l))))%nat.
Proof.
  intros Hm. induction l as [|x l IH]; intros q H; [destruct H|]. cbn [posts]. destruct H as [->|H].
  - assert (P : In s (fst (post max q s)) \/ (0 < length (filter is_lost (snd (post max q s))))%nat).
    { unfold post. destruct (_ <=? _)%nat; [destruct (existsb _ _); right; cbn; lia|]. destruct (rev q); [left; apply in_app_iff; right; now left|].
      rewrite Hm, andb_false_r. left. apply in_app_iff. right. now left. }
    destruct (post max q s) as [q1 f]. cbn [fst snd] in P. destruct P as [P|P].
    + left. pose proof (posts_has max s l q1 P) as X. destruct (posts max q1 l). exact X.
    + right. destruct (posts max q1 l) as [q2 fs]. cbn [snd]. rewrite filter_app, app_length. lia.
  - destruct (post max q x) as [q1 f]. destruct (IH q1 H) as [P|P]; destruct (posts max q1 l) as [q2 fs]; cbn [fst snd] in *; [now left|right].
    rewrite filter_app, app_length. lia.
Qed.

Lemma rmdir_or_not o : (exists p n b, o = DRmdir p n b) \/ ~ (exists p n b, o = DRmdir p n b).
Proof. destruct o; try (right; intros (? & ? & ? & [=]); fail). left. eauto. Qed.
Definition gone_or_lost (k : dkern) (l : list Z) : Prop :=
  (forall wd P, In (wd, P) (dk_given k) -> (exists p, In (p, Some wd) (dk_dirs k)) \/ ended (everything k) wd \/ In wd l) /\ (length l <= losses k)%nat.
Lemma gone_start D F : gone_or_lost (dk_start D F) [].
Proof. split; [intros wd P []|apply le_n]. Qed.
Lemma losses_more D F n c q g r lg o f : losses (DK D F n c q g r (lg ++ [(o, f)])) = (length (filter is_lost (flat_map snd lg)) + length (filter is_lost f))%nat.
Proof. unfold losses, recorded. cbn [dk_log]. rewrite flat_map_app, filter_app, app_length. cbn [flat_map snd]. now rewrite app_nil_r. Qed.
Lemma gone_happen max k o : uniq k -> (exists l, gone_or_lost k l) -> exists l, gone_or_lost (dhappen max k o) l.
Proof.
  intros U (l & H1 & H2). unfold dhappen. destruct (dlegal k o) eqn:L; [|exists l; now split].
  assert (Q : forall wd, ended (everything k) wd -> ended (dk_read k ++ fst (posts max (dk_queue k) (drecords k o))) wd).
  { intros wd (x & Hx & X). exists x. split; [|exact X]. unfold everything in Hx. apply in_app_iff in Hx as [Hx|Hx]; apply in_app_iff; [now left|right]. now apply posts_has. }
  destruct (rmdir_or_not o) as [(p & n & b & ->)|Ho].
  - assert (Hc : forall wd, wd_at k (entry p n) = Some wd -> ended (dk_read k ++ fst (posts max (dk_queue k) (drecords k (DRmdir p n b)))) wd \/
      (0 < length (filter is_lost (snd (posts max (dk_queue k) (drecords k (DRmdir p n b))))))%nat).
    { intros wd Hw. assert (Hs : In (rec_of wd KDeleteSelf true 0 [], Itself) (drecords k (DRmdir p n b))).
      { assert (A : on_watch k (entry p n) KDeleteSelf true 0 [] (fun _ => Itself) = [(rec_of wd KDeleteSelf true 0 [], Itself)]) by (unfold on_watch; now rewrite Hw).
        cbn [drecords]. rewrite A. destruct b; rewrite !in_app_iff; cbn; auto. }
      destruct (posts_or_lost max (rec_of wd KDeleteSelf true 0 [], Itself) (drecords k (DRmdir p n b)) eq_refl (dk_queue k) Hs) as [X|X]; [left|now right].
      exists (rec_of wd KDeleteSelf true 0 [], Itself). split; [apply in_app_iff; now right|split; reflexivity]. }
    destruct (posts max (dk_queue k) (drecords k (DRmdir p n b))) as [q f]. cbn [fst snd] in *.
    assert (Old : forall wd P, In (wd, P) (dk_given k) -> (exists p', In (p', Some wd) (ddirs_after k (DRmdir p n b))) \/ wd_at k (entry p n) = Some wd \/ ended (everything k) wd \/ In wd l).
    { intros wd P Hg. destruct (H1 wd P Hg) as [(p' & Hp)|X]; [|now right; right]. destruct (text_eqb p' (entry p n)) eqn:E.
      - apply text_eqb_eq in E. subst p'. right. left. now apply uniq_wd.
      - left. exists p'. cbn [ddirs_after]. apply filter_In. split; [exact Hp|]. cbn [fst]. now rewrite E. }
    destruct (wd_at k (entry p n)) as [w|] eqn:W.
    + destruct (Hc w eq_refl) as [He|Hl].
      * exists l. split; [|rewrite losses_more; unfold losses, recorded in H2; lia]. intros wd P Hg. cbn [dk_given dk_dirs] in *. unfold everything. cbn [dk_read dk_queue].
        destruct (Old wd P Hg) as [X|[[= <-]|[X|X]]]; [now left|right; left; exact He|right; left; now apply Q|now right; right].
      * exists (w :: l). split; [|rewrite losses_more; unfold losses, recorded in H2; cbn [length]; lia]. intros wd P Hg. cbn [dk_given dk_dirs] in *. unfold everything. cbn [dk_read dk_queue].
        destruct (Old wd P Hg) as [X|[[= <-]|[X|X]]]; [now left|right; right; now left|right; left; now apply Q|right; right; now right].
    + exists l. split; [|rewrite losses_more; unfold losses, recorded in H2; lia]. intros wd P Hg. cbn [dk_given dk_dirs] in *. unfold everything. cbn [dk_read dk_queue].
      destruct (Old wd P Hg) as [X|[[=]|[X|X]]]; [now left|right; left; now apply Q|now right; right].
  - destruct (posts max (dk_queue k) (drecords k o)) as [q f]. cbn [fst] in Q. exists l. split; [|rewrite losses_more; unfold losses, recorded in H2; lia].
    intros wd P Hg. cbn [dk_given dk_dirs] in *. unfold everything. cbn [dk_read dk_queue]. destruct (H1 wd P Hg) as [X|[X|X]]; [left|right; left; now apply Q|now right; right].
    apply (dirs_kept k o wd); [|exact X]. intros q0 n0 b0 ->. apply Ho. eauto.
Qed.
Lemma gone_marking d k p : uniq k -> (exists l, gone_or_lost k l) -> exists l, gone_or_lost (snd (dmarking d k p)) l.
Proof.
  intros U (l & H1 & H2). pose proof (mark_in d k p) as Mi. unfold dmarking in *. destruct (negb d && dir_at k p) eqn:C; [|exists l; now split]. destruct (wd_at k p) eqn:W; [exists l; now split|].
  destruct (dk_next k <? 2147483648)%Z; [|exists l; now split]. exists l. cbn [snd] in *. split; [|exact H2]. intros wd P Hg. cbn [dk_given] in Hg. apply in_app_iff in Hg as [Hg|[[= <- <-]|[]]].
  - destruct (H1 wd P Hg) as [(q & Hq)|X]; [left|right; exact X]. exists q. now apply Mi.
  - left. apply andb_true_iff in C as [_ C]. apply dir_at_iff in C. apply in_map_iff in C as ([q w] & E & C). cbn [fst] in E. subst q.
    exists p. cbn [dk_dirs]. apply in_map_iff. exists (p, w). split; [|exact C]. cbn [fst]. now rewrite text_eqb_refl.
Qed.
Lemma gone_reading m w k : (exists l, gone_or_lost k l) -> exists l, gone_or_lost (snd (dreading m w k)) l.
Proof.
  intros (l & H1 & H2). unfold dreading. destruct (dk_queue k) as [|x q] eqn:E; [exists l; now split|]. destruct (negb m); [exists l; now split|]. set (c := fitting _ _ _). cbn [snd].
  exists l. split; [|exact H2]. intros wd P Hg. cbn [dk_given dk_dirs] in *. destruct (H1 wd P Hg) as [X|[X|X]]; [now left|right; left|now right; right].
  unfold everything in *. cbn [dk_read dk_queue]. rewrite <- app_assoc, firstn_skipn. now rewrite E in X.
Qed.

Section Env.
  Variable e : denv.
  Hypothesis start : exists dirs files, de_start e = dk_start dirs files.
  Notation s := (dsystem e).
  Notation G tr := (dk_given (dstate e tr)).
  Notation R tr := (dk_read (dstate e tr)).
  Lemma uniq_happens max os : forall k, uniq k -> uniq (dhappens max k os).
  Proof. induction os as [|o os IH]; intros k H; [exact H|]. cbn. apply IH. now apply uniq_happen. Qed.
  Lemma gone_happens max os : forall k, uniq k -> (exists l, gone_or_lost k l) -> exists l, gone_or_lost (dhappens max k os) l.
  Proof. induction os as [|o os IH]; intros k U H; [exact H|]. cbn. apply IH; [now apply uniq_happen|now apply gone_happen]. Qed.
  Lemma gone_state tr : uniq (dstate e tr) /\ exists l, gone_or_lost (dstate e tr) l.
  Proof.
    induction tr as [|x tr [IU IH]] using rev_ind.
    - destruct start as (d & f & E). unfold dstate. cbn. rewrite E. split; [apply uniq_start|exists []; apply gone_start].
    - rewrite dstate_snoc. assert (U : uniq (dat_call e tr)) by (unfold dat_call; now apply uniq_happens). assert (K : exists l, gone_or_lost (dat_call e tr) l) by (unfold dat_call; now apply gone_happens).
      destruct x; try (split; [exact U|exact K]); cbn [deffect].
      + unfold dadding. destruct (negb _); [now split|]. destruct (dasks_all _); [split; [now apply uniq_mark|now apply gone_marking]|now split].
      + split; [now apply uniq_read|now apply gone_reading].
  Qed.
  Lemma dnot_dead k wd p : kgood k -> In (p, Some wd) (dk_dirs k) -> ~ ended (everything k) wd.
  Proof. intros I H (r & Hr & K & <-). apply in_split in Hr as (x & y & E). destruct (di_dead _ _ _ _ _ (kg_inv _ I) x r y E K) as [D _]. exact (D p H). Qed.
  Lemma dmarking_watches d k p : (0 < fst (dmarking d k p))%Z -> In (p, Some (fst (dmarking d k p))) (dk_dirs (snd (dmarking d k p))).
  Proof.
    unfold dmarking. destruct (negb d && dir_at k p) eqn:C; [|cbn; lia]. apply andb_true_iff in C as [_ C]. destruct (wd_at k p) as [wd|] eqn:W; [intros _; now apply wd_at_in|].
    destruct (dk_next k <? 2147483648)%Z; [|cbn; lia]. intros _. cbn. apply dir_at_iff in C. apply in_map_iff in C as ([q w] & E & C). cbn [fst] in E. subst q.
    apply in_map_iff. exists (p, w). split; [|exact C]. cbn [fst]. now rewrite text_eqb_refl.
  Qed.
  Lemma dmarked_live o : forall tr known w q, danswers e tr o -> Forall no_read o -> knows (dstate e tr) known -> In (Marked w q) (items o) -> ~ ended (R tr) w.
  Proof.
    induction o as [|x o IH] using rev_ind; intros tr known w q Ha Hr K H; [destruct H|]. apply danswers_app in Ha as [Ha [Hx _]]. apply Forall_app in Hr as [Hr _].
    rewrite items_app in H. apply in_app_iff in H as [H|H]; [now apply (IH tr known w q)|].
    destruct x; cbn [items] in H; try (destruct H; fail); try (destruct H as [H|[]]; discriminate H).
    cbn [dagree] in Hx. destruct Hx as (-> & -> & Hx). destruct (Z.ltb_spec 0 wd) as [L|L]; [|destruct H]. destruct H as [[= <- _]|[]].
    destruct (seg e start o tr known Ha Hr K) as (ER & _ & EK).
    pose proof (dmarking_watches (de_deny e (tr ++ o)) (dat_call e (tr ++ o)) p) as W. rewrite <- Hx in W. specialize (W L).
    assert (KG : kgood (snd (dmarking (de_deny e (tr ++ o)) (dat_call e (tr ++ o)) p))) by (apply kgood_marking, (kgood_at e start)).
    pose proof (dnot_dead _ _ _ KG W) as D. intros (r & Hin & Hr2). apply D. exists r. split; [|exact Hr2]. unfold everything. apply in_app_iff. left.
    assert (X : dk_read (snd (dmarking (de_deny e (tr ++ o)) (dat_call e (tr ++ o)) p)) = dk_read (dat_call e (tr ++ o))).
    { unfold dmarking. destruct (_ && _); [|reflexivity]. destruct (wd_at _ _); [reflexivity|]. destruct (_ <? _)%Z; reflexivity. }
    rewrite X, (dat_read e), ER. exact Hin.
  Qed.
  Record dmem (tr : trace) (dm : zmap text) : Prop := {
    dmem_keys : keys dm;
    dmem_live : forall wd, zfind wd dm <> None -> ~ ended (R tr) wd }.
  Lemma dmem_quiet tr o dm known : danswers e tr o -> Forall no_read o -> knows (dstate e tr) known -> dmem tr dm -> dmem (tr ++ o) dm.
  Proof. intros Ha Hr K [M1 M2]. constructor; [exact M1|]. destruct (seg e start o tr known Ha Hr K) as (-> & _). exact M2. Qed.
  Lemma dmem_recv ke tr o ke' : kin_fd ke = de_fd e -> di e tr (fun k => zfind k (kin_dm ke)) -> dmem tr (kin_dm ke) -> in_recv s ke tr = (o, Ok (r_pending, ke')) -> dmem (tr ++ o) (kin_dm ke').
  Proof.
    intros Hfd A [M1 M2] E. destruct (dk_queue (dat_call e tr)) as [|r q] eqn:Q.
    - assert (Er : os_read s tr (kin_fd ke) in_buf_len = nothing).
      { cbn [os_read dsystem]. unfold dreading. rewrite Q. reflexivity. }
      unfold in_recv, bind, sys_read in E. rewrite Er in E. cbn [nothing rd_len rd_errno rd_bytes Z.ltb Z.compare andb negb Z.eqb Pos.eqb] in E. injection E as <- <-. cbn [kin_dm app].
      constructor; [exact M1|]. rewrite dstate_snoc. cbn [deffect]. unfold dreading. rewrite Q. cbn [snd]. rewrite (dat_read e). exact M2.
    - destruct (dreading_batch (de_want e tr) _ r q (kgood_at e start tr) Q) as (ss & B & H1 & H2 & HQ & HR & _ & _ & _).
      pose proof B as [Hok Hsz Hord].
      assert (Hsz' : (N.of_nat (length (encode (map fst ss))) <= in_buf_len)%N) by (unfold in_buf_len; lia).
      assert (Hrd : read_gives s ke tr (map fst ss)) by (unfold read_gives; cbn [os_read dsystem]; rewrite Hfd, dreading_ours; split; assumption).
      destruct (in_recv_batch s true ke tr (map fst ss) Hok Hsz' Hrd Hord (fun H => False_ind _ (diff_true_false H))) as (o' & ke2 & known' & E' & Hba & Hk). rewrite E in E'. injection E' as <- <-.
      destruct (in_recv_recs s ke tr (map fst ss) Hok Hsz' Hrd) as (o1 & dm' & E1 & ER). rewrite E in ER. injection ER as Eo Ek.
      set (x := ORead _ _) in *. rewrite Hfd in E1.
      pose proof (recs_run_no_read s (de_fd e) (map fst ss) (kin_dm ke) (tr ++ [x])) as Hnr. rewrite E1 in Hnr. cbn [fst] in Hnr.
      pose proof (dval_recs e (map fst ss) (kin_dm ke) (tr ++ [x])) as Hv. rewrite E1 in Hv. cbn [fst] in Hv.
      pose proof (dv_known _ _ _ A) as [K1 K2].
      assert (ES : dstate e (tr ++ [x]) = snd (dreading true (de_want e tr) (dat_call e tr))) by (rewrite dstate_snoc; cbn [deffect x]; now rewrite Hfd, dreading_ours).
      assert (Egx : G (tr ++ [x]) = G tr). { rewrite ES, <- (dat_given e). unfold dreading. rewrite Q. reflexivity. }
      assert (ERx : R (tr ++ [x]) = R tr ++ ss) by (rewrite ES, HR, (dat_read e); reflexivity).
      assert (Kx : knows (dstate e (tr ++ [x])) (fun k => zfind k (kin_dm ke))).
      { split; rewrite Egx; [exact K1|]. intros wd d H. destruct (K2 wd d H) as [H'|(y & Hy & H')]; [now left|right]. exists y. split; [rewrite ERx; apply in_app_iff; now left|exact H']. }
      destruct (seg e start o1 (tr ++ [x]) _ Hv Hnr Kx) as (ERd & _).
      assert (Eo' : tr ++ o = (tr ++ [x]) ++ o1) by (rewrite Eo, <- app_assoc; reflexivity). rewrite Eo'.
      constructor.
      + rewrite Ek. cbn [kin_dm]. apply keys_erase. eapply keys_recs; [exact M1|exact E1].
      + intros wd Hwd. rewrite ERd. rewrite Hk in Hwd. unfold forget_deleted in Hwd. destruct (existsb _ (map fst ss)) eqn:X; [congruence|].
        pose proof (batch_learn _ _ _ _ _ _ Hba) as HL. rewrite HL in Hwd.
        destruct (learn_all _ _ wd) as [d|] eqn:Ed; [|congruence]. apply learn_all_from in Ed as [Ed|Ed].
        * rewrite ERx. intros (r0 & Hr0 & K0 & W0). apply in_app_iff in Hr0 as [Hr0|Hr0].
          -- apply (M2 wd); [congruence|]. exists r0. auto.
          -- assert (Y : existsb (fun r => (k_wd r =? wd)%Z && match k_kind r with KDeleteSelf => true | _ => false end) (map fst ss) = true).
             { apply existsb_exists. exists (fst r0). split; [now apply in_map|]. rewrite W0, Z.eqb_refl, K0. reflexivity. }
             first [rewrite Y in X; discriminate X | congruence].
        * apply (dmarked_live o1 (tr ++ [x]) _ wd d Hv Hnr Kx). replace (items o1) with (items o) by (rewrite Eo; reflexivity). exact Ed.
  Qed.
  Lemma dmem_ready il : forall fds ok ke tr o ok' ke', kin_fd ke = de_fd e -> di e tr (fun k => zfind k (kin_dm ke)) -> dmem tr (kin_dm ke) ->
    each_ready kin kin_fd (in_recv s) il fds ok ke tr = (o, Ok (ok', ke')) ->
    kin_fd ke' = de_fd e /\ di e (tr ++ o) (fun k => zfind k (kin_dm ke')) /\ dmem (tr ++ o) (kin_dm ke').
  Proof.
    induction fds as [|fd fds IH]; intros ok ke tr o ok' ke' Hfd A Mm E; cbn [each_ready] in E.
    - injection E as <- <- <-. rewrite app_nil_r. auto.
    - destruct (fd =? il)%Z; [eapply IH; eauto|]. destruct (fd =? kin_fd ke)%Z; [|eapply IH; eauto].
      destruct (di_recv e start ke tr Hfd A) as (o1 & ke1 & E1 & F1 & A1). pose proof (dmem_recv _ _ _ _ Hfd A Mm E1) as M1.
      unfold bind in E. rewrite E1 in E. destruct (each_ready _ _ _ _ fds r_pending ke1 (tr ++ o1)) as [o2 r2] eqn:E2. injection E as <- ->.
      rewrite app_assoc. eapply IH; [exact F1|exact A1|exact M1|exact E2].
  Qed.
End Env.

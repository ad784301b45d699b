(** Which directories of the kernel of [KernelSpec] are watched: those there at the
    start, and those that were marked, until they are removed. *)
From Coq Require Permutation.
From Verif Require Import Base PathModel EventModel Sys SysFacts LinuxModel InotifyModel FanotifyModel LinuxWatch
  LinuxSpec LinuxFacts LinuxRun LinuxProps LinuxChoice LinuxEnds WalkFacts InotifySpec InotifyFacts InotifyRun KernelSpec KernelFacts KernelRun.

Lemma mark_no_wait s fd p dm : every (Forall no_wait) (q <- in_mark s p fd dm ;; ret (fst q)).
Proof.
  intros tr. unfold in_mark, bind, realpath, stat_dir, inotify_add_watch, send_msg, new_event, bind, now, callback, ret.
  destruct (os_realpath s tr p); cbn; [destruct (os_is_dir s _ _); cbn; [destruct (0 <? _)%Z|]|]; repeat constructor.
Qed.
(** ** A watch lasts *)
Definition kept (p : text) (k k' : kern) : Prop :=
  exists l, kn_log k' = kn_log k ++ l /\
    (is_watched k p = true ->
     (forall x o w y, l = x ++ (o, w) :: y -> place o = p -> ~ Exists (removes p) x -> w = true) /\
     (~ Exists (removes p) l -> is_watched k' p = true)).
Lemma kept_refl p k : kept p k k.
Proof. exists []. split; [now rewrite app_nil_r|]. intros W. split; [|auto]. intros x o w y E. destruct x; discriminate. Qed.
Lemma app_cons_split {A} (l l' x y : list A) c : l ++ l' = x ++ c :: y ->
  (exists y', l = x ++ c :: y' /\ y = y' ++ l') \/ (exists x', x = l ++ x' /\ l' = x' ++ c :: y).
Proof.
  revert x. induction l as [|a l IH]; intros x E; cbn in E; [right; exists x; auto|].
  destruct x as [|b x]; cbn in E; injection E as -> E.
  - left. exists l. split; [reflexivity|now rewrite E].
  - destruct (IH _ E) as [(y' & -> & ->)|(x' & -> & ->)]; [left|right]; eexists; split; reflexivity.
Qed.
Lemma kept_trans p a b c : kept p a b -> kept p b c -> kept p a c.
Proof.
  intros (l & E & H) (l' & E' & H'). exists (l ++ l'). split; [now rewrite E', E, app_assoc|]. intros W. destruct (H W) as [H1 H2]. split.
  - intros x o w y Hs Hp Hn. apply app_cons_split in Hs as [(y' & -> & ->)|(x' & -> & ->)].
    + eapply H1; eauto.
    + rewrite Exists_app in Hn. apply (proj1 (H' (H2 (fun X => Hn (or_introl X)))) x' o w y eq_refl Hp). tauto.
  - rewrite Exists_app. intros Hn. apply (proj2 (H' (H2 (fun X => Hn (or_introl X))))). tauto.
Qed.
Lemma watched_filter p (f : Z * text -> bool) l : (forall wd, f (wd, p) = true) ->
  find (fun w => text_eqb (snd w) p) (filter f l) = find (fun w => text_eqb (snd w) p) l.
Proof.
  intros H. induction l as [|[wd q] l IH]; [reflexivity|]. cbn [filter find snd]. destruct (text_eqb q p) eqn:E.
  - apply text_eqb_eq in E. subst q. rewrite H. cbn [find snd]. now rewrite text_eqb_refl.
  - destruct (f (wd, q)); cbn [find snd]; rewrite ?E; exact IH.
Qed.
Lemma kept_happen p k o : kept p k (happen k o).
Proof.
  unfold happen. destruct (legal k o); [|apply kept_refl]. exists [(o, is_watched k (place o))]. split; [reflexivity|]. intros W. split.
  - intros x o' w y E Hp _. destruct x as [|? [|]]; try discriminate. injection E as <- <- <-. now rewrite Hp.
  - intros Hn. unfold is_watched, watched. cbn [kn_watch]. destruct o; cbn [watch_after]; try exact W.
    assert (D : entry p0 n <> p). { intros D. apply Hn. constructor. exists p0, n, self_first. auto. }
    rewrite watched_filter; [exact W|]. intros wd. cbn [snd]. apply negb_true_iff, text_eqb_neq. congruence.
Qed.
Lemma kept_happens p os : forall k, kept p k (happens k os).
Proof.
  unfold happens. induction os as [|o os IH]; intros k; [apply kept_refl|]. cbn [fold_left]. eapply kept_trans; [apply kept_happen|apply IH].
Qed.
Lemma watch_more p l l' : existsb (fun w => text_eqb (snd w) p) l = true -> existsb (fun w : Z * text => text_eqb (snd w) p) (l ++ l') = true.
Proof. rewrite existsb_app. intros ->. reflexivity. Qed.
Lemma is_watched_exists k p : is_watched k p = existsb (fun w => text_eqb (snd w) p) (kn_watch k).
Proof. unfold is_watched, watched. induction (kn_watch k) as [|w l IH]; [reflexivity|]. cbn. destruct (text_eqb (snd w) p); [reflexivity|exact IH]. Qed.
Lemma is_watched_in k p : is_watched k p = true <-> In p (map snd (kn_watch k)).
Proof.
  rewrite is_watched_exists, existsb_exists, in_map_iff. split; intros (w & H1 & H2); exists w; [apply text_eqb_eq in H2; auto|subst; split; [exact H2|apply text_eqb_refl]].
Qed.
Lemma kept_marking p d k q : kept p k (snd (marking d k q)).
Proof.
  unfold marking. destruct (negb d && has q (kn_dirs k)); [|apply kept_refl]. destruct (watched k q); [apply kept_refl|].
  destruct (kn_next k <? 2147483648)%Z; [|apply kept_refl]. exists []. split; [now rewrite app_nil_r|]. intros W. split; [intros [|] ? ? ? E; discriminate|].
  intros _. rewrite is_watched_exists in *. cbn. now apply watch_more.
Qed.
Lemma kept_reading p w k : kept p k (snd (reading w k)).
Proof.
  unfold reading. destruct (kn_queue k); [apply kept_refl|]. exists []. split; [now rewrite app_nil_r|]. intros W. split; [intros [|] ? ? ? E; discriminate|auto].
Qed.

Section Env.
  Variable e : env.
  Notation s := (system e).
  Lemma kept_state p o : forall tr, kept p (state e tr) (state e (tr ++ o)).
  Proof.
    induction o as [|x o IH] using rev_ind; intros tr; [rewrite app_nil_r; apply kept_refl|].
    rewrite app_assoc, state_snoc. eapply kept_trans; [apply IH|]. eapply kept_trans; [apply (kept_happens p (e_ops e (tr ++ o)))|].
    fold (at_call e (tr ++ o)). destruct x; cbn [effect_on]; try apply kept_refl.
    - unfold adding. destruct (negb _); [apply kept_refl|]. destruct (asks_all _); [apply kept_marking|apply kept_refl].
    - unfold reading_of. destruct (_ =? _)%Z; [apply kept_reading|apply kept_refl].
  Qed.
  (** A marked directory is watched. *)
  Lemma marked_watched tr fd p m wd : agree e tr (OAddWatch fd p m wd) -> (0 < wd)%Z -> is_watched (state e (tr ++ [OAddWatch fd p m wd])) p = true.
  Proof.
    intros A H. rewrite state_snoc. cbn [effect_on agree] in *. destruct A as (-> & -> & A). rewrite adding_ours. unfold marking in *. destruct (negb _ && _); [|cbn in A; lia].
    destruct (watched (at_call e tr) p) as [w|] eqn:E.
    - cbn [snd]. unfold is_watched. now rewrite E.
    - destruct (_ <? _)%Z; cbn [fst snd] in *; [|lia]. apply is_watched_in. cbn. rewrite map_app, in_app_iff. right. now left.
  Qed.

  (** ** The start *)
  Section Start.
    Variables D F : list text.
    Hypothesis start : e_start e = kern_start D F.
    Hypothesis still : still_start e.
    Hypothesis shown_fs : forall k, kn_dirs k = D -> shows k (e_base e k).
    Hypothesis few : (Z.of_nat (length D) < 2147483647)%Z.

    Record cz (k : kern) : Prop := {
      cz_dirs : kn_dirs k = D; cz_log : kn_log k = []; cz_nodup : NoDup (map snd (kn_watch k));
      cz_incl : incl (map snd (kn_watch k)) D; cz_next : kn_next k = (1 + Z.of_nat (length (kn_watch k)))%Z }.
    Lemma shown_at tr : Forall no_wait tr -> cz (state e tr) -> shows (at_call e tr) (e_base e (at_call e tr)).
    Proof. intros H C. apply shown_fs. unfold at_call. destruct (still tr H) as [-> _]. apply (cz_dirs _ C). Qed.
    Lemma cz_at tr : Forall no_wait tr -> cz (state e tr) -> at_call e tr = state e tr.
    Proof. intros H _. unfold at_call. destruct (still tr H) as [-> _]. reflexivity. Qed.
    Lemma cz_state tr : Forall no_wait tr -> cz (state e tr).
    Proof.
      induction tr as [|x tr IH] using rev_ind; intros H.
      - unfold state. cbn. rewrite start. constructor; try reflexivity; [constructor|intros ? []].
      - apply Forall_app in H as [H _]. specialize (IH H). rewrite state_snoc, (cz_at tr H IH). destruct IH as [I1 I2 I3 I4 I5].
        destruct x; cbn [effect_on]; try (constructor; assumption).
        + unfold adding. destruct (negb _); [constructor; assumption|]. destruct (asks_all _); [|constructor; assumption].
          unfold marking. destruct (negb _ && has p (kn_dirs (state e tr))) eqn:Ed; [|constructor; assumption].
          apply andb_true_iff in Ed as [_ Ed]. destruct (watched (state e tr) p) eqn:W; [constructor; assumption|].
          destruct (_ <? _)%Z; [|constructor; assumption]. constructor; cbn [snd kn_dirs kn_log kn_watch kn_next]; auto.
          * rewrite map_app. cbn. apply Permutation.Permutation_NoDup with (p :: map snd (kn_watch (state e tr))); [apply Permutation.Permutation_cons_append|].
            constructor; [|exact I3]. intros Hin. apply is_watched_in in Hin. unfold is_watched in Hin. rewrite W in Hin. discriminate.
          * rewrite map_app. intros q Hq. apply in_app_iff in Hq as [Hq|[<-|[]]]; [now apply I4|]. rewrite I1 in Ed. apply existsb_exists in Ed as (q & Hq & Eq). apply text_eqb_eq in Eq. cbn. now subst.
          * rewrite app_length, I5. cbn [length]. lia.
        + unfold reading_of. destruct (_ =? _)%Z; [|constructor; assumption]. unfold reading. destruct (kn_queue _); constructor; assumption.
    Qed.
    (** Marking a directory at the start. *)
    Lemma start_mark tr p : Forall no_wait tr -> In p D -> (0 < fst (marking (e_deny e tr) (at_call e tr) p))%Z.
    Proof.
      intros H Hp. pose proof (cz_state tr H) as C. rewrite (cz_at tr H C). destruct (still tr H) as [_ ->]. destruct C as [I1 I2 I3 I4 I5]. unfold marking. cbn [negb andb].
      assert (Eh : has p (kn_dirs (state e tr)) = true). { rewrite I1. apply existsb_exists. exists p. split; [exact Hp|apply text_eqb_refl]. }
      rewrite Eh. destruct (watched (state e tr) p) eqn:W.
      - apply watched_in in W. cbn. assert (Ks : exists d f, e_start e = kern_start d f) by eauto. apply (ki_range _ (kinv_state e Ks tr) z p). now apply (ki_given _ (kinv_state e Ks tr)).
      - pose proof (NoDup_incl_length I3 I4) as L. rewrite map_length in L. destruct (Z.ltb_spec (kn_next (state e tr)) 2147483648); cbn; lia.
    Qed.
    Lemma watch_stays tr o p : Forall no_wait (tr ++ o) -> is_watched (state e tr) p = true -> is_watched (state e (tr ++ o)) p = true.
    Proof.
      intros H W. destruct (kept_state p o tr) as (l & El & K). destruct (K W) as [_ K2]. apply K2. intros X.
      apply Forall_app in H as H'. destruct H' as [H' _]. rewrite (cz_log _ (cz_state _ H)), (cz_log _ (cz_state _ H')) in El. cbn in El. subst l. inversion X.
    Qed.
    Lemma mark_at_start path p dm tr : Forall no_wait tr -> In p D -> os_realpath s tr path = Some p ->
      forall o dm', (q <- in_mark s path (e_fd e) dm ;; ret (fst q)) tr = (o, Ok dm') -> is_watched (state e (tr ++ o)) p = true.
    Proof.
      intros H Hp R1 o dm' E. pose proof (cz_state tr H) as C. pose proof (cz_at tr H C) as EA.
      assert (H2 : Forall no_wait (tr ++ [ORealpath path (Some p)])) by (apply Forall_app; split; [exact H|repeat constructor]).
      assert (R2 : os_is_dir s (tr ++ [ORealpath path (Some p)]) p = true).
      { cbn [os_is_dir system]. apply (sh_dir _ _ (shown_at _ H2 (cz_state _ H2))). rewrite (cz_at _ H2 (cz_state _ H2)), (cz_dirs _ (cz_state _ H2)). exact Hp. }
      unfold in_mark in E. unfold bind, realpath, stat_dir, inotify_add_watch in E. rewrite R1, R2 in E.
      set (t3 := (tr ++ [ORealpath path (Some p)]) ++ [OStatDir p true]) in *.
      assert (H3 : Forall no_wait t3) by (apply Forall_app; split; [exact H2|repeat constructor]).
      set (wd := os_add_watch s t3 (e_fd e) p in_recv_mask) in *. assert (Ewd : wd = fst (marking (e_deny e t3) (at_call e t3) p)) by (unfold wd, s; cbn [os_add_watch system]; now rewrite adding_ours). clearbody wd. assert (Hwd : (0 < wd)%Z) by (rewrite Ewd; apply start_mark; assumption).
      pose proof (marked_watched t3 (e_fd e) p in_recv_mask wd (conj eq_refl (conj eq_refl Ewd)) Hwd) as W.
      destruct (Z.ltb_spec 0 wd); [|lia]. cbn in E. injection E as <- _. unfold t3 in W. rewrite <- !app_assoc in W. exact W.
    Qed.

    Lemma under_in p q : under D p q -> In p D.
    Proof. now destruct 1. Qed.
    Lemma walk_no_wait fd fuel p dm tr : Forall no_wait (fst (walkdir s fuel p (fun dir dm => q <- in_mark s dir fd dm ;; ret (fst q)) dm tr)).
    Proof. apply (ev_walkdir s (Forall no_wait) (closed_no_wait s)); [intros; repeat constructor..|]. intros. apply mark_no_wait. Qed.
    Lemma each_no_wait fd fuel p es dm tr : Forall no_wait (fst (each_sub s (zmap text) (fun dir dm => q <- in_mark s dir fd dm ;; ret (fst q)) fuel p es dm tr)).
    Proof.
      revert dm tr. induction es as [|de es IH]; intros dm tr; [constructor|]. rewrite each_cons.
      destruct (negb (de_type de =? 4)%N); [apply IH|]. destruct (text_eqb (de_name de) (lit ".")); [apply IH|]. destruct (text_eqb (de_name de) (lit "..")); [apply IH|].
      apply (every_bind (Forall no_wait)); [intros; now apply Forall_app|intros t; repeat constructor|]. intros [real|]; [|exact (IH dm)].
      apply (every_bind (Forall no_wait)); [intros; now apply Forall_app|intros t; apply walk_no_wait|]. intros st. exact (IH st).
    Qed.
    Lemma walk_at_start fuel : forall path p dm tr o dm', (forall k, kn_dirs k = D -> leads k (e_base e k) path p) -> Forall no_wait tr ->
      walkdir s fuel path (fun dir dm => q <- in_mark s dir (e_fd e) dm ;; ret (fst q)) dm tr = (o, Ok dm') ->
      forall q, under D p q -> is_watched (state e (tr ++ o)) q = true.
    Proof.
      induction fuel as [|n IH]; intros path p dm tr o dm' HL H E q U; [discriminate|].
      assert (HT : Forall no_wait (tr ++ o)). { apply Forall_app. split; [exact H|]. pose proof (walk_no_wait (e_fd e) (S n) path dm tr) as W. rewrite E in W. exact W. }
      cbn [walkdir] in E. pose proof (under_in _ _ U) as Hp.
      apply bind_inv in E as [(o1 & d & o2 & E1 & E2 & ->)|[(u & _ & [=])|[(_ & [=])|(_ & [=])]]].
      injection E1 as <- <-.
      assert (HLa : forall t, Forall no_wait t -> leads (at_call e t) (e_base e (at_call e t)) path p).
      { intros t Ht. apply HL. rewrite (cz_at t Ht (cz_state t Ht)). apply (cz_dirs _ (cz_state t Ht)). }
      destruct (ld_opens _ _ _ _ (HLa tr H) tr) as (ents & Eo & Hents).
      rewrite Eo in *.
      rewrite (cz_at tr H (cz_state tr H)), (cz_dirs _ (cz_state tr H)) in Hents.
      set (t1 := tr ++ [OOpendir path (Some ents)]) in *. assert (H1 : Forall no_wait t1) by (apply Forall_app; split; [exact H|repeat constructor]).
      apply bind_inv in E2 as [(o3 & dm1 & o4 & E3 & E4 & ->)|[(u & _ & [=])|[(_ & [=])|(_ & [=])]]].
      pose proof (mark_no_wait s (e_fd e) path dm t1) as W3. rewrite E3 in W3. cbn [fst] in W3.
      pose proof (mark_at_start path p dm t1 H1 Hp (ld_real _ _ _ _ (HLa t1 H1) t1) o3 dm1 E3) as M3.
      apply bind_inv in E4 as [(o5 & dm2 & o6 & E5 & E6 & ->)|[(u & _ & [=])|[(_ & [=])|(_ & [=])]]].
      cbn in E6. injection E6 as <- <-.
      replace (tr ++ [OOpendir path (Some ents)] ++ o3 ++ o5 ++ [OClosedir path]) with (((t1 ++ o3) ++ o5) ++ [OClosedir path]) in * by (unfold t1; rewrite <- !app_assoc; reflexivity).
      apply watch_stays; [exact HT|]. apply Forall_app in HT as [HT _].
      destruct U as [_|nm q _ Hn U]; [apply watch_stays; assumption|].
      assert (H3 : Forall no_wait (t1 ++ o3)) by (apply Forall_app; split; assumption).
      pose proof (under_in _ _ U) as Hs. pose proof (Hents nm Hn Hs) as Hin. clear Hents Eo M3 E3 W3 HT H1. clearbody t1.
      revert dm1 o5 dm2 E5. revert H3. generalize (t1 ++ o3). induction ents as [|de es IHe]; intros t H3 dm1 o5 dm2 E5; [destruct Hin|].
      assert (HR : forall t, Forall no_wait t -> os_realpath s t (firstn path_ulim (path ++ lit "/" ++ nm)) = Some (entry p nm)).
      { intros t' Ht. destruct (ld_join _ _ _ _ (HLa t' Ht) t' nm) as [J1 J2].
        { rewrite (cz_at t' Ht (cz_state t' Ht)), (cz_dirs _ (cz_state t' Ht)). exact Hs. }
        rewrite firstn_all2; [exact J2|exact J1]. }
      destruct Hin as [->|Hin].
      - cbn [de_type de_name N.eqb Pos.eqb negb] in E5.
        unfold good_name in Hn. rewrite !andb_true_iff, !negb_true_iff in Hn. destruct Hn as [[_ Hd1] Hd2]. rewrite Hd1, Hd2 in E5.
        apply bind_inv in E5 as [(o7 & rp & o8 & E7 & E8 & ->)|[(u & _ & [=])|[(_ & [=])|(_ & [=])]]].
        unfold realpath in E7. rewrite HR in E7 by exact H3. injection E7 as <- <-. set (x := ORealpath _ _) in *.
        assert (H4 : Forall no_wait (t ++ [x])) by (apply Forall_app; split; [exact H3|repeat constructor]).
        apply bind_inv in E8 as [(o9 & dm3 & o10 & E9 & E10 & ->)|[(u & _ & [=])|[(_ & [=])|(_ & [=])]]].
        pose proof (IH _ _ _ _ _ _ (fun k Hk => sh_leads _ _ (shown_fs k Hk) _ (eq_ind_r (fun l => In (entry p nm) l) Hs Hk)) H4 E9 q U) as W. pose proof (walk_no_wait (e_fd e) n (entry p nm) dm1 (t ++ [x])) as W9. rewrite E9 in W9. cbn [fst] in W9.
        replace (t ++ [x] ++ o9 ++ o10) with (((t ++ [x]) ++ o9) ++ o10) by (rewrite <- !app_assoc; reflexivity).
        apply watch_stays; [|exact W]. apply Forall_app. split; [apply Forall_app; split; assumption|].
        pose proof (each_no_wait (e_fd e) n path es dm3 ((t ++ [x]) ++ o9)) as W10. unfold each_sub in W10. rewrite E10 in W10. exact W10.
      - destruct (negb (de_type de =? 4)%N); [eapply IHe; eassumption|].
        destruct (text_eqb (de_name de) (lit ".")); [eapply IHe; eassumption|].
        destruct (text_eqb (de_name de) (lit "..")); [eapply IHe; eassumption|].
        apply bind_inv in E5 as [(o7 & rp & o8 & E7 & E8 & ->)|[(u & _ & [=])|[(_ & [=])|(_ & [=])]]].
        injection E7 as <- Er. set (x := ORealpath _ _) in *.
        assert (H4 : Forall no_wait (t ++ [x])) by (apply Forall_app; split; [exact H3|repeat constructor]). rewrite app_assoc.
        destruct rp as [real|]; [|eapply IHe; eassumption].
        apply bind_inv in E8 as [(o9 & dm3 & o10 & E9 & E10 & ->)|[(u & _ & [=])|[(_ & [=])|(_ & [=])]]]. rewrite app_assoc.
        pose proof (walk_no_wait (e_fd e) n real dm1 (t ++ [x])) as W9. rewrite E9 in W9. cbn [fst] in W9.
        eapply IHe; [exact Hin| |exact E10]. apply Forall_app; split; assumption.
    Qed.

    Variables path root : text.
    Hypothesis leads_to : forall k, kn_dirs k = D -> leads k (e_base e k) path root.
    Lemma make_at_start fuel il tr o ok ke ep : Forall no_wait tr -> in_make_sysres s fuel path il tr = (o, Ok (ok, ke, ep)) ->
      r_lt ok r_complete = true -> forall q, under D root q -> is_watched (state e (tr ++ o)) q = true.
    Proof.
      intros H E Hok q U. pose proof (in_make_no_wait s fuel path il tr) as W. rewrite E in W. cbn [fst] in W.
      unfold in_make_sysres in E.
      apply bind_inv in E as [(o1 & fd & o2 & E1 & E2 & ->)|[(u & _ & [=])|[(_ & [=])|(_ & [=])]]]. cbv zeta in E2.
      assert (Ef : fd = e_fd e) by (unfold inotify_init, s, system in E1; injection E1 as _ <-; reflexivity). subst fd.
      destruct (e_fd e <? 0)%Z; [injection E2 as <- <- <- <-; discriminate|].
      apply bind_inv in E2 as [(o3 & dm & o4 & E3 & E4 & ->)|[(u & _ & [=])|[(_ & [=])|(_ & [=])]]].
      assert (Wt : Forall no_wait (tr ++ o1)) by (rewrite !Forall_app in W; apply Forall_app; tauto).
      pose proof (walk_at_start fuel path root [] (tr ++ o1) o3 dm leads_to Wt E3 q U) as Hq.
      replace (tr ++ o1 ++ o3 ++ o4) with (((tr ++ o1) ++ o3) ++ o4) by (rewrite <- !app_assoc; reflexivity).
      apply watch_stays; [|exact Hq]. rewrite !Forall_app in *. tauto.
    Qed.
    Definition all_flagged (k : kern) : Prop :=
      forall x o w y, kn_log k = x ++ (o, w) :: y -> under D root (place o) -> ~ Exists (removes (place o)) x -> w = true.
    Lemma flagged_still tr : Forall no_wait tr -> all_flagged (state e tr).
    Proof. intros H x o w y E. rewrite (cz_log _ (cz_state tr H)) in E. destruct x; discriminate. Qed.
    Lemma flagged_later tr o : Forall no_wait tr -> (forall q, under D root q -> is_watched (state e tr) q = true) -> all_flagged (state e (tr ++ o)).
    Proof.
      intros H W x c w y E U Hn. destruct (kept_state (place c) o tr) as (l & El & K). rewrite (cz_log _ (cz_state tr H)) in El. cbn in El. subst l.
      destruct (K (W _ U)) as [K1 _]. eapply K1; eauto.
    Qed.
    Lemma run_at_start fuel il tr : Forall no_wait tr ->
      let '(o, _) := run_inotify s fuel path il tr in
      Forall no_wait o \/ exists a b, o = a ++ b /\ Forall no_wait a /\ (forall q, under D root q -> is_watched (state e (tr ++ a)) q = true).
    Proof.
      intros H. unfold run_inotify, platform_watch. unfold bind at 1. pose proof (in_make_no_wait s fuel path il tr) as W.
      destruct (in_make_sysres s fuel path il tr) as [a ra] eqn:Ea. cbn [fst] in W.
      destruct ra as [[[ok ke] ep]|u| |]; try (left; exact W). destruct (r_lt ok r_complete) eqn:Ok0.
      - pose proof (make_at_start _ _ _ _ _ _ _ H Ea Ok0) as Q. unfold bind at 1.
        destruct (ep_loop _ _ _ _ _ _ _ _ _ _) as [b [[ok' ke']|u| |]]; cbn; right; eexists a, _; split; try reflexivity; split; assumption.
      - destruct fuel as [|n]; cbn [ep_loop]; unfold bind at 1.
        + cbn. left. rewrite app_nil_r. exact W.
        + rewrite Ok0. cbn. left. apply Forall_app. split; [exact W|repeat constructor].
    Qed.
    Lemma watch_at_start fuel il : (forall tr, os_geteuid s tr <> 0%Z) -> all_flagged (state e (fst (linux_watch s fuel path il []))).
    Proof.
      intros Hu. unfold linux_watch. unfold bind at 1. unfold try_fanotify. unfold bind at 1, geteuid.
      destruct (Z.eqb_spec (os_geteuid s []) 0) as [H0|_]; [now apply Hu in H0|].
      cbn [app ret r_eqb code N.eqb Pos.eqb]. set (g := OGeteuid (os_geteuid s [])).
      assert (Hg : Forall no_wait [g]) by (repeat constructor).
      pose proof (run_at_start fuel il [g] Hg) as R. unfold bind at 1. revert R. destruct (run_inotify s fuel path il [g]) as [o r]. intros R.
      destruct R as [R|(a & b & -> & Ha & Hq)].
      - apply flagged_still. destruct r as [r|u| |]; try (constructor; [exact Coq.Init.Logic.I|exact R]).
        destruct (r_ge r r_e); cbn; constructor; try exact Coq.Init.Logic.I; apply Forall_app; (split; [exact R|repeat constructor]).
      - assert (Hga : Forall no_wait ([g] ++ a)) by (apply Forall_app; auto).
        assert (Fin : forall c, all_flagged (state e (g :: (a ++ b) ++ c))).
        { intros c. replace (g :: (a ++ b) ++ c) with (([g] ++ a) ++ b ++ c) by (cbn; rewrite <- !app_assoc; reflexivity). now apply flagged_later. }
        destruct r as [r|u| |]; cbn [fst]; try (specialize (Fin []); rewrite app_nil_r in Fin; exact Fin).
        destruct (r_ge r r_e); cbn; apply Fin.
    Qed.
  End Start.
End Env.

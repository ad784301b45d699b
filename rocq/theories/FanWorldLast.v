(** In the environment of [FanWorldSpec], without renames and with one process: the last record
    of a file tells whether it is there. *)
From Verif Require Import Base EventModel Sys SysFacts WatchFacts InotifySpec FanotifySpec FanotifyFacts FanWorldSpec FanWorldFacts.

Lemma slash_split a n b m : ~ In 47%N n -> ~ In 47%N m -> a ++ 47%N :: n = b ++ 47%N :: m -> a = b /\ n = m.
Proof.
  revert b. induction a as [|x a IH]; intros [|y b] Hn Hm E; cbn [app] in E.
  - injection E as E. auto.
  - injection E as <- E. exfalso. apply Hn. rewrite E. apply in_or_app. right. now left.
  - injection E as -> E. exfalso. apply Hm. rewrite <- E. apply in_or_app. right. now left.
  - injection E as -> E. destruct (IH b Hn Hm E) as [-> ->]. auto.
Qed.
Lemma sound_no_slash p n : sound_name p n = true -> ~ In 47%N n.
Proof.
  unfold sound_name. rewrite !andb_true_iff. intros ((((_ & H3) & _) & _) & _) Hin. rewrite forallb_forall in H3. specialize (H3 _ Hin). discriminate H3.
Qed.
Lemma at_path_inj p n q m : sound_name p n = true -> sound_name q m = true -> at_path p n = at_path q m -> p = q /\ n = m.
Proof. intros Hn Hm E. apply sound_no_slash in Hn, Hm. unfold at_path in E. now apply slash_split. Qed.

Lemma enqueue_split q r :
  (enqueue q r = q ++ [r] /\ forall x, In x q -> joins x r = false) \/
  exists a x b, q = a ++ x :: b /\ joins x r = true /\ enqueue q r = a ++ joined x r :: b.
Proof.
  induction q as [|x q IH]; cbn [enqueue]; [left; split; [reflexivity|intros _ []]|]. destruct (joins x r) eqn:E.
  - right. exists [], x, q. auto.
  - destruct IH as [[E1 H]|(a & y & b & -> & Hj & E1)].
    + left. rewrite E1. split; [reflexivity|]. intros y [<-|Hy]; auto.
    + right. exists (x :: a), y, b. rewrite E1. auto.
Qed.
Definition key (r : frec) : text * text * bool := (f_handle r, f_name r, f_dir r).
Lemma place_app p l m : In p l -> place p (l ++ m) = place p l.
Proof.
  induction l as [|q l IH]; [intros []|]. cbn [place app]. destruct (text_eqb p q) eqn:E; [reflexivity|]. intros [->|H]; [|now rewrite IH].
  exfalso. assert (text_eqb p p = true) by (now apply text_eqb_eq). congruence.
Qed.

Record rec_more (w : fworld) (r : frec) : Prop := {
  rm_place : exists i, rec_in (fw_dirs w) r i /\ place (nth (N.to_nat i) (fw_dirs w) []) (fw_dirs w) = i /\ In (nth (N.to_nat i) (fw_dirs w) []) (fw_marks w);
  rm_dir : f_dir r = true -> In (rec_path w r) (fw_dirs w) }.
Definition last_rec (w : fworld) (l : list frec) (p : text) (r : frec) : Prop :=
  exists a b, l = a ++ r :: b /\ rec_path w r = p /\ forall x, In x b -> rec_path w x <> p.
Record tracked (pid : N) (w : fworld) : Prop := {
  tk_fine : fine w;
  tk_recs : forall r, In r (all_recs w) -> rec_more w r;
  tk_pid : forall r, In r (fw_queue w) -> f_pid r = pid;
  tk_keys : NoDup (map key (fw_queue w));
  tk_apart : forall p, In p (fw_dirs w) -> ~ In p (fw_files w);
  tk_last : forall p r, last_rec w (all_recs w) p r -> f_dir r = false -> ~ (has FCreate r = true /\ has FDelete r = true) ->
    (has FDelete r = true <-> ~ In p (fw_files w)) }.

Lemma last_rec_snoc w l r p x : last_rec w (l ++ [r]) p x -> x = r /\ rec_path w r = p \/ rec_path w r <> p /\ last_rec w l p x.
Proof.
  intros (a & b & E & Hp & Hb). destruct b as [|y b] using rev_ind.
  - apply app_inj_tail in E as [-> ->]. auto.
  - clear IHb. rewrite app_comm_cons, app_assoc in E. apply app_inj_tail in E as [-> ->]. right. split; [apply Hb, in_or_app; right; now left|].
    exists a, b. split; [reflexivity|]. split; [exact Hp|]. intros z Hz. apply Hb, in_or_app. now left.
Qed.
Lemma last_rec_here w a x b p y : last_rec w (a ++ x :: b) p y -> rec_path w x = p -> (forall z, In z b -> rec_path w z <> p) -> y = x.
Proof.
  revert a. induction b as [|z b IH] using rev_ind; intros a H Hx Hb.
  - apply last_rec_snoc in H as [[-> _]|[H _]]; [reflexivity|contradiction].
  - rewrite app_comm_cons, app_assoc in H. apply last_rec_snoc in H as [[-> H]|[_ H]]; [exfalso; apply (Hb z); [apply in_or_app; right; now left|exact H]|].
    apply (IH a H Hx). intros u Hu. apply Hb, in_or_app. now left.
Qed.
Lemma last_rec_other w a x x' b p y : rec_path w x <> p -> rec_path w x' <> p -> last_rec w (a ++ x' :: b) p y -> last_rec w (a ++ x :: b) p y.
Proof.
  intros Hx Hx'. revert y. induction b as [|z b IH] using rev_ind; intros y H.
  - apply last_rec_snoc in H as [[-> H]|[_ H]]; [contradiction|]. destruct H as (c & d & -> & Hp & Hd). exists c, (d ++ [x]). split; [now rewrite <- app_assoc|]. split; [exact Hp|].
    intros u Hu. apply in_app_or in Hu as [Hu|[<-|[]]]; auto.
  - rewrite app_comm_cons, app_assoc in H. apply last_rec_snoc in H as [[-> H]|[Hz H]].
    + exists (a ++ x :: b), []. split; [now rewrite <- app_assoc|]. split; [exact H|]. intros u [].
    + destruct (IH y H) as (c & d & E & Hp & Hd). exists c, (d ++ [z]). split; [rewrite app_comm_cons, app_assoc, E; now rewrite <- app_assoc|]. split; [exact Hp|].
      intros u Hu. apply in_app_or in Hu as [Hu|[<-|[]]]; auto.
Qed.
Lemma last_rec_ext w w' l p r : (forall x, In x l -> rec_path w' x = rec_path w x) -> last_rec w' l p r -> last_rec w l p r.
Proof.
  intros H (a & b & E & Hp & Hb). exists a, b. split; [exact E|]. subst l. split.
  - rewrite <- (H r); [exact Hp|]. apply in_or_app. right. now left.
  - intros x Hx. rewrite <- (H x); [now apply Hb|]. apply in_or_app. right. now right.
Qed.

Lemma rec_path_grow w w' r : fine w -> (exists more, fw_dirs w' = fw_dirs w ++ more) -> (exists i, rec_in (fw_dirs w) r i) -> rec_path w' r = rec_path w r.
Proof.
  intros Hw (more & E) (i & Hi). unfold rec_path. rewrite (handle_of_i _ _ _ Hi (fi_count w Hw)), E, app_nth1 by (pose proof (ri_lt _ _ _ Hi); lia). reflexivity.
Qed.

Lemma NoDup_app_one {A} (l : list A) x : NoDup l -> ~ In x l -> NoDup (l ++ [x]).
Proof. intros H Hx. rewrite <- (rev_involutive l). change [x] with (rev [x]). rewrite <- rev_app_distr. apply NoDup_rev. cbn. constructor; [now rewrite <- in_rev|now apply NoDup_rev]. Qed.

Section Step.
  Variables (pid : N) (w w' : fworld) (p n : text) (k : fkind) (d : bool).
  Notation p0 := (at_path p n).
  Notation r0 := (fan_rec w pid (p, n, k, d)).
  Hypothesis Hw : tracked pid w.
  Hypothesis Hw' : fine w'.
  Hypothesis Hp : In p (fw_dirs w).
  Hypothesis Hn : sound_name p n = true.
  Hypothesis Hp0 : ~ In p0 (fw_dirs w).
  Hypothesis Hk : k = FCreate \/ k = FDelete \/ k = FModify.
  Hypothesis Em : fw_marks w' = fw_marks w.
  Hypothesis Eb : fw_batches w' = fw_batches w.
  Hypothesis Ed : exists more, fw_dirs w' = fw_dirs w ++ more.
  Hypothesis Equ : fw_queue w' = if mem p (fw_marks w) then enqueue (fw_queue w) r0 else fw_queue w.
  Hypothesis Ef : forall q, q <> p0 -> (In q (fw_files w') <-> In q (fw_files w)).
  Hypothesis Ha : forall q, In q (fw_dirs w') -> ~ In q (fw_files w').
  Hypothesis Hdir : d = true -> In p0 (fw_dirs w') /\ (In p0 (fw_files w') <-> In p0 (fw_files w)).
  Hypothesis Hfile : d = false -> match k with FCreate => In p0 (fw_files w') | FDelete => ~ In p0 (fw_files w') | FModify => In p0 (fw_files w') /\ In p0 (fw_files w) | _ => False end.

  Lemma st_moves : k = FFrom \/ k = FTo -> d = false.
  Proof. destruct Hk as [->|[->| ->]]; intros [?|?]; discriminate. Qed.
  Lemma st_r0 : rec_in (fw_dirs w) r0 (place p (fw_dirs w)).
  Proof. apply fan_rec_in; [exact Hp|exact Hn|exact st_moves]. Qed.
  Lemma st_path r : In r (all_recs w) -> rec_path w' r = rec_path w r.
  Proof. intros Hr. apply rec_path_grow; [apply Hw|exact Ed|]. apply (fi_recs w (tk_fine _ _ Hw) r Hr). Qed.
  Lemma st_path0 : rec_path w' r0 = p0.
  Proof. rewrite (rec_path_grow w w' r0 (tk_fine _ _ Hw) Ed (ex_intro _ _ st_r0)). apply fan_rec_path; [apply Hw|exact Hp|exact Hn|exact st_moves]. Qed.
  Lemma st_more r : rec_more w r -> rec_path w' r = rec_path w r -> rec_more w' r.
  Proof.
    intros [(i & Hi & Hpl & Hmk) Hd] Er. destruct Ed as (more & E). pose proof (ri_lt _ _ _ Hi) as Hl.
    assert (En : nth (N.to_nat i) (fw_dirs w') [] = nth (N.to_nat i) (fw_dirs w) []) by (rewrite E, app_nth1; [reflexivity|lia]).
    split.
    - exists i. rewrite En, Em. split; [rewrite E; now apply rec_in_grow|]. split; [|exact Hmk]. rewrite E, place_app; [exact Hpl|]. apply nth_In. lia.
    - intros H. rewrite Er, E. apply in_or_app. left. now apply Hd.
  Qed.
  (** A record of the file is one that the new record joins. *)
  Lemma st_same r : In r (all_recs w) -> rec_path w r = p0 -> f_handle r = f_handle r0 /\ f_name r = f_name r0 /\ f_dir r = false /\ In p (fw_marks w).
  Proof.
    intros Hr E. destruct (tk_recs _ _ Hw r Hr) as [(i & Hi & Hpl & Hmk) Hd].
    rewrite (rec_path_i w r i (tk_fine _ _ Hw) Hi) in E. destruct (at_path_inj _ _ _ _ (ri_name _ _ _ Hi) Hn E) as [E1 E2].
    rewrite E1 in Hpl, Hmk. split; [rewrite (ri_handle _ _ _ Hi), <- Hpl; reflexivity|]. split; [exact E2|]. split; [|exact Hmk].
    destruct (f_dir r) eqn:Edr; [|reflexivity]. exfalso. apply Hp0. specialize (Hd eq_refl). rewrite (rec_path_i w r i (tk_fine _ _ Hw) Hi), E1, E2 in Hd. exact Hd.
  Qed.

  (** The new record, alone or joined to [x], says whether the file is there. *)
  Lemma st_now r : d = false -> (r = r0 \/ exists x, r = joined x r0 /\ (~ (has FCreate x = true /\ has FDelete x = true) -> (has FDelete x = true <-> ~ In p0 (fw_files w)))) ->
    ~ (has FCreate r = true /\ has FDelete r = true) -> (has FDelete r = true <-> ~ In p0 (fw_files w')).
  Proof.
    intros Hd Hr Hmix. specialize (Hfile Hd). destruct Hr as [->|(x & -> & Hx)].
    - destruct Hk as [->|[->| ->]]; cbn in Hmix, Hfile |- *; split; intros H; try discriminate; try tauto; contradiction.
    - rewrite !has_joined in *. destruct Hk as [->|[->| ->]]; cbn [has fan_rec f_kinds existsb] in Hmix, Hfile |- *.
      + rewrite orb_true_r, orb_false_r in *. cbn [orb] in *. split; [intros H; exfalso; apply Hmix; auto|contradiction].
      + rewrite orb_true_r. tauto.
      + rewrite !orb_false_r in *. rewrite (Hx Hmix). tauto.
  Qed.

  Lemma st_new : mem p (fw_marks w) = true -> rec_more w' r0.
  Proof.
    intros Hm. destruct Ed as (more & E). split.
    - exists (place p (fw_dirs w)). split; [rewrite E; apply rec_in_grow, st_r0|].
      assert (En : nth (N.to_nat (place p (fw_dirs w))) (fw_dirs w') [] = p) by (rewrite E, app_nth1; [now apply place_nth|pose proof (place_lt _ _ Hp); lia]).
      rewrite En, Em. split; [rewrite E; now apply place_app|]. now apply mem_in.
    - intros H. rewrite st_path0. apply Hdir. exact H.
  Qed.
  Lemma step_unmarked : mem p (fw_marks w) = false -> fw_queue w' = fw_queue w -> tracked pid w'.
  Proof.
    intros Em0 Eq'. assert (Eall : all_recs w' = all_recs w) by (unfold all_recs; rewrite Eb, Eq'; reflexivity).
    split; [exact Hw'| | | |exact Ha|].
    - rewrite Eall. intros r Hr. apply st_more; [apply (tk_recs _ _ Hw r Hr)|now apply st_path].
    - rewrite Eq'. apply (tk_pid _ _ Hw).
    - rewrite Eq'. apply (tk_keys _ _ Hw).
    - rewrite Eall. intros q r Hl Hd Hm. pose proof (last_rec_ext w w' _ q r st_path Hl) as Hl'. rewrite (tk_last _ _ Hw q r Hl' Hd Hm).
      assert (Hq : q <> p0). { intros ->. destruct Hl' as (a & b & E & Hpath & _). destruct (st_same r) as (_ & _ & _ & Hmk); [rewrite E; apply in_or_app; right; now left|exact Hpath|].
        apply mem_in in Hmk. congruence. }
      rewrite (Ef q Hq). tauto.
  Qed.
  Lemma step_append : mem p (fw_marks w) = true -> fw_queue w' = fw_queue w ++ [r0] -> (forall x, In x (fw_queue w) -> joins x r0 = false) -> tracked pid w'.
  Proof.
    intros Em0 Eq' Hj. assert (Eall : all_recs w' = all_recs w ++ [r0]) by (unfold all_recs; rewrite Eb, Eq', app_assoc; reflexivity).
    split; [exact Hw'| | | |exact Ha|].
    - rewrite Eall. intros r Hr. apply in_app_or in Hr as [Hr|[<-|[]]]; [|now apply st_new]. apply st_more; [apply (tk_recs _ _ Hw r Hr)|now apply st_path].
    - rewrite Eq'. intros r Hr. apply in_app_or in Hr as [Hr|[<-|[]]]; [now apply (tk_pid _ _ Hw)|reflexivity].
    - rewrite Eq', map_app. cbn [map]. apply NoDup_app_one; [apply (tk_keys _ _ Hw)|]. intros Hin. apply in_map_iff in Hin as (x & Ek & Hx). injection Ek as K1 K2 K3.
      specialize (Hj x Hx). unfold joins in Hj. rewrite K1, K2, K3, (tk_pid _ _ Hw x Hx) in Hj. cbn [fan_rec f_handle f_name f_dir f_pid] in Hj.
      rewrite N.eqb_refl, Bool.eqb_reflx in Hj. assert (T : forall t, text_eqb t t = true) by (intros t; now apply text_eqb_eq). rewrite !T in Hj. discriminate Hj.
    - rewrite Eall. intros q r Hl Hd Hm. apply last_rec_snoc in Hl as [[-> Hq]|[Hq Hl]].
      + rewrite st_path0 in Hq. subst q. apply st_now; auto.
      + rewrite st_path0 in Hq. pose proof (last_rec_ext w w' _ q r st_path Hl) as Hl'. rewrite (tk_last _ _ Hw q r Hl' Hd Hm), (Ef q) by congruence. tauto.
  Qed.
  Lemma step_join a x b : mem p (fw_marks w) = true -> fw_queue w = a ++ x :: b -> joins x r0 = true -> fw_queue w' = a ++ joined x r0 :: b -> tracked pid w'.
  Proof.
    intros Em0 Eqw Hj Eq'.
    assert (Hxq : In x (fw_queue w)) by (rewrite Eqw; apply in_or_app; right; now left).
    assert (Hx : In x (all_recs w)) by (apply in_or_app; now right).
    pose proof (joins_facts _ _ Hj) as (J1 & J2 & J3).
    assert (Hpx : rec_path w x = p0).
    { rewrite <- (fan_rec_path w pid p n k d (tk_fine _ _ Hw) Hp Hn st_moves). unfold rec_path. now rewrite J1, J2. }
    assert (Hd : d = false). { destruct (st_same x Hx Hpx) as (_ & _ & H & _). rewrite J3 in H. exact H. }
    assert (Hpj : rec_path w' (joined x r0) = p0) by (rewrite <- Hpx, <- (st_path x Hx); reflexivity).
    assert (Eall : all_recs w' = (concat (fw_batches w) ++ a) ++ joined x r0 :: b) by (unfold all_recs; rewrite Eb, Eq', app_assoc; reflexivity).
    assert (Eallw : all_recs w = (concat (fw_batches w) ++ a) ++ x :: b) by (unfold all_recs; rewrite Eqw, app_assoc; reflexivity).
    assert (Hb : forall y, In y b -> rec_path w y <> p0).
    { intros y Hy E. destruct (st_same y) as (H1 & H2 & H3 & _); [rewrite Eallw; apply in_or_app; right; now right|exact E|].
      pose proof (tk_keys _ _ Hw) as Hnd. rewrite Eqw, map_app in Hnd. cbn [map] in Hnd. apply NoDup_remove_2 in Hnd. apply Hnd. apply in_or_app. right.
      apply in_map_iff. exists y. split; [|exact Hy]. unfold key. destruct (st_same x Hx Hpx) as (G1 & G2 & G3 & _). congruence. }
    assert (Hother : forall y, In y (all_recs w) -> rec_path w' y = rec_path w y) by exact st_path.
    split; [exact Hw'| | | |exact Ha|].
    - intros r Hr. rewrite Eall in Hr. apply in_app_or in Hr as [Hr|[<-|Hr]].
      + assert (Hr' : In r (all_recs w)) by (rewrite Eallw; apply in_or_app; now left). apply st_more; [apply (tk_recs _ _ Hw r Hr')|now apply st_path].
      + pose proof (st_new Em0) as [(i & Hi & Hpl & Hmk) _]. pose proof (fi_recs w' Hw' (joined x r0)) as Hfr.
        destruct Hfr as (j & Hjr); [rewrite Eall; apply in_or_app; right; now left|]. split; [|intros H; exfalso; cbn in H; change (f_dir x = true) in H; cbn [fan_rec f_dir] in J3; congruence].
        exists j. assert (Eij : j = i). { rewrite <- (handle_of_i _ _ _ Hi (fi_count _ Hw')), <- (handle_of_i _ _ _ Hjr (fi_count _ Hw')). cbn. now rewrite J1. }
        subst j. auto.
      + assert (Hr' : In r (all_recs w)) by (rewrite Eallw; apply in_or_app; right; now right). apply st_more; [apply (tk_recs _ _ Hw r Hr')|now apply st_path].
    - rewrite Eq'. intros r Hr. apply in_app_or in Hr as [Hr|[<-|Hr]].
      + apply (tk_pid _ _ Hw). rewrite Eqw. apply in_or_app. now left.
      + change (f_pid x = pid). now apply (tk_pid _ _ Hw).
      + apply (tk_pid _ _ Hw). rewrite Eqw. apply in_or_app. right. now right.
    - rewrite Eq', map_app. cbn [map]. pose proof (tk_keys _ _ Hw) as Hnd. rewrite Eqw, map_app in Hnd. exact Hnd.
    - rewrite Eall. intros q r Hl Hdr Hm. destruct (text_eqb q p0) eqn:Eqp.
      + apply text_eqb_eq in Eqp. subst q. assert (r = joined x r0) as ->.
        { eapply last_rec_here; [exact Hl|exact Hpj|]. intros z Hz. rewrite (Hother z); [now apply Hb|]. rewrite Eallw. apply in_or_app. right. now right. }
        apply st_now; [exact Hd| |exact Hm]. right. exists x. split; [reflexivity|]. intros Hmx. apply (tk_last _ _ Hw p0 x); [|destruct (st_same x Hx Hpx) as (_ & _ & H & _); exact H|exact Hmx].
        rewrite Eallw. exists (concat (fw_batches w) ++ a), b. auto.
      + assert (Hq : q <> p0) by (intros ->; assert (text_eqb p0 p0 = true) by (now apply text_eqb_eq); congruence).
        assert (Hl' : last_rec w (all_recs w) q r).
        { apply (last_rec_ext w w'); [exact Hother|]. rewrite Eallw. eapply last_rec_other; [| |exact Hl]; [rewrite (Hother x Hx), Hpx; congruence|congruence]. }
        rewrite (tk_last _ _ Hw q r Hl' Hdr Hm), (Ef q Hq). tauto.
  Qed.
  Lemma step_tracked : tracked pid w'.
  Proof.
    pose proof Equ as Eq'. revert Eq'. case_eq (mem p (fw_marks w)); intros Em0 Eq'; [|now apply step_unmarked].
    destruct (enqueue_split (fw_queue w) r0) as [[E H]|(a & x & b & E1 & Hj & E)]; rewrite E in Eq'.
    - now apply step_append.
    - now apply (step_join a x b).
  Qed.
End Step.

Lemma in_less p q l : In q (less p l) <-> In q l /\ q <> p.
Proof.
  unfold less. rewrite filter_In, negb_true_iff. split; intros [H1 H2]; (split; [exact H1|]).
  - intros ->. assert (text_eqb p p = true) by (now apply text_eqb_eq). congruence.
  - destruct (text_eqb p q) eqn:E; [apply text_eqb_eq in E; congruence|reflexivity].
Qed.
Lemma not_mem p l : negb (mem p l) = true -> ~ In p l.
Proof. intros H Hin. apply mem_in in Hin. rewrite Hin in H. discriminate. Qed.

Lemma happen_tracked pid w o : tracked pid w -> match o with FRename _ _ _ _ _ => False | _ => True end -> by_pid o = pid -> tracked pid (happen w o).
Proof.
  intros Hw Ho Hpid. pose proof (happen_fine w o (tk_fine _ _ Hw)) as Hf. unfold happen in *. destruct (may w o) eqn:Hm; [|exact Hw].
  destruct o as [pid' d p n|pid' p n|pid' p n|]; [| | |contradiction]; cbn [by_pid] in Hpid; subst pid'; cbn [may] in Hm; rewrite !andb_true_iff in Hm;
    repeat match goal with H : _ /\ _ |- _ => destruct H end; repeat match goal with H : mem _ _ = true |- _ => apply mem_in in H end;
    repeat match goal with H : negb (mem _ _) = true |- _ => apply not_mem in H end.
  - refine (step_tracked pid w _ p n FCreate d Hw Hf _ _ _ _ _ _ _ _ _ _ _ _); auto.
    + cbn [fw_dirs dirs_then]. destruct d; [now exists [at_path p n]|exists []; now rewrite app_nil_r].
    + cbn [fw_queue]. unfold records. cbn [touches filter fst by_pid]. destruct (mem p (fw_marks w)); reflexivity.
    + cbn [fw_files files_then]. destruct d; [tauto|]. intros q Hq. cbn [In]. split; [intros [Eqp|?]; [congruence|assumption]|auto].
    + cbn [fw_files fw_dirs dirs_then files_then]. destruct d.
      * intros q Hq. apply in_app_or in Hq as [Hq|[<-|[]]]; [now apply (tk_apart _ _ Hw)|assumption].
      * intros q Hq [<-|Hin]; [contradiction|]. now apply (tk_apart _ _ Hw q).
    + cbn [fw_files fw_dirs dirs_then files_then]. intros ->. split; [apply in_or_app; right; now left|tauto].
    + cbn [fw_files files_then]. intros ->. now left.
  - assert (Hnd : ~ In (at_path p n) (fw_dirs w)) by (intros Hin; now apply (tk_apart _ _ Hw _ Hin)).
    refine (step_tracked pid w _ p n FModify false Hw Hf _ _ _ _ _ _ _ _ _ _ _ _); auto; try discriminate.
    + exists []. cbn. now rewrite app_nil_r.
    + cbn [fw_queue]. unfold records. cbn [touches filter fst by_pid]. destruct (mem p (fw_marks w)); reflexivity.
    + cbn [fw_files files_then]. tauto.
    + cbn [fw_files fw_dirs dirs_then files_then]. apply (tk_apart _ _ Hw).
  - assert (Hnd : ~ In (at_path p n) (fw_dirs w)) by (intros Hin; now apply (tk_apart _ _ Hw _ Hin)).
    refine (step_tracked pid w _ p n FDelete false Hw Hf _ _ _ _ _ _ _ _ _ _ _ _); auto; try discriminate.
    + exists []. cbn. now rewrite app_nil_r.
    + cbn [fw_queue]. unfold records. cbn [touches filter fst by_pid]. destruct (mem p (fw_marks w)); reflexivity.
    + cbn [fw_files files_then]. intros q Hq. rewrite in_less. tauto.
    + cbn [fw_files fw_dirs dirs_then files_then]. intros q Hq Hin. apply in_less in Hin as [Hin _]. now apply (tk_apart _ _ Hw q).
    + cbn [fw_files files_then]. intros _ Hin. apply in_less in Hin as [_ Hin]. contradiction.
Qed.
Lemma happens_tracked pid os : forall w, tracked pid w -> Forall (fun o => match o with FRename _ _ _ _ _ => False | _ => True end) os -> Forall (fun o => by_pid o = pid) os -> tracked pid (happens w os).
Proof.
  induction os as [|o os IH]; intros w Hw H1 H2; [exact Hw|]. inversion H1; inversion H2; subst. apply IH; auto. apply happen_tracked; auto.
Qed.
Lemma rec_more_marks w w' r : rec_more w r -> fw_dirs w' = fw_dirs w -> (forall q, In q (fw_marks w) -> In q (fw_marks w')) -> rec_more w' r.
Proof. intros [(i & H1 & H2 & H3) H4] E Hm. split; [exists i; rewrite E; auto|]. unfold rec_path in *. rewrite E. exact H4. Qed.
Lemma same_path w w' r : fw_dirs w' = fw_dirs w -> rec_path w' r = rec_path w r.
Proof. unfold rec_path. now intros ->. Qed.
Lemma state_tracked e pid tr : fenv_ok e -> no_renames e -> (forall tr, Forall (fun o => by_pid o = pid) (fe_ops e tr)) -> tracked pid (state e tr).
Proof.
  intros He Hno Hpid. induction tr as [|x tr IH] using rev_ind.
  - unfold state. cbn [rev state_rev]. destruct (fv_start e He) as (dirs & files & -> & Hd & Hl & Hdis). split; cbn [fworld_start fw_queue map]; try (intros; contradiction).
    + apply start_fine; [|exact Hl]. eapply Forall_impl; [|exact Hd]. intros d [H _]. exact H.
    + constructor.
    + exact Hdis.
    + intros p r (a & b & E & _). destruct a; discriminate.
  - pose proof (state_fine e He (tr ++ [x])) as Hf. rewrite state_snoc in *.
    assert (Ha : tracked pid (at_call e tr)) by (apply happens_tracked; [exact IH|apply Hno|apply Hpid]).
    destruct x; try exact Ha.
    + unfold marking in *. destruct (_ || _); [exact Ha|]. cbn [snd] in *. destruct (asks mask); [|exact Ha]. pose proof Ha as [T1 T2 T3 T4 T5 T6]. split; auto.
      intros r0 Hr. apply (rec_more_marks (at_call e tr)); [apply T2, Hr|reflexivity|]. cbn. auto.
    + unfold reading in *. destruct (fd =? fe_fd e)%Z; [|exact Ha]. destruct (fw_queue (at_call e tr)) as [|r0 q] eqn:Eq; [exact Ha|]. cbn [snd] in *.
      set (k := fitting 4095 (S (fe_want e tr)) (r0 :: q)) in *. clearbody k. pose proof Ha as [T1 T2 T3 T4 T5 T6].
      assert (Eall : all_recs (FWorld (fw_dirs (at_call e tr)) (fw_files (at_call e tr)) (fw_marks (at_call e tr)) (skipn k (r0 :: q)) (fw_batches (at_call e tr) ++ [firstn k (r0 :: q)]) (fw_log (at_call e tr)))
        = all_recs (at_call e tr)).
      { unfold all_recs. cbn [fw_queue fw_batches]. rewrite concat_app, Eq. cbn [concat]. rewrite app_nil_r, <- app_assoc, firstn_skipn. reflexivity. }
      assert (Esub : forall r, In r (skipn k (r0 :: q)) -> In r (fw_queue (at_call e tr))).
      { intros r1 Hr. rewrite Eq, <- (firstn_skipn k (r0 :: q)). apply in_or_app. right. exact Hr. }
      split; auto.
      * rewrite Eall. intros r1 Hr. apply (rec_more_marks (at_call e tr)); [apply T2, Hr|reflexivity|]. auto.
      * rewrite Eq in T4. rewrite <- (firstn_skipn k (r0 :: q)), map_app in T4. cbn [fw_queue]. clear -T4. induction (map key (firstn k (r0 :: q))) as [|y l IH]; [exact T4|]. inversion T4; subst. auto.
      * rewrite Eall. intros p r1 Hl. apply T6. eapply last_rec_ext; [|exact Hl]. reflexivity.
Qed.

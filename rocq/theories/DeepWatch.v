(** Which directories of the kernel of [DeepSpec] are watched: those there at the start,
    and those that were marked, wherever they are moved, until they are removed. *)
From Coq Require Permutation.
From Verif Require Import Base PathModel EventModel Sys SysFacts LinuxModel InotifyModel FanotifyModel LinuxWatch
  LinuxSpec LinuxFacts LinuxRun LinuxProps LinuxChoice LinuxEnds WalkFacts InotifySpec InotifyFacts InotifyRun KernelSpec KernelFacts KernelRun KernelWatch
  DeepSpec DeepFacts DeepRun DeepLog.

(** ** Paths *)
Lemma last_app_ne {A} (a b : list A) d : b <> [] -> last (a ++ b) d = last b d.
Proof. intros H. induction a as [|x a IH]; [reflexivity|]. cbn. rewrite IH. destruct (a ++ b) eqn:E; [|reflexivity]. apply app_eq_nil in E as [_ ->]. congruence. Qed.
Lemma last_in {A} (l : list A) d : l <> [] -> In (last l d) l.
Proof. induction l as [|x [|y l] IH]; intros H; [congruence|now left|]. right. apply IH. discriminate. Qed.
Lemma entry_ends p n : good_name n = true -> entry (entry p n) [] = entry p n ++ [47%N].
Proof.
  intros H. assert (Hn : n <> [] /\ ~ In 47%N n).
  { split; [now apply good_name_facts in H|]. unfold good_name in H. rewrite !andb_true_iff in H. destruct H as [[[_ H] _] _]. rewrite forallb_forall in H.
    intros X. apply H in X. discriminate. }
  destruct Hn as [Hn Hs].
  assert (Hl : last (entry p n) 0%N = last n 0%N /\ entry p n <> []).
  { unfold entry. destruct p as [|c p]; [auto|]. destruct (last (c :: p) 0 =? 47)%N; (split; [|discriminate]).
    - now apply last_app_ne.
    - rewrite app_assoc. now apply last_app_ne. }
  destruct Hl as [Hl Hne]. unfold entry at 1. destruct (entry p n) as [|c q] eqn:E; [congruence|]. rewrite Hl.
  destruct (N.eqb_spec (last n 0%N) 47) as [X|_]; [|reflexivity]. exfalso. apply Hs. rewrite <- X. now apply last_in.
Qed.
Lemma at_or_below_ends e q : entry e [] = e ++ [47%N] -> (at_or_below e q = true <-> exists t, q = e ++ t /\ (t = [] \/ exists c r, t = 47%N :: c :: r)).
Proof.
  intros E. unfold at_or_below, below. cbv zeta. rewrite E. split.
  - intros H. apply orb_true_iff in H as [H|H]; [apply text_eqb_eq in H; subst q; exists []; rewrite app_nil_r; auto|].
    apply andb_true_iff in H as [H1 H2]. apply text_eqb_eq in H1. exists (47%N :: skipn (length (e ++ [47%N])) q).
    assert (Eq : q = (e ++ [47%N]) ++ skipn (length (e ++ [47%N])) q) by (rewrite H1 at 1; symmetry; apply firstn_skipn).
    split; [rewrite Eq at 1; rewrite <- app_assoc; reflexivity|]. right.
    destruct (skipn (length (e ++ [47%N])) q) as [|c r] eqn:X; [|eauto]. rewrite app_nil_r in Eq. rewrite Eq, text_eqb_refl in H2. discriminate.
  - intros (t & -> & [->|(c & r & ->)]); [rewrite app_nil_r, text_eqb_refl; reflexivity|]. apply orb_true_iff. right. apply andb_true_iff. split.
    + apply text_eqb_eq. change (47%N :: c :: r) with ([47%N] ++ c :: r). rewrite app_assoc, firstn_app, firstn_all, Nat.sub_diag. cbn. now rewrite app_nil_r.
    + apply negb_true_iff, text_eqb_neq. change (47%N :: c :: r) with ([47%N] ++ c :: r). rewrite app_assoc. intros X. apply (f_equal (@length N)) in X. rewrite (app_length (e ++ [47%N])) in X. cbn in X. lia.
Qed.
Lemma renamed_inj e e' q1 q2 : entry e [] = e ++ [47%N] -> entry e' [] = e' ++ [47%N] -> at_or_below e' q1 = false -> at_or_below e' q2 = false ->
  renamed e e' q1 = renamed e e' q2 -> q1 = q2.
Proof.
  intros E E' N1 N2. unfold renamed. destruct (at_or_below e q1) eqn:B1, (at_or_below e q2) eqn:B2; auto.
  - apply (at_or_below_ends _ _ E) in B1 as (t1 & -> & _). apply (at_or_below_ends _ _ E) in B2 as (t2 & -> & _).
    rewrite !skipn_app, !skipn_all, Nat.sub_diag. cbn [skipn app]. intros X. apply app_inv_head in X. now subst.
  - apply (at_or_below_ends _ _ E) in B1 as (t & -> & H). rewrite skipn_app, skipn_all, Nat.sub_diag. cbn [skipn app]. intros X. exfalso.
    enough (at_or_below e' q2 = true) by congruence. apply (at_or_below_ends _ _ E'). exists t. auto.
  - apply (at_or_below_ends _ _ E) in B2 as (t & -> & H). rewrite skipn_app, skipn_all, Nat.sub_diag. cbn [skipn app]. intros X. exfalso.
    enough (at_or_below e' q1 = true) by congruence. apply (at_or_below_ends _ _ E'). exists t. auto.
Qed.

(** ** A directory has one watch *)
Definition uniq (k : dkern) : Prop := forall p w1 w2, In (p, w1) (dk_dirs k) -> In (p, w2) (dk_dirs k) -> w1 = w2.
Lemma dir_at_in k p w : In (p, w) (dk_dirs k) -> dir_at k p = true.
Proof. intros H. apply existsb_exists. exists (p, w). split; [exact H|apply text_eqb_refl]. Qed.
Lemma dir_at_iff k p : dir_at k p = true <-> In p (map fst (dk_dirs k)).
Proof.
  unfold dir_at. rewrite existsb_exists, in_map_iff. split; intros (w & H & H'); exists w; [apply text_eqb_eq in H'; auto|subst; split; [exact H'|apply text_eqb_refl]].
Qed.
Lemma uniq_wd k p wd : uniq k -> In (p, Some wd) (dk_dirs k) -> wd_at k p = Some wd.
Proof.
  intros U H. unfold wd_at. destruct (find _ _) as [[q w]|] eqn:E.
  - apply find_some in E as [E1 E2]. cbn in E2. apply text_eqb_eq in E2. subst q. cbn. eapply U; eassumption.
  - pose proof (find_none _ _ E _ H) as X. cbn in X. rewrite text_eqb_refl in X. discriminate.
Qed.
Lemma uniq_start D F : uniq (dk_start D F).
Proof. intros p w1 w2 H1 H2. apply in_map_iff in H1 as (x & [= _ <-] & _). apply in_map_iff in H2 as (y & [= _ <-] & _). reflexivity. Qed.
Lemma move_plain k p n p' n' : dlegal k (DMove true p n p' n') = true ->
  entry (entry p n) [] = entry p n ++ [47%N] /\ entry (entry p' n') [] = entry p' n' ++ [47%N] /\ forall q w, In (q, w) (dk_dirs k) -> at_or_below (entry p' n') q = false.
Proof.
  cbn [dlegal]. rewrite !andb_true_iff. intros [[[[[[_ _] Hn] Hn'] _] _] [_ Hx]]. split; [now apply entry_ends|]. split; [now apply entry_ends|].
  intros q w H. apply negb_true_iff in Hx. destruct (at_or_below (entry p' n') q) eqn:B; [|reflexivity].
  assert (X : existsb (fun w => at_or_below (entry p' n') (fst w)) (dk_dirs k) = true) by (apply existsb_exists; exists (q, w); auto). congruence.
Qed.
Lemma uniq_happen max k o : uniq k -> uniq (dhappen max k o).
Proof.
  intros U. unfold dhappen. destruct (dlegal k o) eqn:L; [|exact U]. destruct (posts _ _ _) as [q f]. unfold uniq. cbn [dk_dirs].
  intros p w1 w2. destruct o as [[|] q0 n|q0 n|q0 n|q0 n b|[|] q0 n q' n']; cbn [ddirs_after]; try apply U.
  - cbn [dlegal] in L. rewrite !andb_true_iff, !negb_true_iff in L. destruct L as [[[_ _] Hd] _].
    intros H1 H2. apply in_app_iff in H1 as [H1|[[= <- <-]|[]]]; apply in_app_iff in H2 as [H2|[H2|[]]].
    + eapply U; eassumption.
    + injection H2 as <- <-. apply dir_at_in in H1. congruence.
    + apply dir_at_in in H2. congruence.
    + injection H2 as <-. reflexivity.
  - intros H1 H2. apply filter_In in H1 as [H1 _]. apply filter_In in H2 as [H2 _]. eapply U; eassumption.
  - destruct (move_plain _ _ _ _ _ L) as (E & E' & Nb). intros H1 H2. apply in_map_iff in H1 as ([p1 x1] & [= <- <-] & H1). apply in_map_iff in H2 as ([p2 x2] & X & H2). cbn [fst snd] in X. injection X as X <-. symmetry in X.
    apply (renamed_inj _ _ _ _ E E') in X; [|eapply Nb; eassumption..]. subst p2. eapply U; eassumption.
Qed.
Lemma uniq_mark d k p : uniq k -> uniq (snd (dmarking d k p)).
Proof.
  intros U. unfold dmarking. destruct (_ && _); [|exact U]. destruct (wd_at k p); [exact U|]. destruct (_ <? _)%Z; [|exact U].
  unfold uniq. cbn [snd dk_dirs]. intros q w1 w2 H1 H2. apply in_map_iff in H1 as ([q1 x1] & H1 & H1'). apply in_map_iff in H2 as ([q2 x2] & H2 & H2'). cbn in H1, H2.
  destruct (text_eqb q1 p) eqn:E1, (text_eqb q2 p) eqn:E2; injection H1 as <- <-; injection H2 as E <-; subst; try congruence. eapply U; eassumption.
Qed.
Lemma uniq_read m w k : uniq k -> uniq (snd (dreading m w k)).
Proof. intros U. unfold dreading. destruct (dk_queue k); [exact U|]. destruct (negb m); exact U. Qed.

(** ** A watch lasts *)
Lemma now_at_app l : forall p l', now_at p (l ++ l') = match now_at p l with Some q => now_at q l' | None => None end.
Proof.
  induction l as [|[o ns] l IH]; intros p l'; [reflexivity|]. cbn [app now_at]. destruct o as [d q n|q n|q n|q n b|[|] q n q' n']; auto. destruct (text_eqb (entry q n) p); auto.
Qed.
Lemma posts_all max s l : forall q, In s l -> exists f, In (snd s, f) (snd (posts max q l)).
Proof.
  induction l as [|x l IH]; intros q H; [destruct H|]. cbn [posts].
  assert (Hx : exists q1 f f0, post max q x = (q1, (snd x, f0) :: f)).
  { destruct (post_cases max q x) as [(f0 & -> & _)|[->| ->]]; eauto. }
  destruct Hx as (q1 & f & f0 & ->). specialize (IH q1). destruct (posts max q1 l) as [q2 fs]. cbn [snd] in *.
  destruct H as [<-|H]; [exists f0; now left|]. destruct (IH H) as (f1 & Hf). exists f1. right. apply in_app_iff. now right.
Qed.
Lemma watched_as_is k wd P : kgood k -> In (wd, P) (dk_given k) -> watched_as k wd = P.
Proof. intros I H. apply (di_fun _ _ _ _ _ (kg_inv _ I) wd); [|exact H]. apply watched_as_in. eauto. Qed.
Lemma drecords_has k o a wd : has_place o a -> wd_at k (place_of o a) = Some wd -> exists s mv, In s (drecords k o) /\ snd s = About mv o a (watched_as k wd).
Proof.
  intros Hp W. destruct a.
  - destruct (Hp eq_refl) as (d & p & n & p' & n' & ->). cbn [place_of] in W. cbn [drecords]. unfold on_watch at 2. rewrite W.
    do 2 eexists. split; [apply in_app_iff; right; apply in_app_iff; left; now left|reflexivity].
  - destruct o as [d p n|p n|p n|p n b|d p n p' n']; cbn [place_of] in W; cbn [drecords].
    1-3: unfold on_watch; rewrite W; do 2 eexists; (split; [now left|reflexivity]).
    + exists (rec_of wd KDelete true 0 n, About 0 (DRmdir p n b) false (watched_as k wd)), 0%N. split; [|reflexivity].
      assert (H : In (rec_of wd KDelete true 0 n, About 0 (DRmdir p n b) false (watched_as k wd)) (on_watch k p KDelete true 0 n (About 0 (DRmdir p n b) false))) by (unfold on_watch; rewrite W; now left).
      destruct b; apply in_app_iff; auto.
    + unfold on_watch at 1. rewrite W. do 2 eexists. split; [apply in_app_iff; left; now left|reflexivity].
Qed.
(** Of the changes [l], all in the directory that is at [p] before them are recorded, as in [P]. *)
Definition told_all (P p : text) (l : list (dop * list (notice * fate))) : Prop :=
  forall x c ns y a, l = x ++ (c, ns) :: y -> has_place c a -> now_at p x = Some (place_of c a) -> exists mv f, In (About mv c a P, f) ns.
Definition sound (wd : Z) (P : text) (k : dkern) : Prop := uniq k /\ kgood k /\ In (wd, P) (dk_given k).
Definition stays (wd : Z) (P : text) (k k' : dkern) : Prop := sound wd P k -> sound wd P k' /\
  exists l, dk_log k' = dk_log k ++ l /\ forall p, In (p, Some wd) (dk_dirs k) -> told_all P p l /\ forall q, now_at p l = Some q -> In (q, Some wd) (dk_dirs k').
Lemma told_all_nil P p : told_all P p [].
Proof. intros x c ns y a E. destruct x; discriminate. Qed.
Lemma stays_same wd P k k' : (sound wd P k -> sound wd P k') -> dk_log k' = dk_log k -> (sound wd P k -> forall p, In (p, Some wd) (dk_dirs k) -> In (p, Some wd) (dk_dirs k')) -> stays wd P k k'.
Proof.
  intros HU E H U. split; [auto|]. exists []. split; [now rewrite app_nil_r|]. intros p Hp. split; [apply told_all_nil|]. intros q [= <-]. auto.
Qed.
Lemma stays_refl wd P k : stays wd P k k.
Proof. now apply stays_same. Qed.
Lemma stays_trans wd P a b c : stays wd P a b -> stays wd P b c -> stays wd P a c.
Proof.
  intros H H' U. destruct (H U) as (U1 & l & E & H1). destruct (H' U1) as (U2 & l' & E' & H2). split; [exact U2|]. exists (l ++ l'). split; [now rewrite E', E, app_assoc|].
  intros p Hp. destruct (H1 p Hp) as [T1 S1]. split.
  - intros x o ns y ar Es Ho Hn. apply app_cons_split in Es as [(y' & -> & ->)|(x' & -> & ->)]; [eapply T1; eauto|].
    rewrite now_at_app in Hn. destruct (now_at p l) as [q|] eqn:Q; [|discriminate]. eapply (proj1 (H2 q (S1 q eq_refl))); eauto.
  - intros q. rewrite now_at_app. destruct (now_at p l) as [q1|] eqn:Q; [|discriminate]. apply (H2 q1 (S1 q1 eq_refl)).
Qed.
Lemma stays_happen wd P max k o : stays wd P k (dhappen max k o).
Proof.
  intros S0. pose proof S0 as (U & G & HG). split.
  { split; [now apply uniq_happen|]. split; [now apply kgood_happen|]. unfold dhappen. destruct (dlegal k o); [|exact HG]. destruct (posts _ _ _). exact HG. }
  unfold dhappen. destruct (dlegal k o) eqn:L; [|now apply (stays_refl wd P k S0)].
  pose proof (fun s => posts_all max s (drecords k o) (dk_queue k)) as Hf. destruct (posts max (dk_queue k) (drecords k o)) as [q f]. cbn [snd] in Hf.
  exists [(o, f)]. split; [reflexivity|]. intros p Hp. split.
  - intros x c ns y a E Ho Hn. destruct x as [|? [|]]; try discriminate. injection E as <- <- <-. cbn in Hn. injection Hn as ->.
    destruct (drecords_has k o a wd Ho (uniq_wd _ _ _ U Hp)) as (s & mv & H1 & H2). rewrite (watched_as_is _ _ _ G HG) in H2. destruct (Hf s H1) as (f0 & Hf0). rewrite H2 in Hf0. eauto.
  - intros q0. cbn [dk_dirs now_at]. destruct o as [[|] q1 n|q1 n|q1 n|q1 n b|[|] q1 n q' n']; cbn [ddirs_after]; try (intros [= <-]; exact Hp).
    + intros [= <-]. apply in_app_iff. now left.
    + destruct (text_eqb (entry q1 n) p) eqn:E; [discriminate|]. intros [= <-]. apply filter_In. split; [exact Hp|]. cbn. apply negb_true_iff. apply text_eqb_neq in E. apply text_eqb_neq. congruence.
    + intros [= <-]. apply in_map_iff. exists (p, Some wd). auto.
Qed.
Lemma stays_happens wd P max os : forall k, stays wd P k (dhappens max k os).
Proof. induction os as [|o os IH]; intros k; [apply stays_refl|]. cbn. eapply stays_trans; [apply stays_happen|apply IH]. Qed.
Lemma mark_in d k p q wd : In (q, Some wd) (dk_dirs k) -> uniq k -> In (q, Some wd) (dk_dirs (snd (dmarking d k p))).
Proof.
  intros H U. unfold dmarking. destruct (_ && _); [|exact H]. destruct (wd_at k p) eqn:W; [exact H|]. destruct (_ <? _)%Z; [|exact H]. cbn. apply in_map_iff. exists (q, Some wd). split; [|exact H].
  cbn. destruct (text_eqb q p) eqn:E; [|reflexivity]. apply text_eqb_eq in E. subst q. rewrite (uniq_wd _ _ _ U H) in W. discriminate.
Qed.
Lemma stays_effect wd P e tr x k : stays wd P k (deffect e tr x k).
Proof.
  destruct x; try apply stays_refl; cbn [deffect].
  - unfold dadding. destruct (negb _); [apply stays_refl|]. destruct (dasks_all _); [|apply stays_refl]. apply stays_same.
    + intros (U & G & HG). split; [now apply uniq_mark|]. split; [now apply kgood_marking|]. unfold dmarking. destruct (_ && _); [|exact HG]. destruct (wd_at _ _); [exact HG|]. destruct (_ <? _)%Z; [|exact HG]. cbn. apply in_app_iff. now left.
    + apply same_log_mark.
    + intros (U & _) q Hq. now apply mark_in.
  - apply stays_same; [|apply same_log_read|].
    + intros (U & G & HG). split; [now apply uniq_read|]. split; [now apply kgood_reading|]. unfold dreading. destruct (dk_queue k); [exact HG|]. destruct (negb _); exact HG.
    + intros _ q Hq. unfold dreading. destruct (dk_queue k); [exact Hq|]. destruct (negb _); exact Hq.
Qed.
Lemma stays_state wd P e o : forall tr, stays wd P (dstate e tr) (dstate e (tr ++ o)).
Proof.
  induction o as [|x o IH] using rev_ind; intros tr; [rewrite app_nil_r; apply stays_refl|]. rewrite app_assoc, dstate_snoc.
  eapply stays_trans; [apply IH|]. eapply stays_trans; [apply (stays_happens wd P (de_max e) (de_ops e (tr ++ o)))|]. apply stays_effect.
Qed.

Section Env.
  Variable e : denv.
  Notation s := (dsystem e).
  Definition dwatched (k : dkern) (p : text) : Prop := exists wd, In (p, Some wd) (dk_dirs k).
  (** A marked directory is watched. *)
  Lemma dmarked_watched tr fd p m wd : dagree e tr (OAddWatch fd p m wd) -> (0 < wd)%Z -> dwatched (dstate e (tr ++ [OAddWatch fd p m wd])) p.
  Proof.
    intros A H. rewrite dstate_snoc. cbn [deffect dagree] in *. destruct A as (-> & -> & A). rewrite dadding_ours. unfold dmarking in *.
    destruct (negb (de_deny e tr) && dir_at (dat_call e tr) p) eqn:Dr; [|cbn in A; lia]. apply andb_true_iff in Dr as [_ Dr].
    destruct (wd_at (dat_call e tr) p) as [w|] eqn:E.
    - cbn [snd]. exists w. now apply wd_at_in.
    - destruct (_ <? _)%Z; cbn [fst snd] in *; [|lia]. exists (dk_next (dat_call e tr)). cbn. apply dir_at_iff in Dr. apply in_map_iff in Dr as ([q w] & <- & Dr).
      apply in_map_iff. exists (q, w). split; [|exact Dr]. cbn. now rewrite text_eqb_refl.
  Qed.

  (** ** The start *)
  Section Start.
    Variables D F : list text.
    Hypothesis start : de_start e = dk_start D F.
    Hypothesis still : dstill_start e.
    Hypothesis shown_fs : forall k, map fst (dk_dirs k) = D -> shows (kern_start D []) (de_base e k).
    Hypothesis few : (Z.of_nat (length D) < 2147483647)%Z.

    Record cz (k : dkern) : Prop := {
      cz_dirs : map fst (dk_dirs k) = D; cz_log : dk_log k = []; cz_nodup : NoDup (map snd (dk_given k));
      cz_incl : incl (map snd (dk_given k)) D; cz_next : dk_next k = (1 + Z.of_nat (length (dk_given k)))%Z;
      cz_has : forall p, In p (map snd (dk_given k)) -> dwatched k p }.
    Lemma cz_at tr : Forall no_wait tr -> dat_call e tr = dstate e tr.
    Proof. intros H. unfold dat_call. destruct (still tr H) as [-> _]. reflexivity. Qed.
    Lemma shown_at tr : Forall no_wait tr -> cz (dstate e tr) -> shows (kern_start D []) (de_base e (dat_call e tr)).
    Proof. intros H C. apply shown_fs. rewrite (cz_at tr H). apply (cz_dirs _ C). Qed.
    Lemma dstart_good tr : kgood (dstate e tr).
    Proof. apply kgood_state. eauto. Qed.
    Lemma dstart_uniq tr : uniq (dstate e tr).
    Proof. apply always_state; [rewrite start; apply uniq_start|intros; now apply uniq_happen|intros; now apply uniq_mark|intros; now apply uniq_read]. Qed.
    Lemma cz_state tr : Forall no_wait tr -> cz (dstate e tr).
    Proof.
      induction tr as [|x tr IH] using rev_ind; intros H.
      - unfold dstate. cbn. rewrite start. constructor; cbn; try reflexivity; [rewrite map_map; apply map_id|constructor|intros ? []|intros ? []].
      - apply Forall_app in H as [H _]. specialize (IH H). rewrite dstate_snoc, (cz_at tr H). pose proof IH as [I1 I2 I3 I4 I5 I6].
        destruct x; cbn [deffect]; try exact IH.
        + unfold dadding. destruct (negb _); [exact IH|]. destruct (dasks_all _); [|exact IH].
          pose proof (fun q wd Hq => mark_in (de_deny e tr) (dstate e tr) p q wd Hq (dstart_uniq tr)) as Mi. unfold dmarking in *.
          destruct (negb _ && dir_at (dstate e tr) p) eqn:Ed; [|exact IH].
          apply andb_true_iff in Ed as [_ Ed]. destruct (wd_at (dstate e tr) p) eqn:W; [exact IH|].
          destruct (_ <? _)%Z; [|exact IH]. apply dir_at_iff in Ed. cbn [snd] in *.
          constructor; cbn [dk_dirs dk_log dk_given dk_next] in *; auto.
          * rewrite map_map, <- I1. apply map_ext. intros [q w]. cbn. now destruct (text_eqb q p).
          * rewrite map_app. cbn. apply Permutation.Permutation_NoDup with (p :: map snd (dk_given (dstate e tr))); [apply Permutation.Permutation_cons_append|].
            constructor; [|exact I3]. intros Hin. apply I6 in Hin as (w0 & Hin). rewrite (uniq_wd _ _ _ (dstart_uniq tr) Hin) in W. discriminate.
          * rewrite map_app. intros q Hq. apply in_app_iff in Hq as [Hq|[<-|[]]]; [now apply I4|]. rewrite I1 in Ed. exact Ed.
          * rewrite app_length, I5. cbn [length]. lia.
          * intros q Hq. rewrite map_app in Hq. apply in_app_iff in Hq as [Hq|[<-|[]]].
            { apply I6 in Hq as (w0 & Hq). exists w0. now apply Mi. }
            apply in_map_iff in Ed as ([q w] & <- & Ed). exists (dk_next (dstate e tr)). apply in_map_iff. exists (q, w). split; [|exact Ed]. cbn. now rewrite text_eqb_refl.
        + unfold dreading. destruct (dk_queue _); [exact IH|]. destruct (negb _); [exact IH|]. constructor; assumption.
    Qed.
    (** Marking a directory at the start. *)
    Lemma start_mark tr p : Forall no_wait tr -> In p D -> (0 < fst (dmarking (de_deny e tr) (dat_call e tr) p))%Z.
    Proof.
      intros H Hp. pose proof (cz_state tr H) as C. rewrite (cz_at tr H). destruct (still tr H) as [_ ->]. destruct C as [I1 I2 I3 I4 I5 I6]. unfold dmarking. cbn [negb andb].
      assert (Eh : dir_at (dstate e tr) p = true) by (apply dir_at_iff; rewrite I1; exact Hp).
      rewrite Eh. destruct (wd_at (dstate e tr) p) eqn:W.
      - apply wd_at_in in W. cbn. pose proof (kg_inv _ (dstart_good tr)) as J. destruct (di_watch _ _ _ _ _ J _ _ W) as (P & HP). apply (di_range _ _ _ _ _ J) in HP. lia.
      - pose proof (NoDup_incl_length I3 I4) as L. rewrite map_length in L. destruct (Z.ltb_spec (dk_next (dstate e tr)) 2147483648); cbn; lia.
    Qed.
    Lemma watch_stays tr o p : Forall no_wait (tr ++ o) -> dwatched (dstate e tr) p -> dwatched (dstate e (tr ++ o)) p.
    Proof.
      intros H (wd & W). destruct (di_watch _ _ _ _ _ (kg_inv _ (dstart_good tr)) _ _ W) as (P & HP).
      destruct (stays_state wd P e o tr (conj (dstart_uniq tr) (conj (dstart_good tr) HP))) as (_ & l & El & K). destruct (K p W) as [_ K2]. exists wd. apply K2.
      apply Forall_app in H as H'. destruct H' as [H' _]. rewrite (cz_log _ (cz_state _ H)), (cz_log _ (cz_state _ H')) in El. cbn in El. subst l. reflexivity.
    Qed.
    Lemma mark_at_start path p dm tr : Forall no_wait tr -> In p D -> os_realpath s tr path = Some p ->
      forall o dm', (q <- in_mark s path (de_fd e) dm ;; ret (fst q)) tr = (o, Ok dm') -> dwatched (dstate e (tr ++ o)) p.
    Proof.
      intros H Hp R1 o dm' E. pose proof (cz_state tr H) as C. pose proof (cz_at tr H) as EA.
      assert (H2 : Forall no_wait (tr ++ [ORealpath path (Some p)])) by (apply Forall_app; split; [exact H|repeat constructor]).
      assert (R2 : os_is_dir s (tr ++ [ORealpath path (Some p)]) p = true).
      { cbn [os_is_dir dsystem]. apply (sh_dir _ _ (shown_at _ H2 (cz_state _ H2))). exact Hp. }
      unfold in_mark in E. unfold bind, realpath, stat_dir, inotify_add_watch in E. rewrite R1, R2 in E.
      set (t3 := (tr ++ [ORealpath path (Some p)]) ++ [OStatDir p true]) in *.
      assert (H3 : Forall no_wait t3) by (apply Forall_app; split; [exact H2|repeat constructor]).
      set (wd := os_add_watch s t3 (de_fd e) p in_recv_mask) in *. assert (Ewd : wd = fst (dmarking (de_deny e t3) (dat_call e t3) p)) by (unfold wd; cbn [os_add_watch dsystem]; now rewrite dadding_ours). clearbody wd. assert (Hwd : (0 < wd)%Z) by (rewrite Ewd; apply start_mark; assumption).
      pose proof (dmarked_watched t3 (de_fd e) p in_recv_mask wd (conj eq_refl (conj eq_refl Ewd)) Hwd) as W.
      destruct (Z.ltb_spec 0 wd); [|lia]. cbn in E. injection E as <- _. unfold t3 in W. rewrite <- !app_assoc in W. exact W.
    Qed.

    Lemma under_in p q : under D p q -> In p D.
    Proof. now destruct 1. Qed.
    Lemma walk_no_wait fd fuel p dm tr : Forall no_wait (fst (walkdir s fuel p (fun dir dm => q <- in_mark s dir fd dm ;; ret (fst q)) dm tr)).
    Proof. apply (ev_walkdir s (Forall no_wait) (closed_no_wait s)); [intros; repeat constructor..|]. intros. apply mark_no_wait. Qed.
    Lemma each_no_wait fd fuel p es dm tr : Forall no_wait (fst (each_sub s (zmap text) (fun dir dm => q <- in_mark s dir fd dm ;; ret (fst q)) fuel p es dm tr)).
    Proof.
      revert dm tr. induction es as [|de es IH]; intros dm tr; [constructor|]. rewrite each_cons.
      destruct (negb (de_type de =? 4)%N); [apply IH|]. destruct (text_eqb (de_name de) (lit ".")); [apply IH|]. destruct (text_eqb (de_name de) (lit "..")); [apply IH|].
      apply (every_bind (Forall no_wait)); [intros; now apply Forall_app|intros t; repeat constructor|]. intros [real|]; [|exact (IH dm)].
      apply (every_bind (Forall no_wait)); [intros; now apply Forall_app|intros t; apply walk_no_wait|]. intros st. exact (IH st).
    Qed.
    Lemma walk_at_start fuel : forall path p dm tr o dm', (forall k, map fst (dk_dirs k) = D -> leads (kern_start D []) (de_base e k) path p) -> Forall no_wait tr ->
      walkdir s fuel path (fun dir dm => q <- in_mark s dir (de_fd e) dm ;; ret (fst q)) dm tr = (o, Ok dm') ->
      forall q, under D p q -> dwatched (dstate e (tr ++ o)) q.
    Proof.
      induction fuel as [|n IH]; intros path p dm tr o dm' HL H E q U; [discriminate|].
      assert (HT : Forall no_wait (tr ++ o)). { apply Forall_app. split; [exact H|]. pose proof (walk_no_wait (de_fd e) (S n) path dm tr) as W. rewrite E in W. exact W. }
      cbn [walkdir] in E. pose proof (under_in _ _ U) as Hp.
      apply bind_inv in E as [(o1 & d & o2 & E1 & E2 & ->)|[(u & _ & [=])|[(_ & [=])|(_ & [=])]]].
      injection E1 as <- <-.
      assert (HLa : forall t, Forall no_wait t -> leads (kern_start D []) (de_base e (dat_call e t)) path p).
      { intros t Ht. apply HL. rewrite (cz_at t Ht). apply (cz_dirs _ (cz_state t Ht)). }
      destruct (ld_opens _ _ _ _ (HLa tr H) tr) as (ents & Eo & Hents).
      rewrite Eo in *.
      cbn [kn_dirs kern_start] in Hents.
      set (t1 := tr ++ [OOpendir path (Some ents)]) in *. assert (H1 : Forall no_wait t1) by (apply Forall_app; split; [exact H|repeat constructor]).
      apply bind_inv in E2 as [(o3 & dm1 & o4 & E3 & E4 & ->)|[(u & _ & [=])|[(_ & [=])|(_ & [=])]]].
      pose proof (mark_no_wait s (de_fd e) path dm t1) as W3. rewrite E3 in W3. cbn [fst] in W3.
      pose proof (mark_at_start path p dm t1 H1 Hp (ld_real _ _ _ _ (HLa t1 H1) t1) o3 dm1 E3) as M3.
      apply bind_inv in E4 as [(o5 & dm2 & o6 & E5 & E6 & ->)|[(u & _ & [=])|[(_ & [=])|(_ & [=])]]].
      cbn in E6. injection E6 as <- <-.
      replace (tr ++ [OOpendir path (Some ents)] ++ o3 ++ o5 ++ [OClosedir path]) with (((t1 ++ o3) ++ o5) ++ [OClosedir path]) in * by (unfold t1; rewrite <- !app_assoc; reflexivity).
      apply watch_stays; [exact HT|]. apply Forall_app in HT as [HT _].
      destruct U as [_|nm q _ Hn U]; [apply watch_stays; assumption|].
      assert (H3 : Forall no_wait (t1 ++ o3)) by (apply Forall_app; split; assumption).
      pose proof (under_in _ _ U) as Hs. pose proof (Hents nm Hn Hs) as Hin. clear Hents Eo M3 E3 W3 HT H1. clearbody t1.
      revert dm1 o5 dm2 E5. revert H3. generalize (t1 ++ o3). induction ents as [|de es IHe]; intros t H3 dm1 o5 dm2 E5; [destruct Hin|].
      assert (HR : forall t, Forall no_wait t -> os_realpath s t (firstn path_ulim (path ++ lit "/" ++ nm)) = Some (entry p nm)).
      { intros t' Ht. destruct (ld_join _ _ _ _ (HLa t' Ht) t' nm) as [J1 J2].
        { exact Hs. }
        rewrite firstn_all2; [exact J2|exact J1]. }
      destruct Hin as [->|Hin].
      - cbn [de_type de_name N.eqb Pos.eqb negb] in E5.
        unfold good_name in Hn. rewrite !andb_true_iff, !negb_true_iff in Hn. destruct Hn as [[_ Hd1] Hd2]. rewrite Hd1, Hd2 in E5.
        apply bind_inv in E5 as [(o7 & rp & o8 & E7 & E8 & ->)|[(u & _ & [=])|[(_ & [=])|(_ & [=])]]].
        unfold realpath in E7. rewrite HR in E7 by exact H3. injection E7 as <- <-. set (x := ORealpath _ _) in *.
        assert (H4 : Forall no_wait (t ++ [x])) by (apply Forall_app; split; [exact H3|repeat constructor]).
        apply bind_inv in E8 as [(o9 & dm3 & o10 & E9 & E10 & ->)|[(u & _ & [=])|[(_ & [=])|(_ & [=])]]].
        pose proof (IH _ _ _ _ _ _ (fun k Hk => sh_leads _ _ (shown_fs k Hk) _ Hs) H4 E9 q U) as W. pose proof (walk_no_wait (de_fd e) n (entry p nm) dm1 (t ++ [x])) as W9. rewrite E9 in W9. cbn [fst] in W9.
        replace (t ++ [x] ++ o9 ++ o10) with (((t ++ [x]) ++ o9) ++ o10) by (rewrite <- !app_assoc; reflexivity).
        apply watch_stays; [|exact W]. apply Forall_app. split; [apply Forall_app; split; assumption|].
        pose proof (each_no_wait (de_fd e) n path es dm3 ((t ++ [x]) ++ o9)) as W10. unfold each_sub in W10. rewrite E10 in W10. exact W10.
      - destruct (negb (de_type de =? 4)%N); [eapply IHe; eassumption|].
        destruct (text_eqb (de_name de) (lit ".")); [eapply IHe; eassumption|].
        destruct (text_eqb (de_name de) (lit "..")); [eapply IHe; eassumption|].
        apply bind_inv in E5 as [(o7 & rp & o8 & E7 & E8 & ->)|[(u & _ & [=])|[(_ & [=])|(_ & [=])]]].
        injection E7 as <- Er. set (x := ORealpath _ _) in *.
        assert (H4 : Forall no_wait (t ++ [x])) by (apply Forall_app; split; [exact H3|repeat constructor]). rewrite app_assoc.
        destruct rp as [real|]; [|eapply IHe; eassumption].
        apply bind_inv in E8 as [(o9 & dm3 & o10 & E9 & E10 & ->)|[(u & _ & [=])|[(_ & [=])|(_ & [=])]]]. rewrite app_assoc.
        pose proof (walk_no_wait (de_fd e) n real dm1 (t ++ [x])) as W9. rewrite E9 in W9. cbn [fst] in W9.
        eapply IHe; [exact Hin| |exact E10]. apply Forall_app; split; assumption.
    Qed.

    Variables path root : text.
    Hypothesis leads_to : forall k, map fst (dk_dirs k) = D -> leads (kern_start D []) (de_base e k) path root.
    Lemma make_at_start fuel il tr o ok ke ep : Forall no_wait tr -> in_make_sysres s fuel path il tr = (o, Ok (ok, ke, ep)) ->
      r_lt ok r_complete = true -> forall q, under D root q -> dwatched (dstate e (tr ++ o)) q.
    Proof.
      intros H E Hok q U. pose proof (in_make_no_wait s fuel path il tr) as W. rewrite E in W. cbn [fst] in W.
      unfold in_make_sysres in E.
      apply bind_inv in E as [(o1 & fd & o2 & E1 & E2 & ->)|[(u & _ & [=])|[(_ & [=])|(_ & [=])]]]. cbv zeta in E2.
      assert (Ef : fd = de_fd e) by (unfold inotify_init, s, system in E1; injection E1 as _ <-; reflexivity). subst fd.
      destruct (de_fd e <? 0)%Z; [injection E2 as <- <- <- <-; discriminate|].
      apply bind_inv in E2 as [(o3 & dm & o4 & E3 & E4 & ->)|[(u & _ & [=])|[(_ & [=])|(_ & [=])]]].
      assert (Wt : Forall no_wait (tr ++ o1)) by (rewrite !Forall_app in W; apply Forall_app; tauto).
      pose proof (walk_at_start fuel path root [] (tr ++ o1) o3 dm leads_to Wt E3 q U) as Hq.
      replace (tr ++ o1 ++ o3 ++ o4) with (((tr ++ o1) ++ o3) ++ o4) by (rewrite <- !app_assoc; reflexivity).
      apply watch_stays; [|exact Hq]. rewrite !Forall_app in *. tauto.
    Qed.
    Definition all_flagged (k : dkern) : Prop := forall p, under D root p -> told_all p p (dk_log k).
    Lemma flagged_still tr : Forall no_wait tr -> all_flagged (dstate e tr).
    Proof. intros H p _. rewrite (cz_log _ (cz_state tr H)). apply told_all_nil. Qed.
    Lemma flagged_later tr o : Forall no_wait tr -> (forall q, under D root q -> dwatched (dstate e tr) q) -> all_flagged (dstate e (tr ++ o)).
    Proof.
      intros H W p U. destruct (W p U) as (wd & Hw). destruct (di_watch _ _ _ _ _ (kg_inv _ (dstart_good tr)) _ _ Hw) as (P & HP).
      assert (P = p) as ->.
      { assert (L : log_ok (dstate e tr)) by (apply always_state; [rewrite start; apply log_ok_start|intros; now apply log_ok_happen|intros; now apply log_ok_mark|intros; now apply log_ok_read]).
        destruct (lo_place _ L _ _ _ Hw HP) as [->|M]; [reflexivity|]. rewrite (cz_log _ (cz_state tr H)) in M. destruct M as (? & ? & ? & ? & ? & [] & _). }
      destruct (stays_state wd p e o tr (conj (dstart_uniq tr) (conj (dstart_good tr) HP))) as (_ & l & El & K). rewrite (cz_log _ (cz_state tr H)) in El. cbn in El. subst l.
      apply (K p Hw).
    Qed.
    Lemma run_at_start fuel il tr : Forall no_wait tr ->
      let '(o, _) := run_inotify s fuel path il tr in
      Forall no_wait o \/ exists a b, o = a ++ b /\ Forall no_wait a /\ (forall q, under D root q -> dwatched (dstate e (tr ++ a)) q).
    Proof.
      intros H. unfold run_inotify, platform_watch. unfold bind at 1. pose proof (in_make_no_wait s fuel path il tr) as W.
      destruct (in_make_sysres s fuel path il tr) as [a ra] eqn:Ea. cbn [fst] in W.
      destruct ra as [[[ok ke] ep]|u| |]; try (left; exact W). destruct (r_lt ok r_complete) eqn:Ok0.
      - pose proof (make_at_start _ _ _ _ _ _ _ H Ea Ok0) as Q. unfold bind at 1.
        destruct (ep_loop _ _ _ _ _ _ _ _ _ _) as [b [[ok' ke']|u| |]]; cbn; right; eexists a, _; split; try reflexivity; split; assumption.
      - destruct fuel as [|n]; cbn [ep_loop]; unfold bind at 1.
        + cbn. left. rewrite app_nil_r. exact W.
        + rewrite Ok0. cbn. left. apply Forall_app. split; [exact W|repeat constructor].
    Qed.
    Lemma watch_at_start fuel il : (forall tr, os_geteuid s tr <> 0%Z) -> all_flagged (dstate e (fst (linux_watch s fuel path il []))).
    Proof.
      intros Hu. unfold linux_watch. unfold bind at 1. unfold try_fanotify. unfold bind at 1, geteuid.
      destruct (Z.eqb_spec (os_geteuid s []) 0) as [H0|_]; [now apply Hu in H0|].
      cbn [app ret r_eqb code N.eqb Pos.eqb]. set (g := OGeteuid (os_geteuid s [])).
      assert (Hg : Forall no_wait [g]) by (repeat constructor).
      pose proof (run_at_start fuel il [g] Hg) as R. unfold bind at 1. revert R. destruct (run_inotify s fuel path il [g]) as [o r]. intros R.
      destruct R as [R|(a & b & -> & Ha & Hq)].
      - apply flagged_still. destruct r as [r|u| |]; try (constructor; [exact Coq.Init.Logic.I|exact R]).
        destruct (r_ge r r_e); cbn; constructor; try exact Coq.Init.Logic.I; apply Forall_app; (split; [exact R|repeat constructor]).
      - assert (Hga : Forall no_wait ([g] ++ a)) by (apply Forall_app; auto).
        assert (Fin : forall c, all_flagged (dstate e (g :: (a ++ b) ++ c))).
        { intros c. replace (g :: (a ++ b) ++ c) with (([g] ++ a) ++ b ++ c) by (cbn; rewrite <- !app_assoc; reflexivity). now apply flagged_later. }
        destruct r as [r|u| |]; cbn [fst]; try (specialize (Fin []); rewrite app_nil_r in Fin; exact Fin).
        destruct (r_ge r r_e); cbn; apply Fin.
    Qed.
  End Start.
End Env.

(** Invariants of the kernel of [DeepSpec]. *)
From Verif Require Import Base EventModel Sys InotifySpec KernelSpec InotifyFacts KernelFacts DeepSpec.

Definition fits (G : list (Z * text)) (s : sent) : Prop :=
  let r := fst s in
  match snd s with
  | About mv o a dir => In (k_wd r, dir) G /\ k_name r = name_of o a /\ effect_of (k_kind r) = Some (effect_told o) /\ type_of r = type_told o /\ k_cookie r = mv
  | Itself => effect_of (k_kind r) = None /\ k_kind r <> KOverflow /\ exists p, In (k_wd r, p) G
  | Gap => k_kind r = KOverflow /\ k_wd r = (-1)%Z
  end.
Definition adjs (a b : sent) : Prop :=
  ~ rename_pair (fst b) (fst a) /\
  (rename_pair (fst a) (fst b) -> k_dir (fst b) = k_dir (fst a) /\ exists mv o d d', snd a = About mv o false d /\ snd b = About mv o true d').
Definition adjs_all (q : list sent) : Prop := forall a r n b, q = a ++ r :: n :: b -> adjs r n.
Lemma adjs_nil : adjs_all [].
Proof. intros [|? []] r n b E; discriminate. Qed.
Lemma adjs_snoc q n : adjs_all q -> (forall r, In r q -> adjs r n) -> adjs_all (q ++ [n]).
Proof.
  intros H L a r m b E. destruct b as [|z b] using rev_ind.
  - change (a ++ [r; m]) with (a ++ [r] ++ [m]) in E. rewrite app_assoc in E. apply app_inj_tail in E as [E ->]. apply L. rewrite E. apply in_elt.
  - clear IHb. rewrite app_comm_cons, app_comm_cons, app_assoc in E. apply app_inj_tail in E as [E _]. eapply H, E.
Qed.
Lemma adjs_part a q b : adjs_all (a ++ q ++ b) -> adjs_all q.
Proof. intros H x r n y ->. apply (H (a ++ x) r n (y ++ b)). now rewrite <- !app_assoc. Qed.
Lemma adjs_other r n : is_half (k_kind (fst n)) = false -> adjs r n.
Proof. intros H. split; [intros (A & _)|intros (_ & A & _)]; rewrite A in H; discriminate H. Qed.
Lemma adjs_other' r n : is_half (k_kind (fst r)) = false -> adjs r n.
Proof. intros H. split; [intros (_ & A & _)|intros (A & _)]; rewrite A in H; discriminate H. Qed.
Lemma adjs_cookie r n : k_cookie (fst r) <> k_cookie (fst n) -> adjs r n.
Proof. intros H. split; [intros (_ & _ & A & _)|intros (_ & _ & A & _)]; congruence. Qed.

Section Inv.
  Variables (W : list (text * option Z)) (G : list (Z * text)) (nx : Z) (C : N) (S : list sent).
  Record dinv : Prop := {
    di_fits : Forall (fits G) S;
    di_watch : forall p wd, In (p, Some wd) W -> exists P, In (wd, P) G;
    di_range : forall wd P, In (wd, P) G -> (0 < wd < nx)%Z;
    di_next : (1 <= nx <= 2147483648)%Z;
    di_fun : forall wd p q, In (wd, p) G -> In (wd, q) G -> p = q;
    di_one : forall p q wd, In (p, Some wd) W -> In (q, Some wd) W -> p = q;
    di_ok : Forall (fun s => krec_ok (fst s)) S;
    di_short : Forall (fun s => (length (encode_rec (fst s)) <= 300)%nat) S;
    di_cookies : Forall (fun s => (k_cookie (fst s) <= C)%N) S;
    di_adj : adjs_all S;
    di_dead : forall x s y, S = x ++ s :: y -> k_kind (fst s) = KDeleteSelf ->
      (forall p, ~ In (p, Some (k_wd (fst s))) W) /\ Forall (fun n => k_wd (fst n) = k_wd (fst s) -> effect_of (k_kind (fst n)) = None) y }.
  (** A record that may be added. *)
  Record okay (s : sent) : Prop := {
    ok_fits : fits G s;
    ok_rec : krec_ok (fst s);
    ok_short : (length (encode_rec (fst s)) <= 300)%nat;
    ok_ck : (k_cookie (fst s) <= C)%N;
    ok_live : effect_of (k_kind (fst s)) <> None -> exists p, In (p, Some (k_wd (fst s))) W;
    ok_gone : k_kind (fst s) = KDeleteSelf -> forall p, ~ In (p, Some (k_wd (fst s))) W }.
End Inv.

Lemma dinv_add W G nx C S s : dinv W G nx C S -> okay W G C s -> (forall x, In x S -> adjs x s) -> dinv W G nx C (S ++ [s]).
Proof.
  intros [I1 I2 I3 I4 I5 I6 I7 I8 I9 I10 I11] [O1 O2 O3 O4 O5 O6] A. constructor; auto; try (apply Forall_app; split; [assumption|constructor; [assumption|constructor]]).
  - now apply adjs_snoc.
  - intros x r y E K. destruct y as [|z y _] using rev_ind.
    + apply app_inj_tail in E as [_ <-]. split; [now apply O6|constructor].
    + rewrite app_comm_cons, app_assoc in E. apply app_inj_tail in E as [E <-]. destruct (I11 x r y E K) as [H1 H2]. split; [exact H1|].
      apply Forall_app. split; [exact H2|]. repeat constructor. intros Ew. destruct (effect_of (k_kind (fst s))) eqn:Ef; [|reflexivity].
      destruct O5 as (p & Hp); [congruence|]. rewrite Ew in Hp. destruct (H1 p Hp).
Qed.
Lemma dinv_dirs W W' G nx C C' S : dinv W G nx C S -> (forall p wd, In (p, Some wd) W' -> exists p', In (p', Some wd) W) ->
  (forall p q wd, In (p, Some wd) W' -> In (q, Some wd) W' -> p = q) -> (C <= C')%N -> dinv W' G nx C' S.
Proof.
  intros [I1 I2 I3 I4 I5 I6 I7 I8 I9 I10 I11] Hw Ho Hc. constructor; auto.
  - intros p wd H. destruct (Hw p wd H) as (p' & H'). eauto.
  - revert I9. apply Forall_impl. intros. lia.
  - intros x s y E K. destruct (I11 x s y E K) as [H1 H2]. split; [|exact H2]. intros p Hp. destruct (Hw _ _ Hp) as (p' & Hp'). now apply (H1 p').
Qed.
Lemma okay_overflow W G C : okay W G C overflow.
Proof.
  constructor; cbn; try (split; reflexivity); try lia; try congruence.
  constructor; cbn; try lia; try congruence. constructor.
Qed.
Lemma post_cases max q s :
  (exists f, post max q s = (q, [(snd s, f)]) /\ f <> Queued) \/ post max q s = (q ++ [s], [(snd s, Queued)]) \/
  post max q s = (q ++ [overflow], [(snd s, Lost); (Gap, Queued)]).
Proof.
  unfold post. destruct (_ <=? _)%nat.
  - destruct (existsb (fun x => overflows (fst x)) q); [left; exists Lost; split; [reflexivity|discriminate]|auto].
  - destruct (rev q); [auto|]. destruct (_ && _); [left; exists Joined; split; [reflexivity|discriminate]|auto].
Qed.
Lemma dinv_posts max W G nx C R : forall l q, dinv W G nx C (R ++ q) -> Forall (okay W G C) l ->
  (forall x s, In x (R ++ q) -> In s l -> adjs x s) -> ForallOrdPairs adjs l ->
  let '(q', f) := posts max q l in
  dinv W G nx C (R ++ q') /\ map snd q' = map snd q ++ map fst (filter is_queued f).
Proof.
  induction l as [|s l IH]; intros q I O A P; cbn [posts].
  { split; [exact I|cbn; now rewrite app_nil_r]. }
  inversion O as [|? ? O1 O2]; subst. inversion P as [|? ? P1 P2]; subst. rewrite Forall_forall in P1.
  destruct (post_cases max q s) as [(f0 & -> & Hf)|[->| ->]].
  - specialize (IH q I O2). destruct (posts max q l) as [q' f]. destruct IH as [IH1 IH2]; auto.
    { intros x y Hx Hy. apply A; [exact Hx|now right]. }
    split; [exact IH1|]. rewrite IH2, filter_app. cbn [filter is_queued snd]. destruct f0; [congruence|reflexivity..].
  - assert (I' : dinv W G nx C (R ++ q ++ [s])). { rewrite app_assoc. apply dinv_add; auto. intros x Hx. apply A; [exact Hx|now left]. }
    specialize (IH (q ++ [s]) I' O2). destruct (posts max (q ++ [s]) l) as [q' f]. destruct IH as [IH1 IH2]; auto.
    { intros x y Hx Hy. rewrite app_assoc in Hx. apply in_app_iff in Hx as [Hx|[<-|[]]]; [apply A; [exact Hx|now right]|now apply P1]. }
    split; [exact IH1|]. rewrite IH2, filter_app, map_app, map_app, <- app_assoc. reflexivity.
  - assert (I' : dinv W G nx C (R ++ q ++ [overflow])). { rewrite app_assoc. apply dinv_add; auto using okay_overflow. intros x Hx. now apply adjs_other. }
    specialize (IH (q ++ [overflow]) I' O2). destruct (posts max (q ++ [overflow]) l) as [q' f]. destruct IH as [IH1 IH2]; auto.
    { intros x y Hx Hy. rewrite app_assoc in Hx. apply in_app_iff in Hx as [Hx|[<-|[]]]; [apply A; [exact Hx|now right]|now apply adjs_other']. }
    split; [exact IH1|]. rewrite IH2, filter_app, map_app, map_app, <- app_assoc. reflexivity.
Qed.

(** *** The kernel's state *)
Definition everything (k : dkern) : list sent := dk_read k ++ dk_queue k.
Record kgood (k : dkern) : Prop := {
  kg_inv : dinv (dk_dirs k) (dk_given k) (dk_next k) (dk_cookies k) (everything k);
  kg_due : map snd (everything k) = due k }.
Lemma kgood_start D F : kgood (dk_start D F).
Proof.
  constructor; [|reflexivity].
  assert (Nw : forall (p : text) (wd : Z), ~ In (p, Some wd) (map (fun p : text => (p, None)) D)). { intros p wd H. apply in_map_iff in H as (x & H & _). discriminate. }
  constructor; cbn; try (intros; contradiction); try (constructor; fail); try lia.
  - intros p wd H. destruct (Nw _ _ H).
  - intros p q wd H. destruct (Nw _ _ H).
  - apply adjs_nil.
  - intros x s y E. destruct x; discriminate.
Qed.
Lemma wd_at_in k p wd : wd_at k p = Some wd -> In (p, Some wd) (dk_dirs k).
Proof.
  unfold wd_at. destruct (find _ _) as [[q w]|] eqn:E; [|discriminate]. cbn. intros ->. apply find_some in E as [E1 E2].
  cbn in E2. apply text_eqb_eq in E2. now subst q.
Qed.
Lemma watched_as_in k wd : (exists P, In (wd, P) (dk_given k)) -> In (wd, watched_as k wd) (dk_given k).
Proof.
  intros (P & H). unfold watched_as. destruct (find _ _) as [[w q]|] eqn:E.
  - apply find_some in E as [E1 E2]. cbn in E2. apply Z.eqb_eq in E2. now subst w.
  - exfalso. eapply find_none in E; [|exact H]. cbn in E. rewrite Z.eqb_refl in E. discriminate.
Qed.

Definition wds_kept (W W' : list (text * option Z)) (wd : Z) : Prop := (exists p, In (p, Some wd) W) -> exists p, In (p, Some wd) W'.
Lemma on_watch_okay k W' p kd (dir : bool) c C n what : kgood k ->
  n = [] \/ good_name n = true -> (names_entry kd = true -> n <> []) -> (c < 4294967296)%N -> (c <= C)%N ->
  (forall wd, wd_at k p = Some wd -> In (wd, watched_as k wd) (dk_given k) -> fits (dk_given k) (rec_of wd kd dir c n, what (watched_as k wd))) ->
  (effect_of kd <> None -> forall wd, wd_at k p = Some wd -> wds_kept (dk_dirs k) W' wd) ->
  (kd = KDeleteSelf -> forall wd, wd_at k p = Some wd -> forall q, ~ In (q, Some wd) W') ->
  Forall (okay W' (dk_given k) C) (on_watch k p kd dir c n what).
Proof.
  intros [I _] Hn Hk Hc HC Hf Hl Hg. unfold on_watch. destruct (wd_at k p) as [wd|] eqn:E; constructor; [|constructor].
  pose proof (wd_at_in _ _ _ E) as Hin. destruct (di_watch _ _ _ _ _ I _ _ Hin) as (P & HP). pose proof (di_range _ _ _ _ _ I _ _ HP) as Hr. pose proof (di_next _ _ _ _ _ I).
  destruct (rec_ok wd kd dir c n) as [R1 R2]; auto; [lia|]. constructor; auto; cbn [fst].
  - apply Hf; [reflexivity|]. apply watched_as_in. eauto.
  - cbn. intros He. apply (Hl He wd eq_refl). eauto.
Qed.
Lemma on_watch_kind k p kd dir c n what : Forall (fun s => k_kind (fst s) = kd /\ k_cookie (fst s) = c /\ k_dir (fst s) = dir /\ exists d, snd s = what d) (on_watch k p kd dir c n what).
Proof. unfold on_watch. destruct (wd_at k p); constructor; [|constructor]. cbn. eauto 6. Qed.
Lemma pairs_app {A} (P : A -> A -> Prop) a b : ForallOrdPairs P a -> ForallOrdPairs P b -> (forall x y, In x a -> In y b -> P x y) -> ForallOrdPairs P (a ++ b).
Proof.
  induction 1 as [|x a H _ IH]; intros Hb Hx; [exact Hb|]. cbn. constructor.
  - apply Forall_app. split; [exact H|]. apply Forall_forall. intros y Hy. apply Hx; [now left|exact Hy].
  - apply IH; [exact Hb|]. intros. apply Hx; [now right|assumption].
Qed.
Lemma pairs_one k p kd dir c n what : ForallOrdPairs adjs (on_watch k p kd dir c n what).
Proof. unfold on_watch. destruct (wd_at k p); repeat constructor. Qed.
Lemma pairs_plain l : Forall (fun s => is_half (k_kind (fst s)) = false) l -> ForallOrdPairs adjs l.
Proof. induction 1 as [|x l H _ IH]; constructor; [|exact IH]. apply Forall_forall. intros y _. now apply adjs_other'. Qed.
Lemma on_watch_half k p kd dir c n what : is_half kd = false -> Forall (fun s => is_half (k_kind (fst s)) = false) (on_watch k p kd dir c n what).
Proof. intros H. eapply Forall_impl; [|apply on_watch_kind]. intros s (-> & _). exact H. Qed.
Lemma no_halves_join S l : Forall (fun s => is_half (k_kind (fst s)) = false) l -> forall x s, In x S -> In s l -> adjs x s.
Proof. intros H x s _ Hs. apply adjs_other. rewrite Forall_forall in H. now apply H. Qed.

(** What a change does to the directories. *)
Lemma dirs_from k o : kgood k -> forall p wd, In (p, Some wd) (ddirs_after k o) -> exists p', In (p', Some wd) (dk_dirs k).
Proof.
  intros I p wd. destruct o as [[|] q n|q n|q n|q n f|[|] q n q' n']; cbn [ddirs_after]; eauto.
  - intros H. apply in_app_iff in H as [H|[[=]|[]]]. eauto.
  - intros H. apply filter_In in H as [H _]. eauto.
  - intros H. apply in_map_iff in H as ([p0 w0] & [= <- ->] & H). eauto.
Qed.
Lemma dirs_one k o : kgood k -> forall p q wd, In (p, Some wd) (ddirs_after k o) -> In (q, Some wd) (ddirs_after k o) -> p = q.
Proof.
  intros [I _] p p' wd. pose proof (di_one _ _ _ _ _ I) as One. destruct o as [[|] q n|q n|q n|q n f|[|] q n q' n']; cbn [ddirs_after]; eauto.
  - intros H H'. apply in_app_iff in H as [H|[[=]|[]]]. apply in_app_iff in H' as [H'|[[=]|[]]]. eauto.
  - intros H H'. apply filter_In in H as [H _]. apply filter_In in H' as [H' _]. eauto.
  - intros H H'. apply in_map_iff in H as ([p0 w0] & [= <- ->] & H). apply in_map_iff in H' as ([p1 w1] & [= <- ->] & H'). rewrite (One _ _ _ H H'). reflexivity.
Qed.
Lemma dirs_kept k o wd : (forall q n f, o <> DRmdir q n f) -> wds_kept (dk_dirs k) (ddirs_after k o) wd.
Proof.
  intros Ho (p & H). destruct o as [[|] q n|q n|q n|q n f|[|] q n q' n']; cbn [ddirs_after]; eauto.
  - exists p. apply in_app_iff. now left.
  - now destruct (Ho q n f).
  - exists (renamed (entry q n) (entry q' n') p). apply in_map_iff. exists (p, Some wd). auto.
Qed.
Lemma recorded_snoc k o f : map fst (filter is_queued (flat_map snd (dk_log k ++ [(o, f)]))) = due k ++ map fst (filter is_queued f).
Proof. unfold due, recorded. rewrite flat_map_app, filter_app, map_app. cbn. now rewrite app_nil_r. Qed.

(** All a change needs: its records are fit for the new state. *)
Lemma kgood_more max k o : kgood k -> Forall (okay (ddirs_after k o) (dk_given k) (dcookies_after k o)) (drecords k o) ->
  (forall x s, In x (everything k) -> In s (drecords k o) -> adjs x s) -> ForallOrdPairs adjs (drecords k o) -> kgood (dhappen max k o).
Proof.
  intros I O A P. unfold dhappen. destruct (dlegal k o); [|exact I]. pose proof I as [I1 I2].
  assert (I' : dinv (ddirs_after k o) (dk_given k) (dk_next k) (dcookies_after k o) (everything k)).
  { eapply dinv_dirs; [exact I1|now apply dirs_from|now apply dirs_one|]. destruct o; cbn; unfold next_cookie; lia. }
  pose proof (dinv_posts max _ _ _ _ (dk_read k) (drecords k o) (dk_queue k) I' O A P) as H.
  destruct (posts max (dk_queue k) (drecords k o)) as [q f]. destruct H as [H1 H2]. constructor; cbn [dk_dirs dk_given dk_next dk_cookies dk_read dk_queue].
  - exact H1.
  - unfold due, recorded. cbn [dk_log]. rewrite recorded_snoc. rewrite <- I2. unfold everything. cbn [dk_read dk_queue]. rewrite !map_app, <- !app_assoc. f_equal. exact H2.
Qed.
Lemma kgood_happen max k o : kgood k -> kgood (dhappen max k o).
Proof.
  intros I. unfold dhappen. destruct (dlegal k o) eqn:L; [|exact I].
  enough (X : kgood (dhappen max k o)) by (unfold dhappen in X; rewrite L in X; exact X).
  assert (one : forall p kd (dir : bool) n, good_name n = true -> is_half kd = false -> kd <> KDeleteSelf ->
     effect_of kd = Some (effect_told o) -> type dir = type_told o -> n = name_of o false -> (forall q m f, o <> DRmdir q m f) ->
     drecords k o = on_watch k p kd dir 0 n (About 0 o false) -> kgood (dhappen max k o)).
  { intros p kd dir n Hn Hh Hd He Ht Hnm Ho E. apply kgood_more; auto; rewrite E.
    - apply on_watch_okay; auto; try lia; try congruence.
      + intros _. now apply good_name_facts in Hn.
      + intros wd _ HG. unfold fits. cbn. repeat split; auto.
      + intros _ wd _. now apply dirs_kept.
    - apply no_halves_join. now apply on_watch_half.
    - apply pairs_one. }
  destruct o as [d p n|p n|p n|p n first|d p n p' n'].
  - cbn [dlegal] in L. rewrite !andb_true_iff in L. destruct L as [[[_ Hn] _] _]. apply (one p KCreate d n); auto; discriminate.
  - cbn [dlegal] in L. rewrite !andb_true_iff in L. destruct L as [[_ Hn] _]. apply (one p KModify false n); auto; discriminate.
  - cbn [dlegal] in L. rewrite !andb_true_iff in L. destruct L as [[_ Hn] _]. apply (one p KDelete false n); auto; discriminate.
  - cbn [dlegal] in L. rewrite !andb_true_iff in L. destruct L as [[[[_ Hn] _] _] _]. clear one. set (o := DRmdir p n first) in *.
    pose proof (good_name_facts _ Hn) as (Hne & _ & _).
    assert (Hup : Forall (okay (ddirs_after k o) (dk_given k) (dcookies_after k o)) (on_watch k p KDelete true 0 n (About 0 o false))).
    { apply on_watch_okay; auto; try (cbn; lia); try discriminate.
      - intros wd _ HG. unfold fits. cbn. repeat split; auto.
      - intros _ wd E _. exists p. cbn [ddirs_after o]. apply filter_In. split; [now apply wd_at_in|]. cbn. apply negb_true_iff, text_eqb_neq. intros X. symmetry in X. now apply entry_longer in X. }
    assert (Hs : forall kd dir, names_entry kd = false -> effect_of kd = None -> kd <> KOverflow ->
      Forall (okay (ddirs_after k o) (dk_given k) (dcookies_after k o)) (on_watch k (entry p n) kd dir 0 [] (fun _ => Itself))).
    { intros kd dir H1 H2 H3. apply on_watch_okay; auto; try (cbn; lia); try congruence.
      - intros wd _ HG. unfold fits. cbn. eauto.
      - intros _ wd E q Hq. cbn [ddirs_after o] in Hq. apply filter_In in Hq as [Hq1 Hq2]. cbn in Hq2. apply wd_at_in in E.
        rewrite (di_one _ _ _ _ _ (kg_inv _ I) _ _ _ Hq1 E), text_eqb_refl in Hq2. discriminate. }
    assert (Hh : Forall (fun s => is_half (k_kind (fst s)) = false) (drecords k o)).
    { cbn [drecords o]. destruct first; rewrite !Forall_app; repeat split; now apply on_watch_half. }
    apply kgood_more; auto.
    + cbn [drecords o]. destruct first; rewrite !Forall_app; repeat split; auto; apply Hs; auto; discriminate.
    + now apply no_halves_join.
    + now apply pairs_plain.
  - cbn [dlegal] in L. rewrite !andb_true_iff in L. destruct L as [[[[[[_ _] Hn] Hn'] _] Hck] _]. clear one. apply N.ltb_lt in Hck. set (o := DMove d p n p' n') in *.
    pose proof (good_name_facts _ Hn) as (Hne & _ & _). pose proof (good_name_facts _ Hn') as (Hne' & _ & _).
    assert (Nr : forall q m f, o <> DRmdir q m f) by discriminate.
    pose proof (on_watch_kind k p KMovedFrom d (next_cookie k) n (About (next_cookie k) o false)) as K1.
    pose proof (on_watch_kind k p' KMovedTo d (next_cookie k) n' (About (next_cookie k) o true)) as K2.
    rewrite Forall_forall in K1, K2.
    assert (K3 : Forall (fun s => is_half (k_kind (fst s)) = false) (if d then on_watch k (entry p n) KMoveSelf true 0 [] (fun _ => Itself) else [])) by (destruct d; [now apply on_watch_half|constructor]).
    apply kgood_more; auto.
    + cbn [drecords o]. rewrite !Forall_app. repeat split.
      * apply on_watch_okay; auto; cbn [dcookies_after o]; unfold next_cookie; try lia; try discriminate.
        { intros wd _ HG. unfold fits. cbn. unfold type_of. cbn. repeat split; auto. }
        intros _ wd _. now apply dirs_kept.
      * apply on_watch_okay; auto; cbn [dcookies_after o]; unfold next_cookie; try lia; try discriminate.
        { intros wd _ HG. unfold fits. cbn. unfold type_of. cbn. repeat split; auto. }
        intros _ wd _. now apply dirs_kept.
      * destruct d; [|constructor]. apply on_watch_okay; auto; try (cbn; lia); try discriminate; cbn; try congruence.
        intros wd _ HG. unfold fits. cbn. repeat split; eauto. discriminate.
    + intros x s Hx Hs. cbn [drecords o] in Hs. pose proof (di_cookies _ _ _ _ _ (kg_inv _ I)) as F. rewrite Forall_forall in F. specialize (F x Hx). cbn beta in F.
      rewrite !in_app_iff in Hs. destruct Hs as [Hs|[Hs|Hs]].
      * destruct (K1 s Hs) as (_ & E & _). apply adjs_cookie. rewrite E. unfold next_cookie. lia.
      * destruct (K2 s Hs) as (_ & E & _). apply adjs_cookie. rewrite E. unfold next_cookie. lia.
      * apply adjs_other. rewrite Forall_forall in K3. now apply K3.
    + cbn [drecords o]. apply pairs_app; [apply pairs_one|apply pairs_app; [apply pairs_one|now apply pairs_plain|]|].
      * intros x y _ Hy. apply adjs_other. rewrite Forall_forall in K3. now apply K3.
      * intros x y Hx Hy. apply in_app_iff in Hy as [Hy|Hy]; [|apply adjs_other; rewrite Forall_forall in K3; now apply K3].
        destruct (K1 x Hx) as (A1 & A2 & A3 & d1 & A4). destruct (K2 y Hy) as (B1 & B2 & B3 & d2 & B4). split; [intros (H & _); congruence|].
        intros _. split; [congruence|]. rewrite A4, B4. eauto 8.
Qed.
Lemma kgood_happens max os : forall k, kgood k -> kgood (dhappens max k os).
Proof. induction os as [|o os IH]; intros k I; [exact I|]. cbn. apply IH, kgood_happen, I. Qed.

(** *** Calls *)
Lemma kgood_marking d k p : kgood k -> kgood (snd (dmarking d k p)).
Proof.
  intros I. unfold dmarking. destruct (negb d && dir_at k p); [|exact I]. destruct (wd_at k p) eqn:Hw; [exact I|].
  destruct (dk_next k <? 2147483648)%Z eqn:L; [|exact I]. apply Z.ltb_lt in L. destruct I as [[I1 I2 I3 I4 I5 I6 I7 I8 I9 I10 I11] Hd].
  assert (Hin : forall q wd, In (q, Some wd) (map (fun w => if text_eqb (fst w) p then (fst w, Some (dk_next k)) else w) (dk_dirs k)) ->
     wd = dk_next k /\ q = p \/ In (q, Some wd) (dk_dirs k)).
  { intros q wd H. apply in_map_iff in H as ([q0 w0] & H & H'). cbn in H. destruct (text_eqb q0 p) eqn:E; [|right; congruence].
    apply text_eqb_eq in E. injection H as <- <-. left. auto. }
  assert (Old : forall q, ~ In (q, Some (dk_next k)) (dk_dirs k)). { intros q H. apply I2 in H as (P & H). apply I3 in H. lia. }
  constructor; [|exact Hd]. cbn [snd dk_dirs dk_given dk_next dk_cookies]. change (everything _) with (everything k) at 1.
  assert (More : forall x, In x (dk_given k) -> In x (dk_given k ++ [(dk_next k, p)])) by (intros; apply in_app_iff; now left).
  constructor; auto.
  - revert I1. apply Forall_impl. intros [r nt]. unfold fits. cbn. destruct nt as [mv o a dir| |]; [intros (H & H'); split; auto|intros (H & H1 & q & H'); split; eauto|auto].
  - intros q wd H. apply Hin in H as [(-> & ->)|H]; [exists p; apply in_app_iff; right; now left|]. apply I2 in H as (P & H). eauto.
  - intros wd P H. apply in_app_iff in H as [H|[[= <- <-]|[]]]; [apply I3 in H; lia|lia].
  - lia.
  - intros wd q q' H H'. apply in_app_iff in H as [H|[[= <- <-]|[]]]; apply in_app_iff in H' as [H'|[H'|[]]].
    + eapply I5; eassumption.
    + injection H' as <- <-. apply I3 in H. lia.
    + apply I3 in H'. lia.
    + now injection H' as <-.
  - intros q q' wd H H'. apply Hin in H as [(-> & ->)|H]; apply Hin in H' as [(E & ->)|H']; auto; [now apply Old in H'|subst wd; now apply Old in H|eauto].
  - intros x s y E K. destruct (I11 x s y E K) as [H1 H2]. split; [|exact H2]. intros q H. apply Hin in H as [(Ew & ->)|H]; [|now apply (H1 q)].
    rewrite Forall_forall in I1. assert (F : fits (dk_given k) s) by (apply I1; rewrite E; apply in_elt). unfold fits in F. rewrite K in F.
    destruct (snd s) as [mv o a dir| |]; [destruct F as (_ & _ & F & _); discriminate|destruct F as (_ & _ & P & F); apply I3 in F; lia|destruct F as (F & _); discriminate].
Qed.
Lemma kgood_reading m w k : kgood k -> kgood (snd (dreading m w k)).
Proof.
  intros I. unfold dreading. destruct (dk_queue k) as [|s q] eqn:E; [exact I|]. destruct (negb m); [exact I|]. set (c := fitting _ _ _).
  assert (X : (dk_read k ++ firstn c (s :: q)) ++ skipn c (s :: q) = everything k) by (unfold everything; rewrite E, <- app_assoc, firstn_skipn; reflexivity).
  destruct I as [I1 I2]. cbn [snd]. constructor; unfold everything at 1; cbn [dk_dirs dk_given dk_next dk_cookies dk_read dk_queue]; rewrite X; assumption.
Qed.

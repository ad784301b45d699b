(** Invariants of the kernel of [KernelSpec]. *)
From Verif Require Import Base EventModel Sys InotifySpec KernelSpec InotifyFacts.

(** *** Merging *)
Inductive dedup : list krec -> list krec -> Prop :=
| DD0 : dedup [] []
| DD1 r a b : dedup a b -> dedup (r :: a) (r :: b)
| DD2 r a b : is_modify r = true -> dedup (r :: a) b -> dedup (r :: r :: a) b.
Lemma dedup_app a b x y : dedup a b -> dedup x y -> dedup (a ++ x) (b ++ y).
Proof. intros H Hx. induction H; cbn in *; [exact Hx|now constructor|now constructor]. Qed.
Lemma dedup_refl a : dedup a a.
Proof. induction a; now constructor. Qed.
Lemma dedup_nil a : dedup a [] -> a = [].
Proof. destruct a as [|r a]; [reflexivity|]. intros H. exfalso. remember (r :: a) as x eqn:X. remember [] as e eqn:Q. revert r a X Q. induction H; intros; try discriminate. eapply IHdedup; eauto. Qed.
Lemma dedup_last a b r : is_modify r = true -> dedup a (b ++ [r]) -> dedup (a ++ [r]) (b ++ [r]).
Proof.
  intros M H. remember (b ++ [r]) as c eqn:E. revert b E. induction H; intros b' E.
  - destruct b'; discriminate.
  - destruct b' as [|z b'].
    + injection E as -> ->. apply dedup_nil in H. subst a. cbn. apply DD2; [exact M|]. apply DD1. constructor.
    + injection E as -> ->. cbn. apply DD1, (IHdedup b' eq_refl).
  - cbn in *. apply DD2; [exact H|]. eapply IHdedup; eassumption.
Qed.
Lemma kind_bit_inj a b : kind_bit a = kind_bit b -> a = b.
Proof. destruct a, b; cbn; intros H; try reflexivity; discriminate H. Qed.
Lemma same_rec_eq a b : same_rec a b = true -> a = b.
Proof.
  unfold same_rec. rewrite !andb_true_iff. intros [[[[[H1 H2] H3] H4] H5] H6].
  apply Z.eqb_eq in H1. apply N.eqb_eq in H2. apply kind_bit_inj in H2. apply Bool.eqb_prop in H3. apply N.eqb_eq in H4. apply text_eqb_eq in H5. apply Nat.eqb_eq in H6.
  destruct a, b. cbn in *. now subst.
Qed.
Lemma push_cases q r : push q r = q ++ [r] \/ push q r = q /\ is_modify r = true /\ exists q', q = q' ++ [r].
Proof.
  unfold push. destruct (rev q) as [|l l'] eqn:E; [now left|]. destruct (same_rec l r && is_modify r) eqn:S; [|now left].
  apply andb_true_iff in S as [S M]. apply same_rec_eq in S. subst l. right. split; [reflexivity|]. split; [exact M|].
  exists (rev l'). rewrite <- (rev_involutive q), E. reflexivity.
Qed.
Lemma push_plain rs : Forall (fun r => is_modify r = false) rs -> forall q, fold_left push rs q = q ++ rs.
Proof.
  induction 1 as [|r rs H _ IH]; intros q; cbn [fold_left]; [now rewrite app_nil_r|]. rewrite IH.
  destruct (push_cases q r) as [->|(_ & M & _)]; [|congruence]. now rewrite <- app_assoc.
Qed.

(** *** Records and changes *)
Definition plain (k : kind) : bool := match k with KCreate | KModify | KDelete => true | _ => false end.
Definition is_half (k : kind) : bool := match k with KMovedFrom | KMovedTo => true | _ => false end.
Inductive logged (G : list (Z * text)) : list shape -> list krec -> Prop :=
| LG0 : logged G [] []
| LG1 r p f E rs : In (k_wd r, p) G -> plain (k_kind r) = true -> effect_of (k_kind r) = Some f -> logged G E rs ->
    logged G (Sh (entry p (k_name r)) f (type_of r) None :: E) (r :: rs)
| LG2 r n p E rs : In (k_wd r, p) G -> rename_pair r n -> k_wd n = k_wd r -> k_dir r = false -> k_dir n = false -> logged G E rs ->
    logged G (Sh (entry p (k_name r)) EtRename PtFile (Some (Sh (entry p (k_name n)) EtRename PtFile None)) :: E) (r :: n :: rs)
| LG3 r E rs : effect_of (k_kind r) = None -> logged G E rs -> logged G E (r :: rs)
| LG4 r p E rs : In (k_wd r, p) G -> is_half (k_kind r) = true -> (forall n rs', rs = n :: rs' -> ~ rename_pair r n) -> logged G E rs ->
    logged G (Sh (entry p (k_name r)) EtRename (type_of r) None :: E) (r :: rs).
Lemma logged_app G a x b y : logged G a x -> logged G b y -> (forall x' r n y', x = x' ++ [r] -> y = n :: y' -> ~ rename_pair r n) ->
  logged G (a ++ b) (x ++ y).
Proof.
  intros H Hb. induction H as [|r p f E rs Hin Hp Hf _ IH|r n p E rs Hin Hp Hw Hd Hd' _ IH|r E rs Hf _ IH|r p E rs Hin Hh Hn _ IH]; intros J; cbn.
  - exact Hb.
  - eapply LG1; eauto. apply IH. intros x' r' n y' -> . apply (J (r :: x')). reflexivity.
  - eapply LG2; eauto. apply IH. intros x' r' n' y' -> . apply (J (r :: n :: x')). reflexivity.
  - eapply LG3; eauto. apply IH. intros x' r' n y' -> . apply (J (r :: x')). reflexivity.
  - eapply LG4; eauto.
    + intros n rs' E'. destruct rs as [|m rs]; [|injection E' as <- _; eapply Hn; reflexivity]. cbn in E'. apply (J [] r n rs' eq_refl E').
    + apply IH. intros x' r' n y' -> . apply (J (r :: x')). reflexivity.
Qed.
Lemma logged_more G G' a x : (forall w, In w G -> In w G') -> logged G a x -> logged G' a x.
Proof. intros H Hl. induction Hl; [constructor|eapply LG1|eapply LG2|eapply LG3|eapply LG4]; eauto. Qed.
Lemma dedup_in a b : dedup a b -> forall r, In r a -> In r b.
Proof. induction 1; intros x Hx; [exact Hx| |apply IHdedup; destruct Hx; auto; now left]. destruct Hx as [->|Hx]; [now left|right; auto]. Qed.

(** *** Neighbours *)
Definition adj (r n : krec) : Prop := ~ rename_pair n r /\ (rename_pair r n -> k_dir n = k_dir r /\ k_wd n = k_wd r).
Definition adj_all (q : list krec) : Prop := forall a r n b, q = a ++ r :: n :: b -> adj r n.
Lemma adj_nil : adj_all [].
Proof. intros [|? []] r n b E; discriminate. Qed.
Lemma adj_snoc q n : adj_all q -> (forall q' r, q = q' ++ [r] -> adj r n) -> adj_all (q ++ [n]).
Proof.
  intros H L a r m b E. destruct b as [|z b] using rev_ind.
  - change (a ++ [r; m]) with (a ++ [r] ++ [m]) in E. rewrite app_assoc in E. apply app_inj_tail in E as [E ->]. eapply L, E.
  - clear IHb. rewrite app_comm_cons, app_comm_cons, app_assoc in E. apply app_inj_tail in E as [E _]. eapply H, E.
Qed.
Lemma adj_part a q b : adj_all (a ++ q ++ b) -> adj_all q.
Proof. intros H x r n y ->. apply (H (a ++ x) r n (y ++ b)). now rewrite <- !app_assoc. Qed.
Lemma adj_other r n : is_half (k_kind n) = false -> adj r n.
Proof. intros H. split; [intros (A & _)|intros (_ & A & _)]; rewrite A in H; discriminate H. Qed.
Lemma adj_app q rs : adj_all q -> Forall (fun r => is_half (k_kind r) = false) rs -> adj_all (q ++ rs).
Proof.
  intros H F. induction rs as [|r rs IH] using rev_ind; [now rewrite app_nil_r|]. rewrite app_assoc. apply Forall_app in F as [F1 F2].
  apply adj_snoc; [now apply IH|]. intros. apply adj_other. now inversion F2.
Qed.

(** *** The invariant *)
Definition sofar (k : kern) : list krec := kn_read k ++ kn_queue k.
Record kinv (k : kern) : Prop := {
  ki_log : exists all, logged (kn_given k) (owed k) all /\ dedup all (sofar k);
  ki_given : forall wd p, In (wd, p) (kn_watch k) -> In (wd, p) (kn_given k);
  ki_range : forall wd p, In (wd, p) (kn_given k) -> (0 < wd < kn_next k)%Z;
  ki_next : (1 <= kn_next k <= 2147483648)%Z;
  ki_fun : forall wd p q, In (wd, p) (kn_given k) -> In (wd, q) (kn_given k) -> p = q;
  ki_wds : Forall (fun r => exists p, In (k_wd r, p) (kn_given k)) (sofar k);
  ki_ok : Forall krec_ok (sofar k);
  ki_short : Forall (fun r => (length (encode_rec r) <= 300)%nat) (sofar k);
  ki_cookies : Forall (fun r => (k_cookie r <= kn_cookies k)%N) (sofar k);
  ki_adj : adj_all (sofar k);
  ki_dead : forall x r y, sofar k = x ++ r :: y -> k_kind r = KDeleteSelf ->
    (forall p, ~ In (k_wd r, p) (kn_watch k)) /\ Forall (fun n => k_wd n = k_wd r -> effect_of (k_kind n) = None) y;
}.

Lemma kinv_start dirs files : kinv (kern_start dirs files).
Proof.
  constructor; cbn; try (intros; contradiction); try (constructor; fail); try lia.
  - exists []. split; constructor.
  - apply adj_nil.
  - intros x r y E. destruct x; discriminate.
Qed.

Lemma watched_in k p wd : watched k p = Some wd -> In (wd, p) (kn_watch k).
Proof.
  unfold watched. destruct (find _ _) as [[w q]|] eqn:E; [|discriminate]. intros [= <-]. apply find_some in E as [E1 E2].
  cbn in *. apply text_eqb_eq in E2. now subst q.
Qed.
Lemma good_name_facts n : good_name n = true ->
  n <> [] /\ (length n <= 255)%nat /\ Forall (fun b => b <> 0 /\ b <> 47)%N n.
Proof.
  unfold good_name. rewrite !andb_true_iff. intros [[[[H1 H2] H3] _] _]. split; [|split].
  - intros ->. discriminate H1.
  - apply N.leb_le in H2. lia.
  - apply Forall_forall. intros b Hb. rewrite forallb_forall in H3. specialize (H3 b Hb). rewrite andb_true_iff, !negb_true_iff, !N.eqb_neq in H3. exact H3.
Qed.
Lemma entry_longer p n : n <> [] -> entry p n <> p.
Proof.
  intros H E. apply (f_equal (@length N)) in E. unfold entry in E. destruct p as [|c p]; [destruct n; [congruence|discriminate E]|].
  destruct (_ =? _)%N; rewrite !app_length in E; [|cbn [lit length] in E]; destruct n; [congruence| |congruence|]; cbn in E; lia.
Qed.
Lemma rec_ok wd kd dir c n : (0 < wd < 2147483648)%Z -> (c < 4294967296)%N -> n = [] \/ good_name n = true -> (names_entry kd = true -> n <> []) ->
  krec_ok (rec_of wd kd dir c n) /\ (length (encode_rec (rec_of wd kd dir c n)) <= 300)%nat.
Proof.
  intros Hw Hc Hn Hk.
  assert (L : (length n <= 255)%nat) by (destruct Hn as [->|Hn]; [cbn; lia|now apply good_name_facts in Hn]).
  assert (P : (k_pad (rec_of wd kd dir c n) <= 16)%nat) by (unfold rec_of, k_pad; destruct n; [repeat constructor|apply Nat.le_sub_l]).
  split; [constructor; cbn [rec_of k_wd k_kind k_dir k_cookie k_name] in *|].
  - lia.
  - exact Hc.
  - lia.
  - destruct Hn as [->|Hn]; [constructor|now apply good_name_facts in Hn].
  - intros H. unfold k_pad, rec_of. destruct n as [|b n]; [exfalso; apply H; reflexivity|]. assert (M : (Nat.modulo (length (b :: n)) 16 < 16)%nat) by (apply Nat.mod_upper_bound; discriminate). revert M. generalize (Nat.modulo (length (b :: n)) 16). intros m M. lia.
  - exact Hk.
  - rewrite (enc_len []). change (k_name (rec_of wd kd dir c n)) with n. lia.
Qed.

(** *** A change keeps the invariant *)
Lemma owed_snoc k o b : map (fun c => change (fst c)) (filter snd (kn_log k ++ [(o, b)])) = owed k ++ (if b : bool then [change o] else []).
Proof. rewrite filter_app, map_app. cbn. now destruct b. Qed.

(** The parts of the invariant that new records must keep. *)
Definition new_rec (k : kern) (c : N) (r : krec) : Prop :=
  (exists p, In (k_wd r, p) (kn_watch k)) /\ krec_ok r /\ (length (encode_rec r) <= 300)%nat /\ (k_cookie r <= c)%N.
Lemma kinv_more k dirs files watch c q log rs sh :
  kinv k -> (kn_cookies k <= c)%N -> (forall w, In w watch -> In w (kn_watch k)) ->
  (q = kn_queue k ++ rs \/ (exists r q', rs = [r] /\ is_modify r = true /\ kn_queue k = q' ++ [r] /\ q = kn_queue k)) ->
  map (fun c => change (fst c)) (filter snd log) = owed k ++ sh -> logged (kn_given k) sh rs ->
  Forall (new_rec k c) rs -> adj_all (sofar k ++ rs) ->
  (forall r n rs', In r (sofar k) -> rs = n :: rs' -> ~ rename_pair r n) ->
  (forall x r y, rs = x ++ r :: y -> k_kind r = KDeleteSelf ->
     (forall p, ~ In (k_wd r, p) watch) /\ Forall (fun n => k_wd n = k_wd r -> effect_of (k_kind n) = None) y) ->
  kinv (Kern dirs files watch (kn_next k) c q (kn_given k) (kn_read k) log).
Proof.
  intros [I1 I2 I3 I4 I5 I6 I7 I8 I9 I10 I11] Hc Hw Hq Hlog Hl Hn Ha Hf Hd.
  assert (Q : kn_read k ++ q = sofar k ++ rs \/ (exists r q', rs = [r] /\ is_modify r = true /\ sofar k = q' ++ [r] /\ kn_read k ++ q = sofar k)).
  { unfold sofar. destruct Hq as [->|(r & q' & -> & M & E & ->)]; [left; now rewrite app_assoc|right].
    exists r, (kn_read k ++ q'). repeat split; auto. now rewrite E, app_assoc. }
  assert (A : forall P : krec -> Prop, Forall P (sofar k) -> Forall P rs -> Forall P (kn_read k ++ q)).
  { intros P H1 H2. destruct Q as [->|(r & q' & _ & _ & _ & ->)]; [now apply Forall_app|exact H1]. }
  constructor; unfold sofar; cbn [kn_given kn_watch kn_next kn_cookies kn_read kn_queue kn_log]; auto.
  - destruct I1 as (all & L & D). exists (all ++ rs). split.
    + unfold owed. cbn [kn_log]. rewrite Hlog. apply logged_app; [exact L|exact Hl|]. intros x' r n y' -> Ey. apply (Hf r n y'); [|exact Ey]. apply (dedup_in _ _ D), in_elt.
    + destruct Q as [->|(r & q' & -> & M & E & ->)]; [apply dedup_app; [exact D|apply dedup_refl]|].
      rewrite E in *. now apply dedup_last.
  - apply A; [exact I6|]. revert Hn. apply Forall_impl. intros r ((p & H) & _). exists p. now apply I2.
  - apply A; [exact I7|]. revert Hn. apply Forall_impl. intros r (_ & H & _). exact H.
  - apply A; [exact I8|]. revert Hn. apply Forall_impl. intros r (_ & _ & H & _). exact H.
  - apply A; [revert I9; apply Forall_impl; intros; lia|]. revert Hn. apply Forall_impl. intros r (_ & _ & _ & H). exact H.
  - destruct Q as [->|(r & q' & _ & _ & _ & ->)]; [exact Ha|exact I10].
  - intros x r y E K.
    destruct Q as [Q|(r' & q' & _ & _ & _ & Q)]; rewrite Q in E.
    2:{ destruct (I11 x r y E K) as [H1 H2]. split; [intros p Hp; apply (H1 p), Hw, Hp|exact H2]. }
    assert (S : (exists y1, sofar k = x ++ r :: y1 /\ y = y1 ++ rs) \/ (exists x2, rs = x2 ++ r :: y /\ x = sofar k ++ x2)).
    { clear -E. revert x E. generalize (sofar k) as s0. induction s0 as [|z s0 IH]; intros x E; cbn [app] in E.
      - right. exists x. auto.
      - destruct x as [|z' x]; cbn [app] in E; injection E as -> E.
        + left. exists s0. auto.
        + destruct (IH x E) as [(y1 & -> & ->)|(x2 & -> & ->)]; [left; exists y1; auto|right; exists x2; auto]. }
    destruct S as [(y1 & S & ->)|(x2 & S & ->)].
    + destruct (I11 x r y1 S K) as [H1 H2]. split; [intros p Hp; apply (H1 p), Hw, Hp|]. apply Forall_app. split; [exact H2|].
      revert Hn. apply Forall_impl. intros n ((p & Hp) & _) Ewd. rewrite Ewd in Hp. destruct (H1 p Hp).
    + apply (Hd x2 r y S K).
Qed.

Lemma about_new k p kd dir c c' n : kinv k -> n = [] \/ good_name n = true -> (names_entry kd = true -> n <> []) -> (c < 4294967296)%N -> (c <= c')%N ->
  Forall (new_rec k c') (about k p kd dir c n).
Proof.
  intros I Hn Hk Hc Hc'. unfold about. destruct (watched k p) as [wd|] eqn:W; constructor; [|constructor].
  apply watched_in in W. pose proof (ki_range _ I _ _ (ki_given _ I _ _ W)). pose proof (ki_next _ I).
  destruct (rec_ok wd kd dir c n) as [H1 H2]; auto; [lia|]. split; [exists p; exact W|auto].
Qed.
Lemma about_kind k p kd dir c n : Forall (fun r => k_kind r = kd /\ k_name r = n /\ k_dir r = dir /\ k_cookie r = c) (about k p kd dir c n).
Proof. unfold about. destruct (watched k p); repeat constructor. Qed.
Lemma about_logged k p kd (dir : bool) n f : kinv k -> plain kd = true -> effect_of kd = Some f ->
  logged (kn_given k) (if is_watched k p then [Sh (entry p n) f (if dir then PtDir else PtFile) None] else []) (about k p kd dir 0 n).
Proof.
  intros I P F. unfold about, is_watched. destruct (watched k p) as [wd|] eqn:W; [|constructor].
  apply watched_in in W. apply (LG1 (kn_given k) (rec_of wd kd dir 0 n) p f); auto; [|constructor]. apply (ki_given _ I), W.
Qed.
Lemma logged_silent G rs : Forall (fun r => effect_of (k_kind r) = None) rs -> logged G [] rs.
Proof. induction 1; [constructor|now apply LG3]. Qed.
Lemma about_half k p kd dir c n : is_half kd = false -> Forall (fun r => is_half (k_kind r) = false) (about k p kd dir c n).
Proof. intros H. eapply Forall_impl; [|apply about_kind]. intros r (-> & _). exact H. Qed.
Lemma about_plain k p kd dir c n : kd <> KModify -> Forall (fun r => is_modify r = false) (about k p kd dir c n).
Proof. intros H. eapply Forall_impl; [|apply about_kind]. intros r (E & _). unfold is_modify. rewrite E. destruct kd; congruence. Qed.
Lemma no_self k p kd dir c n : kd <> KDeleteSelf -> forall x r y, about k p kd dir c n = x ++ r :: y -> k_kind r <> KDeleteSelf.
Proof.
  intros H x r y E. pose proof (about_kind k p kd dir c n) as F. rewrite E in F. apply Forall_app in F as [_ F]. inversion F as [|? ? (E1 & _) _]; subst. exact H.
Qed.

Lemma not_second rs : Forall (fun r => is_half (k_kind r) = false) rs -> forall (P : krec -> Prop) r n rs', P r -> rs = n :: rs' -> ~ rename_pair r n.
Proof. intros F P r n rs' _ -> (_ & H & _). inversion F as [|? ? A _]. rewrite H in A. discriminate A. Qed.
Lemma not_fresh k r n : kinv k -> In r (sofar k) -> k_cookie n = fresh_cookie k -> ~ rename_pair r n.
Proof. intros I Hr Hc (_ & _ & H & _). pose proof (ki_cookies _ I) as F. rewrite Forall_forall in F. specialize (F r Hr). unfold fresh_cookie in Hc. lia. Qed.
Lemma not_fresh' k r n : kinv k -> In r (sofar k) -> k_cookie n = fresh_cookie k -> ~ rename_pair n r.
Proof. intros I Hr Hc (_ & _ & H & _). pose proof (ki_cookies _ I) as F. rewrite Forall_forall in F. specialize (F r Hr). unfold fresh_cookie in Hc. lia. Qed.
Lemma kinv_happen k o : kinv k -> kinv (happen k o).
Proof.
  intros I. unfold happen. destruct (legal k o) eqn:L; [|exact I].
  assert (one : forall p kd (dir : bool) n f, place o = p -> good_name n = true -> plain kd = true -> effect_of kd = Some f ->
     change o = Sh (entry p n) f (if dir then PtDir else PtFile) None -> records k o = about k p kd dir 0 n ->
     watch_after k o = kn_watch k -> cookies_after k o = kn_cookies k ->
     kinv (Kern (dirs_after k o) (files_after k o) (watch_after k o) (kn_next k) (cookies_after k o)
         (fold_left push (records k o) (kn_queue k)) (kn_given k) (kn_read k) (kn_log k ++ [(o, is_watched k (place o))]))).
  { intros p kd dir n f Hp Hn Pl Ef Hch Hrec Hwa Hnr. rewrite Hrec, Hwa, Hp, Hnr.
    assert (Hh : Forall (fun r => is_half (k_kind r) = false) (about k p kd dir 0 n)) by (apply about_half; destruct kd; try discriminate; reflexivity).
    apply kinv_more with (rs := about k p kd dir 0 n) (sh := if is_watched k p then [change o] else []); auto; [lia| | | | | | |].
    - unfold about. destruct (watched k p) as [wd|]; [|left; cbn; now rewrite app_nil_r]. cbn [fold_left].
      destruct (push_cases (kn_queue k) (rec_of wd kd dir 0 n)) as [->|(-> & M & q' & E)]; [now left|]. right. eexists _, q'. eauto.
    - apply owed_snoc.
    - rewrite Hch. now apply about_logged.
    - apply about_new; auto; try lia. intros _. now apply good_name_facts in Hn.
    - apply adj_app; [apply (ki_adj _ I)|]. exact Hh.
    - intros r n0 rs' Hr. apply (not_second _ Hh (fun r => In r (sofar k))), Hr.
    - intros x r y E K. exfalso. revert K. eapply no_self; [|exact E]. intros ->. discriminate Pl. }
  destruct o as [d p n|p n|p n|p n first|p n n'|p n|d p n].
  - cbn [legal] in L. rewrite !andb_true_iff in L. destruct L as [[[_ Hn] _] _]. eapply one with (kd := KCreate) (dir := d); try reflexivity; exact Hn.
  - cbn [legal] in L. rewrite !andb_true_iff in L. destruct L as [[_ Hn] _]. eapply one with (kd := KModify) (dir := false); try reflexivity; exact Hn.
  - cbn [legal] in L. rewrite !andb_true_iff in L. destruct L as [[_ Hn] _]. eapply one with (kd := KDelete) (dir := false); try reflexivity; exact Hn.
  - cbn [legal] in L. rewrite !andb_true_iff in L. destruct L as [[[[_ Hn] _] _] _]. clear one.
    pose proof (good_name_facts _ Hn) as (Hne & _ & _).
    cbn [dirs_after files_after watch_after place records cookies_after].
    set (up := about k p KDelete true 0 n). set (self := about k (entry p n) KDeleteSelf true 0 [] ++ about k (entry p n) KIgnored false 0 []).
    assert (Pl : Forall (fun r => is_modify r = false) (if first then self ++ up else up ++ self)).
    { assert (A : Forall (fun r => is_modify r = false) up) by (apply about_plain; discriminate).
      assert (B : Forall (fun r => is_modify r = false) self) by (apply Forall_app; split; apply about_plain; discriminate).
      destruct first; now apply Forall_app. }
    assert (Sil : Forall (fun r => effect_of (k_kind r) = None) self).
    { apply Forall_app. split; (eapply Forall_impl; [|apply about_kind]); intros r (-> & _); reflexivity. }
    assert (Hh : Forall (fun r => is_half (k_kind r) = false) (if first then self ++ up else up ++ self)).
    { assert (A : Forall (fun r => is_half (k_kind r) = false) up) by (now apply about_half).
      assert (B : Forall (fun r => is_half (k_kind r) = false) self) by (apply Forall_app; split; now apply about_half).
      destruct first; now apply Forall_app. }
    apply kinv_more with (rs := if first then self ++ up else up ++ self) (sh := if is_watched k p then [change (RemoveDir p n first)] else []); auto; [lia| | | | | | | |].
    + intros w Hw. apply filter_In in Hw. apply Hw.
    + left. now apply push_plain.
    + apply owed_snoc.
    + assert (A := about_logged k p KDelete true n EtDestroy I eq_refl eq_refl). apply logged_silent with (G := kn_given k) in Sil. cbn [change].
      assert (J : forall a b c : list krec, a ++ b = c -> Forall (fun r => is_half (k_kind r) = false) c -> forall x' r n0 y', a = x' ++ [r] -> b = n0 :: y' -> ~ rename_pair r n0).
      { intros a b c <- Hf x' r n0 y' _ -> (_ & H & _). apply Forall_app in Hf as [_ Hf]. inversion Hf as [|? ? H' _]. rewrite H in H'. discriminate H'. }
      destruct first; [exact (logged_app _ _ _ _ _ Sil A (J _ _ _ eq_refl Hh))|]. pose proof (logged_app _ _ _ _ _ A Sil (J _ _ _ eq_refl Hh)) as B. now rewrite app_nil_r in B.
    + assert (A : Forall (new_rec k (kn_cookies k)) up) by (apply about_new; auto; try lia).
      assert (B : Forall (new_rec k (kn_cookies k)) self) by (apply Forall_app; split; apply about_new; auto; try lia; discriminate).
      destruct first; now apply Forall_app.
    + apply adj_app; [apply (ki_adj _ I)|]. exact Hh.
    + intros r n0 rs' Hr. apply (not_second _ Hh (fun r => In r (sofar k))), Hr.
    + (* the removed directory's watch *)
      assert (Swd : forall r, In r self -> In (k_wd r, entry p n) (kn_watch k)).
      { intros r Hr. unfold self, about in Hr. destruct (watched k (entry p n)) as [wd|] eqn:W; [|destruct Hr]. apply watched_in in W. destruct Hr as [<-|[<-|[]]]; exact W. }
      assert (Uwd : forall r, In r up -> In (k_wd r, p) (kn_watch k)).
      { intros r Hr. unfold up, about in Hr. destruct (watched k p) as [wd|] eqn:W; [|destruct Hr]. apply watched_in in W. destruct Hr as [<-|[]]; exact W. }
      assert (Un : forall r, In r up -> k_kind r <> KDeleteSelf).
      { intros r Hr. unfold up in Hr. pose proof (about_kind k p KDelete true 0 n) as F. rewrite Forall_forall in F. destruct (F r Hr) as (-> & _). discriminate. }
      assert (Gone : forall r, In r self -> forall q, ~ In (k_wd r, q) (filter (fun w => negb (text_eqb (snd w) (entry p n))) (kn_watch k))).
      { intros r Hr q Hq. apply filter_In in Hq as [Hq1 Hq2]. cbn [snd] in Hq2. rewrite (ki_fun _ I _ _ _ (ki_given _ I _ _ Hq1) (ki_given _ I _ _ (Swd r Hr))) in Hq2.
        rewrite text_eqb_refl in Hq2. discriminate. }
      assert (Fin : forall n0 r, In n0 (self ++ up) -> In r self -> k_wd n0 = k_wd r -> effect_of (k_kind n0) = None).
      { intros n0 r Hn0 Hr E. apply in_app_iff in Hn0 as [Hn0|Hn0].
        - rewrite Forall_forall in Sil. now apply Sil.
        - exfalso. apply Uwd in Hn0. rewrite E in Hn0. apply (entry_longer p n Hne).
          apply (ki_fun _ I (k_wd r)); [apply (ki_given _ I), Swd, Hr|apply (ki_given _ I), Hn0]. }
      intros x r y E K.
      assert (Hr : In r self).
      { assert (In r (if first then self ++ up else up ++ self)) by (rewrite E; apply in_elt).
        destruct first; apply in_app_iff in H as [H|H]; try exact H; destruct (Un r H K). }
      split; [now apply Gone|]. apply Forall_forall. intros n0 Hn0. apply Fin; [|exact Hr].
      assert (In n0 (if first then self ++ up else up ++ self)) by (rewrite E; apply in_app_iff; right; now right).
      destruct first; [exact H|]. apply in_app_iff in H as [H|H]; apply in_app_iff; auto.
  - cbn [legal] in L. rewrite !andb_true_iff in L. destruct L as [[[[[[_ Hn] Hn'] _] _] _] Hck]. clear one. apply N.ltb_lt in Hck.
    cbn [dirs_after files_after watch_after place records cookies_after]. set (c := fresh_cookie k).
    assert (Hc : c = (kn_cookies k + 1)%N) by reflexivity.
    set (rs := about k p KMovedFrom false c n ++ about k p KMovedTo false c n').
    apply kinv_more with (rs := rs) (sh := if is_watched k p then [change (Rename p n n')] else []); auto; [lia| | | | | | |].
    + left. apply push_plain. apply Forall_app. split; apply about_plain; discriminate.
    + apply owed_snoc.
    + unfold rs, about, is_watched. destruct (watched k p) as [wd|] eqn:W; [|constructor]. apply watched_in, (ki_given _ I) in W. cbn [app change].
      apply (LG2 (kn_given k) (rec_of wd KMovedFrom false c n) (rec_of wd KMovedTo false c n') p); auto; [|constructor].
      repeat split. cbn. lia.
    + pose proof (good_name_facts _ Hn). pose proof (good_name_facts _ Hn').
      apply Forall_app. split; apply about_new; auto; try lia; intros _; tauto.
    + unfold rs, about. destruct (watched k p) as [wd|]; [|rewrite app_nil_r; apply (ki_adj _ I)].
      change (sofar k ++ [rec_of wd KMovedFrom false c n] ++ [rec_of wd KMovedTo false c n']) with (sofar k ++ [rec_of wd KMovedFrom false c n] ++ [rec_of wd KMovedTo false c n']).
      rewrite app_assoc. apply adj_snoc; [apply adj_snoc; [apply (ki_adj _ I)|]|].
      * intros q' r E. split; [|intros (_ & H & _); discriminate H]. intros (_ & _ & H & _). cbn in H.
        pose proof (ki_cookies _ I) as F. rewrite E in F. apply Forall_app in F as [_ F]. inversion F; subst. lia.
      * intros q' r E. apply app_inj_tail in E as [_ <-]. split; [intros (H & _); discriminate H|]. intros _. split; reflexivity.
    + intros r n0 rs' Hr E. apply (not_fresh k r n0 I Hr). assert (H : In n0 rs) by (rewrite E; now left). unfold rs in H.
      apply in_app_iff in H as [H|H]; [pose proof (about_kind k p KMovedFrom false c n) as F|pose proof (about_kind k p KMovedTo false c n') as F]; rewrite Forall_forall in F; now destruct (F n0 H) as (_ & _ & _ & E').
    + intros x r y E K. exfalso. assert (H : In r rs) by (rewrite E; apply in_elt). unfold rs in H.
      apply in_app_iff in H as [H|H]; [pose proof (about_kind k p KMovedFrom false c n) as F|pose proof (about_kind k p KMovedTo false c n') as F]; rewrite Forall_forall in F; destruct (F r H) as (E' & _); congruence.
  - cbn [legal] in L. rewrite !andb_true_iff in L. destruct L as [[[_ Hn] _] Hck]. clear one. apply N.ltb_lt in Hck.
    cbn [dirs_after files_after watch_after place records cookies_after]. set (c := fresh_cookie k).
    assert (Hc : c = (kn_cookies k + 1)%N) by reflexivity.
    apply kinv_more with (rs := about k p KMovedFrom false c n) (sh := if is_watched k p then [change (MoveOut p n)] else []); auto; [lia| | | | | | |].
    + left. apply push_plain, about_plain. discriminate.
    + apply owed_snoc.
    + unfold about, is_watched. destruct (watched k p) as [wd|] eqn:W; [|constructor]. apply watched_in, (ki_given _ I) in W. cbn [change].
      apply (LG4 (kn_given k) (rec_of wd KMovedFrom false c n) p); auto; [intros ? ? [=]|constructor].
    + pose proof (good_name_facts _ Hn). apply about_new; auto; try lia; intros _; tauto.
    + unfold about. destruct (watched k p) as [wd|]; [|rewrite app_nil_r; apply (ki_adj _ I)]. apply adj_snoc; [apply (ki_adj _ I)|].
      intros q' r E. assert (Hr : In r (sofar k)) by (rewrite E; apply in_elt).
      split; [now apply (not_fresh' k)|]. intros H. now apply (not_fresh k) in H.
    + intros r n0 rs' Hr E. apply (not_fresh k r n0 I Hr). pose proof (about_kind k p KMovedFrom false c n) as F. rewrite E in F. inversion F as [|? ? (_ & _ & _ & E') _]. exact E'.
    + intros x r y E K. exfalso. revert K. eapply no_self; [|exact E]. discriminate.
  - cbn [legal] in L. rewrite !andb_true_iff in L. destruct L as [[[[_ Hn] _] _] Hck]. clear one. apply N.ltb_lt in Hck.
    cbn [dirs_after files_after watch_after place records cookies_after]. set (c := fresh_cookie k).
    assert (Hc : c = (kn_cookies k + 1)%N) by reflexivity.
    apply kinv_more with (rs := about k p KMovedTo d c n) (sh := if is_watched k p then [change (MoveIn d p n)] else []); auto; [lia| | | | | | |].
    + left. apply push_plain, about_plain. discriminate.
    + apply owed_snoc.
    + unfold about, is_watched. destruct (watched k p) as [wd|] eqn:W; [|constructor]. apply watched_in, (ki_given _ I) in W. cbn [change].
      apply (LG4 (kn_given k) (rec_of wd KMovedTo d c n) p); auto; [intros ? ? [=]|constructor].
    + pose proof (good_name_facts _ Hn). apply about_new; auto; try lia; intros _; tauto.
    + unfold about. destruct (watched k p) as [wd|]; [|rewrite app_nil_r; apply (ki_adj _ I)]. apply adj_snoc; [apply (ki_adj _ I)|].
      intros q' r E. assert (Hr : In r (sofar k)) by (rewrite E; apply in_elt).
      split; [now apply (not_fresh' k)|]. intros H. now apply (not_fresh k) in H.
    + intros r n0 rs' Hr E. apply (not_fresh k r n0 I Hr). pose proof (about_kind k p KMovedTo d c n) as F. rewrite E in F. inversion F as [|? ? (_ & _ & _ & E') _]. exact E'.
    + intros x r y E K. exfalso. revert K. eapply no_self; [|exact E]. discriminate.
Qed.
Lemma kinv_happens os : forall k, kinv k -> kinv (happens k os).
Proof. induction os as [|o os IH]; intros k I; [exact I|]. cbn. apply IH, kinv_happen, I. Qed.

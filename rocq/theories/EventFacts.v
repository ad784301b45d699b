(** Proofs about events, numbers and JSON (C12-C17). *)
From Verif Require Import Base PathModel EventModel EventSpec.

(** ** Induction over events *)
Lemma event_ind' (P : event -> Prop) :
  (forall p f t tm, P (Ev p f t tm None)) ->
  (forall p f t tm a, P a -> P (Ev p f t tm (Some a))) ->
  forall e, P e.
Proof.
  intros H0 H1. fix IH 1. intros [p f t tm [a|]].
  - apply H1. apply IH.
  - apply H0.
Qed.

(** ** Paths *)
Lemma texts_eqb_eq a b : texts_eqb a b = true <-> a = b.
Proof.
  revert b; induction a as [|x a IH]; intros [|y b]; cbn; split; intro H; try congruence.
  - apply andb_prop in H as [H1 H2]. apply text_eqb_eq in H1. apply IH in H2. congruence.
  - injection H as -> ->. rewrite text_eqb_refl. cbn. now apply IH.
Qed.

Lemma path_eqb_elems p q : path_eqb p q = true <-> path_elems p = path_elems q.
Proof. apply texts_eqb_eq. Qed.

Fixpoint join (l : list text) : text :=
  match l with
  | [] => []
  | [x] => x
  | x :: l' => x ++ slash :: join l'
  end.

Lemma join_cons2 x y l : join (x :: y :: l) = x ++ slash :: join (y :: l).
Proof. reflexivity. Qed.

Lemma join_head c (x : text) l : c :: join (x :: l) = join ((c :: x) :: l).
Proof. now destruct l. Qed.

Lemma segments_cons p : exists s ss, segments p = s :: ss.
Proof.
  destruct p as [|c p]; cbn; [eauto|].
  destruct (c =? slash)%N; [eauto|]. destruct (segments p); eauto.
Qed.

Definition names p := filter (fun s => negb (is_nil s)) (segments p).
Definition trail p := match names p with
                      | [] => []
                      | _ => if is_nil (last (segments p) []) then [[]] else []
                      end : list text.

Lemma names_slash p : names (slash :: p) = names p.
Proof. reflexivity. Qed.

Lemma last_cons_cons {A} (x y : A) l d : last (x :: y :: l) d = last (y :: l) d.
Proof. reflexivity. Qed.

Lemma trail_slash p : trail (slash :: p) = trail p.
Proof.
  unfold trail. rewrite names_slash. destruct (names p); [reflexivity|].
  change (segments (slash :: p)) with ([] :: segments p).
  destruct (segments_cons p) as (s & ss & E). rewrite E. reflexivity.
Qed.

Lemma names_nil_sq p : names p = [] -> squeeze_from true p = [] /\ is_nil (last (segments p) []) = true.
Proof.
  induction p as [|c p IH]; [now split|].
  intros H. destruct (N.eqb_spec c slash) as [->|Hn].
  - rewrite names_slash in H. destruct (IH H) as [H1 H2]. split; [exact H1|].
    change (segments (slash :: p)) with ([] :: segments p).
    destruct (segments_cons p) as (s & ss & E). rewrite E in *. exact H2.
  - exfalso. unfold names in H. cbn [segments] in H.
    destruct (N.eqb_spec c slash); [contradiction|].
    destruct (segments_cons p) as (s & ss & E). rewrite E in H. discriminate.
Qed.

Lemma squeeze_true_join p : squeeze_from true p = join (names p ++ trail p).
Proof.
  induction p as [|c p IH]; [reflexivity|].
  destruct (N.eqb_spec c slash) as [->|Hn].
  - rewrite names_slash, trail_slash, <- IH. reflexivity.
  - cbn [squeeze_from]. destruct (N.eqb_spec c 47) as [|_]; [contradiction|].
    destruct p as [|d p].
    + cbn. unfold names, trail, names. cbn. destruct (N.eqb_spec c slash); [contradiction|]. reflexivity.
    + destruct (N.eqb_spec d slash) as [->|Hd].
      * (* c then a slash *)
        assert (En : names (c :: slash :: p) = [c] :: names p).
        { unfold names. cbn [segments]. destruct (N.eqb_spec c slash); [contradiction|]. reflexivity. }
        assert (Es : segments (c :: slash :: p) = [c] :: segments p).
        { cbn [segments]. destruct (N.eqb_spec c slash); [contradiction|]. reflexivity. }
        unfold trail. rewrite En, Es.
        destruct (segments_cons p) as (s & ss & E).
        assert (Hla : is_nil (last ([c] :: segments p) []) = is_nil (last (segments p) []))
          by (rewrite E; reflexivity).
        unfold text in *. rewrite Hla.
        rewrite names_slash, trail_slash in IH.
        change (squeeze_from true (slash :: p)) with (squeeze_from true p) in IH.
        change (squeeze_from false (slash :: p)) with (slash :: squeeze_from true p).
        rewrite IH. destruct (names p) as [|n ns] eqn:Enp.
        -- destruct (names_nil_sq p Enp) as [H1 H2]. unfold text in *. rewrite H2.
           unfold trail. rewrite Enp. reflexivity.
        -- unfold trail. rewrite Enp. reflexivity.
      * assert (Hsq : squeeze_from false (d :: p) = squeeze_from true (d :: p)).
        { cbn. destruct (N.eqb_spec d 47); [contradiction|reflexivity]. }
        rewrite Hsq, IH.
        assert (exists s ss, segments (d :: p) = (d :: s) :: ss) as (s & ss & Es).
        { cbn. destruct (N.eqb_spec d slash); [contradiction|].
          destruct (segments_cons p) as (s & ss & E). rewrite E. eauto. }
        assert (Esc : segments (c :: d :: p) = (c :: d :: s) :: ss).
        { cbn [segments] in *. destruct (N.eqb_spec c slash); [contradiction|]. rewrite Es. reflexivity. }
        unfold trail, names. rewrite Es, Esc. cbn [filter is_nil negb].
        destruct ss as [|s2 ss]; [reflexivity|].
        rewrite !last_cons_cons.
        cbn [app]. apply join_head.
Qed.

Definition unelems (es : list text) : text :=
  match es with
  | e :: rest => if text_eqb e [slash] then slash :: join rest else join es
  | [] => []
  end.

Lemma segments_no_slash p : Forall (fun s => ~ In slash s) (segments p).
Proof.
  induction p as [|c p IH]; cbn; [repeat constructor; auto|].
  destruct (N.eqb_spec c slash).
  - constructor; auto.
  - destruct (segments p); inversion IH; subst; constructor; auto.
    + intros [|[]]; auto.
    + intros [|]; auto.
Qed.

Lemma squeeze_abs p : squeeze p = (if is_absolute p then [slash] else []) ++ squeeze_from true p.
Proof.
  destruct p as [|c p]; [reflexivity|]. cbn. unfold squeeze. cbn.
  unfold slash. destruct (N.eqb_spec c 47) as [->|]; reflexivity.
Qed.

Lemma elems_split p : path_elems p = (if is_absolute p then [[slash]] else []) ++ names p ++ trail p.
Proof. reflexivity. Qed.

Lemma names_no_root p n : In n (names p) -> text_eqb n [slash] = false.
Proof.
  intros Hi. apply filter_In in Hi as [Hi _].
  pose proof (segments_no_slash p) as HF. rewrite Forall_forall in HF. specialize (HF _ Hi).
  apply text_eqb_neq. intros ->. apply HF. now left.
Qed.

Lemma unelems_elems p : unelems (path_elems p) = squeeze p.
Proof.
  rewrite elems_split, squeeze_abs, squeeze_true_join.
  destruct (is_absolute p).
  - reflexivity.
  - cbn [app]. unfold unelems. destruct (names p) as [|n ns] eqn:E.
    + unfold trail. rewrite E. reflexivity.
    + cbn [app]. rewrite (names_no_root p n); [reflexivity|]. rewrite E. now left.
Qed.

Lemma abs_squeeze p : is_absolute (squeeze p) = is_absolute p.
Proof.
  destruct p as [|c p]; [reflexivity|]. unfold squeeze, is_absolute, slash. cbn.
  destruct (N.eqb_spec c 47) as [->|H]; cbn; [reflexivity|].
  now apply N.eqb_neq.
Qed.

(** After a squeeze that remembers a preceding slash, the file names and the
    trailing slash are those of the original. *)
Lemma segments_squeeze_true p :
  names (squeeze_from true p) = names p /\ trail (squeeze_from true p) = trail p.
Proof.
  (* by induction on the length, following the text *)
  remember (length p) as n eqn:En. revert p En.
  induction n as [n IH] using lt_wf_ind. intros p ->.
  destruct p as [|c p]; [now split|].
  destruct (N.eqb_spec c slash) as [->|Hc].
  - rewrite names_slash, trail_slash. change (squeeze_from true (slash :: p)) with (squeeze_from true p).
    apply (IH (length p)); cbn; auto.
  - assert (Esq : squeeze_from true (c :: p) = c :: squeeze_from false p).
    { cbn. destruct (N.eqb_spec c 47); [contradiction|reflexivity]. }
    rewrite Esq. clear Esq.
    destruct p as [|d p]; [now split|].
    destruct (N.eqb_spec d slash) as [->|Hd].
    + change (squeeze_from false (slash :: p)) with (slash :: squeeze_from true p).
      destruct (IH (length p)) with (p := p) as [H1 H2]; [cbn; lia|reflexivity|].
      assert (Hn : forall q, names (c :: slash :: q) = [c] :: names q).
      { intros q. unfold names. cbn [segments]. destruct (N.eqb_spec c slash); [contradiction|]. reflexivity. }
      assert (Hs : forall q, segments (c :: slash :: q) = [c] :: segments q).
      { intros q. cbn [segments]. destruct (N.eqb_spec c slash); [contradiction|]. reflexivity. }
      split; [now rewrite !Hn, H1|].
      unfold trail at 1 2. rewrite !Hn, !Hs.
      assert (Hl : forall q, last ([c] :: segments q) [] = last (segments q) []).
      { intros q. destruct (segments_cons q) as (s & ss & E). rewrite E. reflexivity. }
      rewrite !Hl. unfold trail in H2. rewrite H1 in H2.
      destruct (names p) as [|nn ns] eqn:Enp.
      * destruct (names_nil_sq p Enp) as [Hq Hr]. rewrite Hr.
        rewrite Hq. reflexivity.
      * exact H2.
    + destruct (IH (length (d :: p))) with (p := d :: p) as [H1 H2]; [cbn; lia|reflexivity|].
      assert (Esq : squeeze_from true (d :: p) = d :: squeeze_from false p).
      { cbn. destruct (N.eqb_spec d 47); [contradiction|reflexivity]. }
      assert (Esf : squeeze_from false (d :: p) = d :: squeeze_from false p).
      { cbn. destruct (N.eqb_spec d 47); [contradiction|reflexivity]. }
      rewrite Esq in H1, H2. rewrite Esf.
      set (q := squeeze_from false p) in *.
      assert (Hseg : forall r, exists s ss, segments (d :: r) = (d :: s) :: ss
                              /\ segments (c :: d :: r) = (c :: d :: s) :: ss).
      { intros r. destruct (segments_cons r) as (s & ss & E).
        assert (E2 : segments (d :: r) = (d :: s) :: ss).
        { cbn. destruct (N.eqb_spec d slash); [contradiction|]. now rewrite E. }
        exists s, ss. split; [exact E2|].
        change (segments (c :: d :: r)) with
          (if (c =? slash)%N then [] :: segments (d :: r)
           else match segments (d :: r) with s :: ss => (c :: s) :: ss | [] => [[c]] end).
        destruct (N.eqb_spec c slash); [contradiction|]. now rewrite E2. }
      destruct (Hseg q) as (sq & ssq & Eq1 & Eq2).
      destruct (Hseg p) as (sp & ssp & Ep1 & Ep2).
      unfold names, trail, names in *. rewrite Eq1, Ep1 in H1, H2. rewrite Eq2, Ep2.
      cbn [filter is_nil negb] in *. injection H1 as Hs Hss.
      rewrite Hs, Hss. split; [reflexivity|].
      destruct ssq as [|x ssq], ssp as [|y ssp]; rewrite ?last_cons_cons in *; cbn [last is_nil] in *;
        exact H2.
Qed.

Lemma elems_squeeze p : path_elems (squeeze p) = path_elems p.
Proof.
  rewrite !elems_split, abs_squeeze. f_equal.
  rewrite squeeze_abs. destruct (is_absolute p).
  - cbn [app]. rewrite names_slash, trail_slash.
    now destruct (segments_squeeze_true p) as [-> ->].
  - cbn [app]. now destruct (segments_squeeze_true p) as [-> ->].
Qed.

Lemma path_eqb_same p q : path_eqb p q = true <-> same_path p q.
Proof.
  rewrite path_eqb_elems. unfold same_path. split; intros H.
  - rewrite <- !unelems_elems, H. reflexivity.
  - rewrite <- (elems_squeeze p), <- (elems_squeeze q), H. reflexivity.
Qed.

(** ** Event equality *)
Lemma effect_code_inj a b : effect_code a = effect_code b -> a = b.
Proof. destruct a, b; cbn; congruence. Qed.
Lemma path_code_inj a b : path_code a = path_code b -> a = b.
Proof. destruct a, b; cbn; congruence. Qed.

Lemma ev_eqb_same l r : ev_eqb l r = true <-> same_event l r.
Proof.
  revert r. induction l as [p f t tm|p f t tm a IH] using event_ind'; intros [q g u un b]; cbn.
  - split.
    + rewrite !andb_true_iff. intros [[[[H1 H2] H3] H4] H5].
      apply path_eqb_same in H1. apply Z.eqb_eq in H2, H3, H4.
      apply path_code_inj in H3. apply effect_code_inj in H4. subst.
      destruct b; [discriminate|]. now constructor.
    + inversion 1; subst. rewrite !Z.eqb_refl. cbn. rewrite !andb_true_r.
      now apply path_eqb_same.
  - split.
    + rewrite !andb_true_iff. intros [[[[H1 H2] H3] H4] H5].
      apply path_eqb_same in H1. apply Z.eqb_eq in H2, H3, H4.
      apply path_code_inj in H3. apply effect_code_inj in H4. subst.
      destruct b as [b|]; [|discriminate]. constructor; [exact H1|]. now apply IH.
    + inversion 1; subst. rewrite !Z.eqb_refl. cbn.
      rewrite !andb_true_iff. repeat split. now apply path_eqb_same. now apply IH.
Qed.

Lemma same_event_refl e : same_event e e.
Proof. induction e using event_ind'; constructor; unfold same_path; auto. Qed.
Lemma same_event_sym a b : same_event a b -> same_event b a.
Proof. induction 1; constructor; unfold same_path in *; auto. Qed.
Lemma same_event_trans a b c : same_event a b -> same_event b c -> same_event a c.
Proof.
  intros H. revert c. induction H; intros c Hc; inversion Hc; subst; constructor;
    unfold same_path in *; try congruence; auto.
Qed.

Lemma ev_copy_id e : ev_copy e = e.
Proof. induction e as [|p f t tm a IH] using event_ind'; cbn; [|rewrite IH]; reflexivity. Qed.

(** ** Numbers *)
Arguments N.mul : simpl never.
Arguments N.add : simpl never.
Arguments N.sub : simpl never.
Arguments N.div : simpl never.
Arguments N.modulo : simpl never.
Arguments N.pow : simpl never.
Arguments Z.pow : simpl never.

Lemma size_nat_div10 n : (n / 10 <> 0)%N -> (N.size_nat (n / 10) < N.size_nat n)%nat.
Proof.
  intros H.
  assert (Hs : forall a b, (0 < a -> 2 * a <= b)%N -> (a <> 0)%N -> (N.size_nat a < N.size_nat b)%nat).
  { clear. intros a b Hab Ha. specialize (Hab ltac:(lia)).
    assert (Hsize : forall k, N.of_nat (N.size_nat k) = N.size k).
    { intros [|k]; [reflexivity|]. cbn. induction k as [k IH|k IH|]; cbn in *; lia. }
    pose proof (Hsize a) as Ea. pose proof (Hsize b) as Eb.
    rewrite N.size_log2 in Ea by lia. rewrite N.size_log2 in Eb by lia.
    assert (N.log2 (2 * a) <= N.log2 b)%N by (apply N.log2_le_mono; lia).
    rewrite N.log2_double in H by lia. lia. }
  apply Hs; [|lia]. intros _. lia.
Qed.

Lemma dec_value_app a b :
  dec_value (a ++ b) = fold_left (fun acc d => acc * 10 + (d - 48))%N b (dec_value a).
Proof. unfold dec_value. apply fold_left_app. Qed.

Lemma digits_rev_spec fuel n :
  (N.size_nat n < fuel)%nat ->
  digits_rev fuel n <> [] /\
  forallb is_digit (digits_rev fuel n) = true /\
  dec_value (rev (digits_rev fuel n)) = n /\
  (last (digits_rev fuel n) 0%N = 48%N -> digits_rev fuel n = [48%N]).
Proof.
  revert n. induction fuel as [|fuel IH]; intros n Hf; [lia|].
  cbn [digits_rev]. destruct (N.eqb_spec (n / 10) 0) as [E|E].
  - split; [discriminate|].
    assert (n mod 10 = n)%N as Hm by lia.
    assert (n < 10)%N by lia.
    rewrite Hm. split; [|split].
    + cbn. unfold is_digit. lia.
    + cbn. unfold dec_value. cbn. lia.
    + cbn. intros H'. f_equal. exact H'.
  - assert (Hs := size_nat_div10 n E).
    destruct (IH (n / 10)%N ltac:(lia)) as (H1 & H2 & H3 & H4).
    split; [discriminate|]. split; [|split].
    + cbn. rewrite H2, andb_true_r. unfold is_digit. lia.
    + cbn [rev]. rewrite dec_value_app, H3. cbn. lia.
    + destruct (digits_rev fuel (n / 10)) as [|d ds] eqn:Ed; [contradiction|].
      change (last ((48 + n mod 10)%N :: d :: ds) 0%N) with (last (d :: ds) 0%N).
      intros Hl. specialize (H4 Hl). injection H4 as -> ->.
      exfalso. cbn in H3. unfold dec_value in H3. cbn in H3. lia.
Qed.

Lemma hd_rev {A} (l : list A) d : hd d (rev l) = last l d.
Proof.
  destruct l as [|x l] using rev_ind; [reflexivity|].
  rewrite rev_app_distr, last_last. reflexivity.
Qed.

Lemma chars_of_N_decimal n : is_decimal_N (chars_of_N n) n.
Proof.
  destruct (digits_rev_spec (S (N.size_nat n)) n ltac:(lia)) as (H1 & H2 & H3 & H4).
  unfold chars_of_N, is_decimal_N. repeat split.
  - intros E. apply H1. apply (f_equal (@rev N)) in E. now rewrite rev_involutive in E.
  - rewrite forallb_forall in *. intros x Hx. apply H2. now apply in_rev.
  - exact H3.
  - rewrite hd_rev. intros Hl. rewrite (H4 Hl). reflexivity.
Qed.

Lemma chars_of_Z_decimal z : is_decimal (chars_of_Z z) z.
Proof.
  unfold chars_of_Z, is_decimal. destruct (Z.ltb_spec z 0).
  - right. split; [lia|]. eexists. split; [reflexivity|]. apply chars_of_N_decimal.
  - left. split; [lia|]. apply chars_of_N_decimal.
Qed.

(** Number of digits. *)
Lemma digits_len k fuel n :
  (N.size_nat n < fuel)%nat -> (10 ^ N.of_nat k <= n < 10 ^ N.of_nat (S k))%N ->
  length (digits_rev fuel n) = S k.
Proof.
  revert fuel n. induction k as [|k IH]; intros fuel n Hf Hn.
  - destruct fuel as [|fuel]; [lia|]. cbn [digits_rev].
    change (10 ^ N.of_nat 1)%N with 10%N in Hn. change (10 ^ N.of_nat 0)%N with 1%N in Hn.
    destruct (N.eqb_spec (n / 10) 0); [reflexivity|lia].
  - destruct fuel as [|fuel]; [lia|]. cbn [digits_rev].
    assert (E1 : (10 ^ N.of_nat (S k) = 10 * 10 ^ N.of_nat k)%N).
    { rewrite Nat2N.inj_succ, N.pow_succ_r'. reflexivity. }
    assert (E2 : (10 ^ N.of_nat (S (S k)) = 10 * 10 ^ N.of_nat (S k))%N).
    { rewrite (Nat2N.inj_succ (S k)), N.pow_succ_r'. reflexivity. }
    assert (0 < 10 ^ N.of_nat k)%N by (apply N.neq_0_lt_0, N.pow_nonzero; lia).
    destruct (N.eqb_spec (n / 10) 0) as [E|E]; [lia|].
    cbn [length]. f_equal. apply IH.
    + pose proof (size_nat_div10 n E). lia.
    + lia.
Qed.

Lemma chars_of_N_len k n :
  (10 ^ N.of_nat k <= n < 10 ^ N.of_nat (S k))%N -> length (chars_of_N n) = S k.
Proof. intros H. unfold chars_of_N. rewrite rev_length. apply digits_len; [lia|exact H]. Qed.

Lemma num_to_str_modern z : modern_time z -> num_to_str z = chars_of_Z z.
Proof.
  unfold modern_time. intros H. unfold num_to_str.
  assert (length (chars_of_Z z) = 19)%nat as ->.
  { unfold chars_of_Z. destruct (Z.ltb_spec z 0); [lia|].
    apply (chars_of_N_len 18). change (10 ^ N.of_nat 18)%N with (Z.to_N (10 ^ 18)).
    change (10 ^ N.of_nat 19)%N with (Z.to_N (10 ^ 19)). lia. }
  cbn. apply app_nil_r.
Qed.

Lemma num_to_str_exact z : modern_time z -> is_decimal (num_to_str z) z.
Proof. intros H. rewrite num_to_str_modern by exact H. apply chars_of_Z_decimal. Qed.

(** In general: zero padded to nineteen characters, or empty when the text
    would be longer. *)
Lemma chars_of_N_len_le k n : (n < 10 ^ N.of_nat k)%N -> (0 < k)%nat -> (length (chars_of_N n) <= k)%nat.
Proof.
  intros Hn Hk. destruct (N.eq_dec n 0) as [->|Hz]; [change (length (chars_of_N 0)) with 1%nat; lia|].
  (* find the number of digits *)
  assert (exists j, (10 ^ N.of_nat j <= n < 10 ^ N.of_nat (S j))%N) as (j & Hj).
  { clear Hk. revert n Hz Hn. induction k as [|k IH]; intros n Hz Hn; [change (10 ^ N.of_nat 0)%N with 1%N in Hn; lia|].
    destruct (N.lt_ge_cases n (10 ^ N.of_nat k)) as [Hlt|Hge]; [now apply IH|].
    exists k. split; assumption. }
  rewrite (chars_of_N_len j) by exact Hj.
  destruct (Nat.lt_ge_cases j k) as [|Hge]; [lia|]. exfalso.
  assert (10 ^ N.of_nat k <= 10 ^ N.of_nat j)%N by (apply N.pow_le_mono_r; lia). lia.
Qed.

Lemma chars_of_N_len_ge k n : (10 ^ N.of_nat k <= n)%N -> (k < length (chars_of_N n))%nat.
Proof.
  intros Hn. destruct (Nat.lt_ge_cases k (length (chars_of_N n))) as [|Hge]; [assumption|exfalso].
  destruct (chars_of_N_decimal n) as (H1 & H2 & H3 & _).
  assert (Hb : forall l acc, forallb is_digit l = true ->
     (fold_left (fun acc d => acc * 10 + (d - 48)) l acc < (acc + 1) * 10 ^ N.of_nat (length l))%N).
  { clear. induction l as [|d l IH]; intros acc Hl.
    - cbn [fold_left length]. change (10 ^ N.of_nat 0)%N with 1%N. lia.
    - cbn [forallb] in Hl. apply andb_prop in Hl as [Hd Hl].
      cbn [fold_left length]. specialize (IH (acc * 10 + (d - 48))%N Hl).
      rewrite Nat2N.inj_succ, N.pow_succ_r'.
      unfold is_digit in Hd.
      assert (acc * 10 + (d - 48) + 1 <= (acc + 1) * 10)%N by lia.
      eapply N.lt_le_trans; [exact IH|]. rewrite N.mul_assoc.
      apply N.mul_le_mono_r. lia. }
  specialize (Hb (chars_of_N n) 0%N H2). unfold dec_value in H3. rewrite H3 in Hb.
  assert (10 ^ N.of_nat (length (chars_of_N n)) <= 10 ^ N.of_nat k)%N by (apply N.pow_le_mono_r; lia).
  lia.
Qed.

Lemma num_to_str_shape z :
  (- 2 ^ 63 <= z < 2 ^ 63)%Z ->
  ((z <= - 10 ^ 18)%Z /\ num_to_str z = []) \/
  ((- 10 ^ 18 < z)%Z /\ exists t k, is_decimal t z /\ num_to_str z = t ++ repeat 0%N k
                           /\ (length t + k = 19)%nat).
Proof.
  intros Hz. unfold num_to_str.
  destruct (Z.le_gt_cases z (- 10 ^ 18)) as [Hle|Hgt].
  - left. split; [exact Hle|]. unfold chars_of_Z. destruct (Z.ltb_spec z 0); [|lia].
    cbn [length].
    assert (18 < length (chars_of_N (Z.to_N (- z))))%nat.
    { apply chars_of_N_len_ge. change (10 ^ N.of_nat 18)%N with (Z.to_N (10 ^ 18)). lia. }
    destruct (Nat.ltb_spec num_buflen (S (length (chars_of_N (Z.to_N (- z)))))); [reflexivity|].
    unfold num_buflen in *. lia.
  - right. split; [exact Hgt|].
    assert (length (chars_of_Z z) <= 19)%nat.
    { unfold chars_of_Z. destruct (Z.ltb_spec z 0).
      - cbn [length]. apply le_n_S. apply chars_of_N_len_le; [|lia].
        change (10 ^ N.of_nat 18)%N with (Z.to_N (10 ^ 18)). lia.
      - apply chars_of_N_len_le; [|lia].
        change (10 ^ N.of_nat 19)%N with (Z.to_N (10 ^ 19)). lia. }
    exists (chars_of_Z z), (num_buflen - length (chars_of_Z z))%nat.
    split; [apply chars_of_Z_decimal|].
    destruct (Nat.ltb_spec num_buflen (length (chars_of_Z z))); unfold num_buflen in *; [lia|].
    split; [reflexivity|lia].
Qed.

(** ** Names *)
Lemma effect_name_doc e : effect_name e = lit (effect_doc e).
Proof. now destruct e. Qed.
Lemma ptype_name_doc p : ptype_name p = lit (ptype_doc p).
Proof. now destruct p. Qed.

Lemma effect_names_distinct a b : effect_name a = effect_name b -> a = b.
Proof. destruct a, b; vm_compute; congruence. Qed.
Lemma ptype_names_distinct a b : ptype_name a = ptype_name b -> a = b.
Proof. destruct a, b; vm_compute; congruence. Qed.

Lemma effect_name_raw_other z : (z < 0 \/ 5 < z)%Z -> effect_name_raw z = lit "other".
Proof. intros H. destruct z as [|[[[]|[]|]|[[]|[]|]|]|]; try reflexivity; lia. Qed.
Lemma path_name_raw_other z : (z < 0 \/ 5 < z)%Z -> path_name_raw z = lit "other".
Proof. intros H. destruct z as [|[[[]|[]|]|[[]|[]|]|]|]; try reflexivity; lia. Qed.

(** ** JSON *)
Lemma read_string_plain s r : plain s = true -> read_string (s ++ 34%N :: r) = Some (s, r).
Proof.
  induction s as [|c s IH]; cbn; [reflexivity|].
  rewrite !andb_true_iff. intros [[[H1 H2] H3] H4].
  destruct (N.eqb_spec c 34); [discriminate|]. destruct (N.eqb_spec c 92); [discriminate|].
  destruct (N.ltb_spec c 32); [lia|]. rewrite IH by exact H4. reflexivity.
Qed.

Lemma bind_some {A B} (o : option A) (f : A -> option B) x :
  opt_bind o f = Some x -> exists a, o = Some a /\ f a = Some x.
Proof. destruct o; cbn; [eauto|discriminate]. Qed.

Lemma read_fuel_mono fuel :
  (forall t x, read_value fuel t = Some x -> read_value (S fuel) t = Some x) /\
  (forall t x, read_members fuel t = Some x -> read_members (S fuel) t = Some x) /\
  (forall t x, read_elems fuel t = Some x -> read_elems (S fuel) t = Some x).
Proof.
  induction fuel as [|f (IHv & IHm & IHe)]; [repeat split; intros; discriminate|].
  split; [|split].
  - intros t x H. cbn [read_value] in H.
    remember (S f) as g. cbn [read_value]. subst g.
    destruct (skip_ws t) as [|c r]; [discriminate|].
    destruct (c =? 123)%N.
    { destruct (eat 125 r); [exact H|]. apply bind_some in H as ([ms r'] & E & H).
      rewrite (IHm _ _ E). exact H. }
    destruct (c =? 91)%N.
    { destruct (eat 93 r); [exact H|]. apply bind_some in H as ([ms r'] & E & H).
      rewrite (IHe _ _ E). exact H. }
    exact H.
  - intros t x H. cbn [read_members] in H. remember (S f) as g. cbn [read_members]. subst g.
    apply bind_some in H as (r & E1 & H). rewrite E1. cbn [opt_bind].
    apply bind_some in H as ([k r1] & E2 & H). rewrite E2. cbn [opt_bind].
    apply bind_some in H as (r2 & E3 & H). rewrite E3. cbn [opt_bind].
    apply bind_some in H as ([v r3] & E4 & H). rewrite (IHv _ _ E4). cbn [opt_bind].
    destruct (eat 44 r3) as [r4|]; [|exact H].
    apply bind_some in H as ([ms r5] & E5 & H). rewrite (IHm _ _ E5). exact H.
  - intros t x H. cbn [read_elems] in H. remember (S f) as g. cbn [read_elems]. subst g.
    apply bind_some in H as ([v r3] & E4 & H). rewrite (IHv _ _ E4). cbn [opt_bind].
    destruct (eat 44 r3) as [r4|]; [|exact H].
    apply bind_some in H as ([ms r5] & E5 & H). rewrite (IHe _ _ E5). exact H.
Qed.

Lemma read_value_more f g t x : (f <= g)%nat -> read_value f t = Some x -> read_value g t = Some x.
Proof.
  intros Hle. induction Hle as [|g Hle IH]; [auto|]. intros H.
  apply (read_fuel_mono g). auto.
Qed.

Lemma lit_plain_effect e : plain (effect_name e) = true.
Proof. now destruct e. Qed.
Lemma lit_plain_ptype e : plain (ptype_name e) = true.
Proof. now destruct e. Qed.

Lemma digits_plain t : forallb is_digit t = true -> plain t = true.
Proof.
  unfold plain, is_digit. rewrite !forallb_forall. intros H x Hx. specialize (H x Hx). lia.
Qed.

Lemma modern_chars_digits z : modern_time z -> forallb is_digit (chars_of_Z z) = true.
Proof.
  unfold modern_time, chars_of_Z. intros H. destruct (Z.ltb_spec z 0); [lia|].
  apply chars_of_N_decimal.
Qed.

(** [has_value n v s]: the text [s] reads as [v] whatever delimiter follows. *)
Definition stop (r : text) : Prop :=
  match r with [] => True | c :: _ => is_digit c = false end.
Definition has_value (n : nat) (s : text) (v : jv) : Prop :=
  forall r, stop r -> read_value n (s ++ r) = Some (v, r).
Definition has_members (n : nat) (s : text) (ms : list (text * jv)) : Prop :=
  forall r, read_members n (s ++ r) = Some (ms, r).

Lemma quoted_eq t r : quoted t ++ r = 34%N :: t ++ 34%N :: r.
Proof. unfold quoted. cbn. rewrite <- app_assoc. reflexivity. Qed.

Lemma value_str n s : plain s = true -> has_value (S n) (quoted s) (JStr s).
Proof.
  intros Hs r _. rewrite quoted_eq. cbn [read_value skip_ws is_ws N.eqb Pos.eqb orb].
  rewrite read_string_plain by exact Hs. reflexivity.
Qed.

Lemma value_null n : has_value (S n) (lit "null") JNull.
Proof. intros r _. reflexivity. Qed.

Lemma value_more n m s v : (n <= m)%nat -> has_value n s v -> has_value m s v.
Proof. intros Hle H r Hr. eapply read_value_more; eauto. Qed.

Lemma read_digits_app ds r : forallb is_digit ds = true -> stop r -> read_digits (ds ++ r) = (ds, r).
Proof.
  intros Hd Hr. induction ds as [|d ds IH]; cbn [app].
  - destruct r as [|c r]; [reflexivity|]. cbn [stop] in Hr. cbn [read_digits]. now rewrite Hr.
  - cbn [forallb] in Hd. apply andb_prop in Hd as [H1 H2].
    cbn [read_digits]. rewrite H1, IH by exact H2. reflexivity.
Qed.

Lemma value_num n z : modern_time z -> has_value (S n) (num_to_str z) (JNum z).
Proof.
  intros Hz r Hr. rewrite num_to_str_modern by exact Hz.
  unfold chars_of_Z. unfold modern_time in Hz. destruct (Z.ltb_spec z 0); [lia|].
  destruct (chars_of_N_decimal (Z.to_N z)) as (H1 & H2 & H3 & H4).
  destruct (chars_of_N (Z.to_N z)) as [|d ds] eqn:E; [contradiction|].
  assert (Hd : is_digit d = true) by (cbn in H2; apply andb_prop in H2; tauto).
  assert (Hne : d <> 48%N).
  { intros ->. specialize (H4 eq_refl). rewrite H4 in H3.
    change (dec_value [48%N]) with 0%N in H3. lia. }
  assert (Hrange : (48 < d <= 57)%N) by (unfold is_digit in Hd; lia).
  assert (Hint : read_int ((d :: ds) ++ r) = Some (z, r)).
  { unfold read_int. cbn [app]. destruct (N.eqb_spec d 45); [lia|].
    change (d :: ds ++ r) with ((d :: ds) ++ r). rewrite read_digits_app by assumption.
    destruct (N.eqb_spec d 48); [contradiction|]. cbn [andb].
    rewrite H3. do 2 f_equal. lia. }
  cbn [app] in *. cbn [read_value skip_ws].
  replace (is_ws d) with false by (unfold is_ws; lia).
  destruct (N.eqb_spec d 123); [lia|]. destruct (N.eqb_spec d 91); [lia|].
  destruct (N.eqb_spec d 34); [lia|]. destruct (N.eqb_spec d 110); [lia|].
  destruct (N.eqb_spec d 116); [lia|]. destruct (N.eqb_spec d 102); [lia|].
  rewrite Hint. reflexivity.
Qed.

(** One member, and one member followed by others. *)
Lemma members_last n k s v :
  plain k = true -> has_value n s v ->
  has_members (S n) (quoted k ++ lit ":" ++ s ++ lit "}") [(k, v)].
Proof.
  intros Hk Hs r. cbn [read_members].
  rewrite <- app_assoc, quoted_eq. unfold eat at 1. cbn [skip_ws is_ws N.eqb Pos.eqb orb opt_bind].
  rewrite read_string_plain by exact Hk. cbn [opt_bind].
  change (lit ":") with [58%N]. change (lit "}") with [125%N]. cbn [app].
  unfold eat at 1. cbn [skip_ws is_ws N.eqb Pos.eqb orb opt_bind].
  rewrite <- app_assoc. rewrite Hs by reflexivity. reflexivity.
Qed.

Lemma members_cons n k s v more ms :
  plain k = true -> has_value n s v -> has_members n more ms ->
  has_members (S n) (quoted k ++ lit ":" ++ s ++ lit "," ++ more) ((k, v) :: ms).
Proof.
  intros Hk Hs Hm r. cbn [read_members].
  rewrite <- app_assoc, quoted_eq. unfold eat at 1. cbn [skip_ws is_ws N.eqb Pos.eqb orb opt_bind].
  rewrite read_string_plain by exact Hk. cbn [opt_bind].
  change (lit ":") with [58%N]. change (lit ",") with [44%N]. cbn [app].
  unfold eat at 1. cbn [skip_ws is_ws N.eqb Pos.eqb orb opt_bind].
  rewrite <- app_assoc. rewrite Hs by reflexivity. cbn [opt_bind app].
  unfold eat at 1. cbn [skip_ws is_ws N.eqb Pos.eqb orb].
  rewrite Hm. reflexivity.
Qed.

Lemma value_obj n k rest ms :
  has_members n (quoted k ++ rest) ms -> has_value (S n) (lit "{" ++ quoted k ++ rest) (JObj ms).
Proof.
  intros Hm r _. change (lit "{") with [123%N]. cbn [app]. cbn [read_value skip_ws is_ws N.eqb Pos.eqb orb].
  assert (He : eat 125 ((quoted k ++ rest) ++ r) = None).
  { rewrite <- app_assoc, quoted_eq. reflexivity. }
  rewrite He, Hm. reflexivity.
Qed.

Lemma plain_inv p f t tm a :
  plain_event (Ev p f t tm a) -> plain p = true /\ match a with Some b => plain_event b | None => True end.
Proof. inversion 1; subst; auto. Qed.
Lemma modern_inv p f t tm a :
  modern_event (Ev p f t tm a) -> modern_time tm /\ match a with Some b => modern_event b | None => True end.
Proof. inversion 1; subst; auto. Qed.

Fixpoint depth (e : event) : nat :=
  match e with Ev _ _ _ _ a => S (match a with Some b => depth b | None => 0 end) end.

Lemma fields_members n p f t :
  plain p = true ->
  has_members (4 + n)
    (quoted (lit "effect_type") ++ lit ":" ++ quoted (effect_name f) ++ lit ","
     ++ quoted (lit "path_name") ++ lit ":" ++ quoted p ++ lit ","
     ++ quoted (lit "path_type") ++ lit ":" ++ quoted (ptype_name t) ++ lit "}")
    (fields_json p f t).
Proof.
  intros Hp. unfold fields_json. rewrite <- effect_name_doc, <- ptype_name_doc.
  apply members_cons; [reflexivity|apply value_str, lit_plain_effect|].
  apply members_cons; [reflexivity|now apply value_str|].
  apply members_last; [reflexivity|apply value_str, lit_plain_ptype].
Qed.

Lemma event_json_members n e :
  plain (ev_path e) = true ->
  match ev_assoc e with Some a => plain (ev_path a) = true | None => True end ->
  exists rest,
  event_json e = quoted (num_to_str (ev_time e)) ++ lit ":" ++ lit "{" ++ quoted (lit "effect_type") ++ rest /\
  has_members (9 + n) (quoted (lit "effect_type") ++ rest) (event_as_json e).
Proof.
  destruct e as [p f t tm [[p2 f2 t2 tm2 a2]|]]; cbn [ev_path ev_assoc]; intros Hp Ha.
  - eexists. split.
    + unfold event_json. cbn [ev_path ev_assoc ev_effect ev_ptype ev_time].
      change (lit ":{") with (lit ":" ++ lit "{").
      rewrite <- !app_assoc.
      change (lit """effect_type"":") with (quoted (lit "effect_type") ++ lit ":").
      rewrite <- !app_assoc. reflexivity.
    + unfold event_as_json. cbn [ev_path ev_assoc ev_effect ev_ptype ev_time].
      unfold fields_json at 1. rewrite <- effect_name_doc, <- ptype_name_doc. cbn [app].
      change (lit """path_name"":") with (quoted (lit "path_name") ++ lit ":").
      change (lit """path_type"":") with (quoted (lit "path_type") ++ lit ":").
      change (lit ",""associated""") with (lit "," ++ quoted (lit "associated")).
      rewrite <- !app_assoc.
      apply members_cons; [reflexivity|apply value_str, lit_plain_effect|].
      apply members_cons; [reflexivity|now apply value_str|].
      apply members_cons; [reflexivity|apply value_str, lit_plain_ptype|].
      change (lit ":{") with (lit ":" ++ lit "{").
      set (inner := lit "{" ++ quoted (lit "effect_type") ++ lit ":" ++ quoted (effect_name f2) ++ lit ","
                    ++ quoted (lit "path_name") ++ lit ":" ++ quoted p2 ++ lit ","
                    ++ quoted (lit "path_type") ++ lit ":" ++ quoted (ptype_name t2) ++ lit "}").
      match goal with |- has_members _ ?s _ =>
        replace s with (quoted (lit "associated") ++ lit ":" ++ inner ++ lit "}")
      end.
      2:{ unfold inner. change (lit """effect_type"":") with (quoted (lit "effect_type") ++ lit ":").
          rewrite <- !app_assoc. reflexivity. }
      apply members_last; [reflexivity|].
      apply value_obj. apply fields_members. exact Ha.
  - eexists. split.
    + unfold event_json. cbn [ev_path ev_assoc ev_effect ev_ptype ev_time].
      change (lit ":{") with (lit ":" ++ lit "{").
      rewrite <- !app_assoc.
      change (lit """effect_type"":") with (quoted (lit "effect_type") ++ lit ":").
      rewrite <- !app_assoc. reflexivity.
    + unfold event_as_json. cbn [ev_path ev_assoc ev_effect ev_ptype ev_time app].
      change (lit """path_name"":") with (quoted (lit "path_name") ++ lit ":").
      change (lit """path_type"":") with (quoted (lit "path_type") ++ lit ":").
      rewrite app_nil_r. rewrite <- !app_assoc.
      exact (fields_members (5 + n) p f t Hp).
Qed.

Lemma read_json_of n s v : has_value n s v -> (n <= S (length s))%nat -> read_json s = Some v.
Proof.
  intros H Hn. unfold read_json. specialize (H [] I). rewrite app_nil_r in H.
  rewrite (read_value_more n (S (length s)) s (v, []) Hn H). reflexivity.
Qed.

Lemma quoted_length t : length (quoted t) = S (S (length t)).
Proof. unfold quoted. rewrite !app_length. cbn. lia. Qed.

(** C15 on its good domain. *)
Lemma event_json_reads e :
  plain (ev_path e) = true ->
  match ev_assoc e with Some a => plain (ev_path a) = true | None => True end ->
  modern_time (ev_time e) ->
  exists tm, is_decimal tm (ev_time e) /\
  read_json (lit "{" ++ event_json e ++ lit "}") = Some (JObj [(tm, JObj (event_as_json e))]).
Proof.
  intros Hp Ha Ht. exists (num_to_str (ev_time e)). split; [now apply num_to_str_exact|].
  destruct (event_json_members 0 e Hp Ha) as (rest & E & Hm). rewrite E.
  rewrite <- !app_assoc.
  apply (read_json_of 12).
  - apply value_obj.
    match goal with |- has_members _ ?s _ =>
      replace s with (quoted (num_to_str (ev_time e)) ++ lit ":" ++ (lit "{" ++ quoted (lit "effect_type") ++ rest) ++ lit "}")
    end.
    2:{ rewrite <- !app_assoc. reflexivity. }
    apply members_last.
    + rewrite num_to_str_modern by exact Ht. now apply digits_plain, modern_chars_digits.
    + apply value_obj. exact Hm.
  - rewrite !app_length, !quoted_length. change (length (lit "effect_type")) with 11%nat. lia.
Qed.

(** C17 on its good domain. *)
Lemma cli_json_value e :
  plain_event e -> modern_event e -> exists n, (n <= S (length (cli_json e)))%nat /\
    has_value n (cli_json e) (event_as_cli_json e).
Proof.
  induction e as [p f t tm|p f t tm a IH] using event_ind'; intros Hp Hm;
    apply plain_inv in Hp as [Hp Hpa]; apply modern_inv in Hm as [Hm Hma].
  - exists 7%nat. cbn [cli_json event_as_cli_json]. split.
    { rewrite !app_length, !quoted_length. change (length (lit "{""path_type"":")) with 13%nat. lia. }
    rewrite <- effect_name_doc, <- ptype_name_doc.
    change (lit "{""path_type"":") with (lit "{" ++ quoted (lit "path_type") ++ lit ":").
    change (lit ",""path_name"":") with (lit "," ++ quoted (lit "path_name") ++ lit ":").
    change (lit ",""effect_type"":") with (lit "," ++ quoted (lit "effect_type") ++ lit ":").
    change (lit ",""effect_time"":") with (lit "," ++ quoted (lit "effect_time") ++ lit ":").
    change (lit ",""associated"":") with (lit "," ++ quoted (lit "associated") ++ lit ":").
    rewrite <- !app_assoc.
    apply value_obj.
    apply members_cons; [reflexivity|apply value_str, lit_plain_ptype|].
    apply members_cons; [reflexivity|now apply value_str|].
    apply members_cons; [reflexivity|apply value_str, lit_plain_effect|].
    apply members_cons; [reflexivity|now apply value_num|].
    apply members_last; [reflexivity|]. apply value_null.
  - destruct (IH Hpa Hma) as (n & Hn & Hv). clear IH.
    exists (S (S (S (S (S (S n))))))%nat. cbn [cli_json event_as_cli_json]. split.
    { rewrite !app_length, !quoted_length. change (length (lit "{""path_type"":")) with 13%nat. lia. }
    rewrite <- effect_name_doc, <- ptype_name_doc.
    change (lit "{""path_type"":") with (lit "{" ++ quoted (lit "path_type") ++ lit ":").
    change (lit ",""path_name"":") with (lit "," ++ quoted (lit "path_name") ++ lit ":").
    change (lit ",""effect_type"":") with (lit "," ++ quoted (lit "effect_type") ++ lit ":").
    change (lit ",""effect_time"":") with (lit "," ++ quoted (lit "effect_time") ++ lit ":").
    change (lit ",""associated"":") with (lit "," ++ quoted (lit "associated") ++ lit ":").
    rewrite <- !app_assoc.
    apply value_obj.
    apply members_cons; [reflexivity|apply value_str, lit_plain_ptype|].
    apply members_cons; [reflexivity|now apply value_str|].
    apply members_cons; [reflexivity|apply value_str, lit_plain_effect|].
    apply members_cons; [reflexivity|now apply value_num|].
    apply members_last; [reflexivity|]. exact Hv.
Qed.

Lemma cli_json_reads e :
  plain_event e -> modern_event e -> read_json (cli_json e) = Some (event_as_cli_json e).
Proof.
  intros Hp Hm. destruct (cli_json_value e Hp Hm) as (n & Hn & Hv). eapply read_json_of; eauto.
Qed.

(** ** The statements of PropsEvent that combine the above *)
Lemma ev_eqb_equivalence :
  (forall e, ev_eqb e e = true) /\
  (forall a b, ev_eqb a b = true -> ev_eqb b a = true) /\
  (forall a b c, ev_eqb a b = true -> ev_eqb b c = true -> ev_eqb a c = true).
Proof.
  repeat split; intros; rewrite ev_eqb_same in *;
    eauto using same_event_refl, same_event_sym, same_event_trans.
Qed.

Lemma ev_neqb_same l r : ev_neqb l r = true <-> ~ same_event l r.
Proof.
  unfold ev_neqb. rewrite <- ev_eqb_same. destruct (ev_eqb l r); cbn; intuition congruence.
Qed.

Lemma ev_copy_equal e : ev_copy e = e /\ ev_eqb (ev_copy e) e = true.
Proof. rewrite ev_copy_id. split; [reflexivity|]. apply ev_eqb_same, same_event_refl. Qed.

Lemma ev_pair_fields now base assoc :
  let e := ev_pair now base assoc in
  ev_path e = ev_path base /\ ev_effect e = ev_effect base /\
  ev_ptype e = ev_ptype base /\ ev_time e = now /\ ev_assoc e = Some assoc.
Proof. cbn. rewrite ev_copy_id. auto. Qed.

Lemma is_decimal_chars t z : is_decimal t z -> forall c, In c t -> (45 <= c <= 57)%N.
Proof.
  intros H c Hc. assert (Hd : forall u n, is_decimal_N u n -> In c u -> (48 <= c <= 57)%N).
  { intros u n (_ & Hu & _) Hi. rewrite forallb_forall in Hu. specialize (Hu _ Hi).
    unfold is_digit in Hu. lia. }
  destruct H as [[_ H]|(_ & t' & -> & H)].
  - specialize (Hd _ _ H Hc). lia.
  - destruct Hc as [<-|Hc]; [lia|]. specialize (Hd _ _ H Hc). lia.
Qed.

Lemma chars_of_Z_len19 z :
  (- 2 ^ 63 <= z < 2 ^ 63)%Z ->
  (length (chars_of_Z z) = 19%nat <-> (- 10 ^ 18 < z <= - 10 ^ 17 \/ 10 ^ 18 <= z)%Z).
Proof.
  intros Hz. unfold chars_of_Z.
  assert (E17 : (10 ^ N.of_nat 17 = Z.to_N (10 ^ 17))%N) by reflexivity.
  assert (E18 : (10 ^ N.of_nat 18 = Z.to_N (10 ^ 18))%N) by reflexivity.
  assert (E19 : (10 ^ N.of_nat 19 = Z.to_N (10 ^ 19))%N) by reflexivity.
  destruct (Z.ltb_spec z 0) as [Hn|Hn].
  - cbn [length]. split.
    + intros HL. injection HL as HL. left.
      destruct (Z.le_gt_cases z (- 10 ^ 18)) as [H|H].
      { assert (18 < length (chars_of_N (Z.to_N (- z))))%nat by (apply chars_of_N_len_ge; rewrite E18; lia). lia. }
      destruct (Z.le_gt_cases z (- 10 ^ 17)) as [H'|H']; [lia|].
      assert (length (chars_of_N (Z.to_N (- z))) <= 17)%nat by (apply chars_of_N_len_le; [rewrite E17|]; lia). lia.
    + intros H. f_equal. apply (chars_of_N_len 17). rewrite E17, E18. lia.
  - split.
    + intros HL. right.
      destruct (Z.le_gt_cases (10 ^ 18) z) as [H|H]; [exact H|].
      assert (length (chars_of_N (Z.to_N z)) <= 18)%nat by (apply chars_of_N_len_le; [rewrite E18|]; lia). lia.
    + intros H. apply (chars_of_N_len 18). rewrite E18, E19. lia.
Qed.

Lemma num_to_str_exact_iff z :
  (- 2 ^ 63 <= z < 2 ^ 63)%Z ->
  (is_decimal (num_to_str z) z <-> (- 10 ^ 18 < z <= - 10 ^ 17 \/ 10 ^ 18 <= z)%Z).
Proof.
  intros Hz. rewrite <- chars_of_Z_len19 by exact Hz. split.
  - intros Hd. unfold num_to_str in Hd.
    destruct (Nat.ltb_spec num_buflen (length (chars_of_Z z))) as [HL|HL]; unfold num_buflen in *.
    + exfalso. destruct Hd as [[_ (H & _)]|(_ & t' & H & _)]; [now apply H|discriminate].
    + destruct (Nat.eq_dec (length (chars_of_Z z)) 19) as [|Hne]; [assumption|exfalso].
      assert (In 0%N (chars_of_Z z ++ repeat 0%N (19 - length (chars_of_Z z)))) as Hin.
      { apply in_or_app. right. destruct (19 - length (chars_of_Z z))%nat eqn:E; [lia|]. now left. }
      specialize (is_decimal_chars _ _ Hd _ Hin). lia.
  - intros HL. unfold num_to_str. rewrite HL. cbn. rewrite app_nil_r. apply chars_of_Z_decimal.
Qed.

Lemma num_to_str_refuted :
  ~ (forall z, (- 2 ^ 63 <= z < 2 ^ 63)%Z -> is_decimal (num_to_str z) z) /\
  num_to_str 0 = lit "0" ++ repeat 0%N 18 /\
  num_to_str (- 10 ^ 18) = [].
Proof.
  split; [|split; vm_compute; reflexivity].
  intros H. specialize (H 0%Z ltac:(lia)). apply num_to_str_exact_iff in H; lia.
Qed.

Lemma event_json_refuted :
  (exists e, modern_time (ev_time e) /\ read_json (lit "{" ++ event_json e ++ lit "}") = None) /\
  (exists e key ms, modern_time (ev_time e) /\
     read_json (lit "{" ++ event_json e ++ lit "}") = Some (JObj [(key, JObj ms)]) /\
     In (lit "path_name", JStr (lit "/etc/passwd")) ms /\ ev_path e <> lit "/etc/passwd").
Proof.
  split.
  - exists (Ev (lit "/w/a""b") EtCreate PtFile 1700000000000000000 None).
    split; [unfold modern_time; cbn; lia|]. vm_compute. reflexivity.
  - exists (Ev (lit "/w/"",""path_name"":""/etc/passwd") EtCreate PtFile 1700000000000000000 None).
    eexists. eexists. split; [unfold modern_time; cbn; lia|].
    split; [vm_compute; reflexivity|]. split; [right; right; left; vm_compute; reflexivity|].
    vm_compute. discriminate.
Qed.

Lemma event_json_shallow p f t tm p2 f2 t2 tm2 a b :
  event_json (Ev p f t tm (Some (Ev p2 f2 t2 tm2 a)))
  = event_json (Ev p f t tm (Some (Ev p2 f2 t2 tm2 b))).
Proof. reflexivity. Qed.

Lemma names_documented :
  (forall e, effect_name e = lit (effect_doc e)) /\ (forall p, ptype_name p = lit (ptype_doc p)).
Proof. split; [exact effect_name_doc|exact ptype_name_doc]. Qed.

Lemma names_distinct :
  (forall a b, effect_name a = effect_name b -> a = b) /\
  (forall a b, ptype_name a = ptype_name b -> a = b).
Proof. split; [exact effect_names_distinct|exact ptype_names_distinct]. Qed.

Lemma names_other z : (z < 0 \/ 5 < z)%Z ->
  effect_name_raw z = lit "other" /\ path_name_raw z = lit "other".
Proof. split; [now apply effect_name_raw_other|now apply path_name_raw_other]. Qed.

Lemma cli_json_refuted : exists e, modern_event e /\ read_json (cli_json e) = None.
Proof.
  exists (Ev (lit "/w/a""b") EtCreate PtFile 1700000000000000000 None).
  split; [constructor; unfold modern_time; lia|]. vm_compute. reflexivity.
Qed.

(** Lemmas about computations and memory access. *)
From Verif Require Import Base EventModel Sys.

Lemma bind_inv {A B} (m : M A) (k : A -> M B) tr o r :
  bind m k tr = (o, r) ->
  (exists o1 a o2, m tr = (o1, Ok a) /\ k a (tr ++ o1) = (o2, r) /\ o = o1 ++ o2) \/
  (exists u, m tr = (o, Undef u) /\ r = Undef u) \/
  (m tr = (o, Crash) /\ r = Crash) \/
  (m tr = (o, Fuel) /\ r = Fuel).
Proof.
  unfold bind. destruct (m tr) as [o1 r1]. destruct r1 as [a|u| |]; cbn.
  - destruct (k a (tr ++ o1)) as [o2 r2] eqn:E. intros [= <- <-]. left. eauto 6.
  - intros [= <- <-]. right. left. eauto.
  - intros [= <- <-]. auto.
  - intros [= <- <-]. auto.
Qed.

Lemma bind_ok {A B} (m : M A) (k : A -> M B) tr o1 a :
  m tr = (o1, Ok a) -> bind m k tr = let (o2, r2) := k a (tr ++ o1) in (o1 ++ o2, r2).
Proof. unfold bind. intros ->. reflexivity. Qed.

Lemma bind_ok_eq {A B} (m : M A) (k : A -> M B) tr o1 a o2 r2 :
  m tr = (o1, Ok a) -> k a (tr ++ o1) = (o2, r2) -> bind m k tr = (o1 ++ o2, r2).
Proof. intros H1 H2. rewrite (bind_ok _ _ _ _ _ H1), H2. reflexivity. Qed.

Lemma bind_silent {A B} (m : M A) (k : A -> M B) tr a :
  m tr = ([], Ok a) -> bind m k tr = k a tr.
Proof. unfold bind. intros ->. rewrite app_nil_r. now destruct (k a tr). Qed.

Lemma bind_ret {A B} (a : A) (k : A -> M B) tr : bind (ret a) k tr = k a tr.
Proof. unfold bind, ret. rewrite app_nil_r. now destruct (k a tr). Qed.

Lemma bind_assoc {A B C} (m : M A) (k : A -> M B) (h : B -> M C) tr :
  bind (bind m k) h tr = bind m (fun a => bind (k a) h) tr.
Proof.
  unfold bind. destruct (m tr) as [o1 [a|u| |]]; try reflexivity.
  destruct (k a (tr ++ o1)) as [o2 [b|u| |]]; try reflexivity.
  rewrite app_assoc. destruct (h b ((tr ++ o1) ++ o2)) as [o3 r]. now rewrite app_assoc.
Qed.

(** Equality of computations at a trace, under a common prefix. *)
Lemma bind_ext {A B} (m : M A) (k k' : A -> M B) tr :
  (forall a o, m tr = (o, Ok a) -> k a (tr ++ o) = k' a (tr ++ o)) -> bind m k tr = bind m k' tr.
Proof.
  unfold bind. destruct (m tr) as [o1 [a|u| |]]; intros H; try reflexivity.
  now rewrite (H a o1 eq_refl).
Qed.

(** ** A property every added observation list has, whatever the outcome. *)
Definition every {A} (P : trace -> Prop) (m : M A) : Prop := forall tr, P (fst (m tr)).

Lemma every_ret {A} (P : trace -> Prop) (a : A) : P [] -> every P (ret a).
Proof. intros H tr. exact H. Qed.
Lemma every_undef {A} (P : trace -> Prop) u : P [] -> every P (@undef A u).
Proof. intros H tr. exact H. Qed.
Lemma every_fuel {A} (P : trace -> Prop) : P [] -> every P (@no_fuel A).
Proof. intros H tr. exact H. Qed.

Lemma every_bind {A B} (P : trace -> Prop) (m : M A) (k : A -> M B) :
  (forall a b, P a -> P b -> P (a ++ b)) ->
  every P m -> (forall a, every P (k a)) -> every P (bind m k).
Proof.
  intros Happ Hm Hk tr. unfold bind. specialize (Hm tr). destruct (m tr) as [o1 [a|u| |]]; try exact Hm.
  cbn in Hm. specialize (Hk a (tr ++ o1)). destruct (k a (tr ++ o1)) as [o2 r2]. cbn in *. auto.
Qed.

(** ** Memory *)
Lemma skipn_app_len {A} (a b : list A) n : n = length a -> skipn n (a ++ b) = b.
Proof. intros ->. rewrite skipn_app, skipn_all, Nat.sub_diag. reflexivity. Qed.
Lemma firstn_app_len {A} (a b : list A) n : n = length a -> firstn n (a ++ b) = a.
Proof. intros ->. rewrite firstn_app, firstn_all, Nat.sub_diag. cbn. apply app_nil_r. Qed.

Lemma word_at_mid size pre ws post off tr :
  length ws = size -> N.to_nat off = length pre ->
  word_at size (pre ++ ws ++ post) off tr = ([], Ok (le_word ws)).
Proof.
  intros Hs Ho. unfold word_at. rewrite Ho, skipn_app_len by reflexivity.
  rewrite firstn_app_len by auto. rewrite Hs, Nat.eqb_refl. reflexivity.
Qed.

Lemma byte_at_mid pre b post off tr :
  N.to_nat off = length pre -> byte_at (pre ++ b :: post) off tr = ([], Ok b).
Proof.
  intros Ho. unfold byte_at. rewrite Ho, nth_error_app2, Nat.sub_diag by lia. reflexivity.
Qed.

Lemma c_string_in_app nm rest :
  Forall (fun b => b <> 0%N) nm -> c_string_in (nm ++ 0%N :: rest) = Some nm.
Proof.
  induction 1 as [|b nm Hb _ IH]; cbn; [reflexivity|].
  destruct (N.eqb_spec b 0); [contradiction|]. now rewrite IH.
Qed.

Lemma c_string_mid pre nm rest off tr :
  Forall (fun b => b <> 0%N) nm -> N.to_nat off = length pre ->
  c_string (pre ++ nm ++ 0%N :: rest) off tr = ([], Ok nm).
Proof.
  intros Hn Ho. unfold c_string. rewrite Ho, skipn_app_len by reflexivity.
  rewrite c_string_in_app by exact Hn. reflexivity.
Qed.

Lemma le_bytes_len size v : length (le_bytes size v) = size.
Proof. revert v. induction size; cbn; auto. Qed.

Lemma le_word_bytes size v : (v < 256 ^ N.of_nat size)%N -> le_word (le_bytes size v) = v.
Proof.
  revert v. induction size as [|k IH]; intros v Hv; cbn [le_bytes le_word].
  - change (256 ^ N.of_nat 0)%N with 1%N in Hv. lia.
  - rewrite Nat2N.inj_succ, N.pow_succ_r' in Hv. rewrite IH.
    + pose proof (N.div_mod v 256). lia.
    + apply N.div_lt_upper_bound; lia.
Qed.

Lemma to_of_i32 z : (-2147483648 <= z < 2147483648)%Z -> to_i32 (of_i32 z) = z.
Proof.
  unfold to_i32, of_i32. intros H. destruct (Z.ltb_spec z 0).
  - destruct (N.ltb_spec (Z.to_N (z + 4294967296)) 2147483648); lia.
  - destruct (N.ltb_spec (Z.to_N z) 2147483648); lia.
Qed.
Lemma of_i32_bound z : (-2147483648 <= z < 2147483648)%Z -> (of_i32 z < 256 ^ N.of_nat 4)%N.
Proof.
  unfold of_i32. change (256 ^ N.of_nat 4)%N with 4294967296%N. intros H.
  destruct (Z.ltb_spec z 0); lia.
Qed.

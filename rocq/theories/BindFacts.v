(** Facts about the bindings. *)
From Verif Require Import Base EventModel Utf8Spec BindModel BindSpec.

(** ** UTF-8 *)
Lemma decode_char c r : scalar c -> decode (utf8_char c ++ r) = option_map (cons c) (decode r).
Proof.
  intros Hs. unfold utf8_char. unfold scalar in Hs.
  destruct (N.ltb_spec c 0x80) as [H1|H1]; [cbn [app decode]; replace (c <? 0x80)%N with true by lia; reflexivity|].
  destruct (N.ltb_spec c 0x800) as [H2|H2]; [|destruct (N.ltb_spec c 0x10000) as [H3|H3]].
  - cbn [app decode]. replace (0xC0 + c / 64 <? 0x80)%N with false by lia.
    replace (between 0xC2 (0xC0 + c / 64) 0xDF && cont (0x80 + c mod 64)) with true by (unfold between, cont, between; lia).
    f_equal. f_equal. lia.
  - cbn [app decode]. replace (0xE0 + c / 4096 <? 0x80)%N with false by lia.
    replace (between 0xC2 (0xE0 + c / 4096) 0xDF && cont (0x80 + c / 64 mod 64)) with false by (unfold between, cont, between; lia).
    match goal with |- (if ?b then _ else _) = _ => replace b with true end.
    + f_equal. f_equal. lia.
    + unfold between, cont, between. destruct (N.eqb_spec (0xE0 + c / 4096) 0xE0), (N.eqb_spec (0xE0 + c / 4096) 0xED); lia.
  - cbn [app decode]. replace (0xF0 + c / 262144 <? 0x80)%N with false by lia.
    replace (between 0xC2 (0xF0 + c / 262144) 0xDF && cont (0x80 + c / 4096 mod 64)) with false by (unfold between, cont, between; lia).
    match goal with |- (if ?b then _ else _) = _ => replace b with false by (unfold between; lia) end.
    match goal with |- (if ?b then _ else _) = _ => replace b with true end.
    + f_equal. f_equal. lia.
    + unfold between, cont, between. destruct (N.eqb_spec (0xF0 + c / 262144) 0xF0), (N.eqb_spec (0xF0 + c / 262144) 0xF4); lia.
Qed.
Lemma decode_utf8 cs : Forall scalar cs -> decode (utf8 cs) = Some cs.
Proof. induction 1 as [|c cs Hc _ IH]; [reflexivity|]. unfold utf8 in *. cbn [flat_map]. now rewrite decode_char, IH. Qed.
Lemma decode_sound n : forall bs cs, (length bs <= n)%nat -> decode bs = Some cs -> is_utf8 bs cs.
Proof.
  induction n as [|n IH]; intros bs cs Hl H.
  { destruct bs; [|cbn in Hl; lia]. injection H as <-. now split. }
  destruct bs as [|b0 r0]; [injection H as <-; now split|]. cbn [decode] in H. cbn [length] in Hl.
  assert (K : forall c r ds, (length r <= n)%nat -> option_map (cons c) (decode r) = Some ds -> scalar c ->
             exists cs', ds = c :: cs' /\ is_utf8 (utf8_char c ++ r) ds).
  { intros c r ds Hr E Hc. destruct (decode r) as [cs'|] eqn:D; [|discriminate]. injection E as <-. exists cs'. split; [reflexivity|].
    destruct (IH r cs' Hr D) as [F ->]. split; [now constructor|reflexivity]. }
  destruct (N.ltb_spec b0 0x80) as [H0|H0].
  { destruct (K b0 r0 cs) as (cs' & -> & U); [lia|exact H|left; lia|]. unfold utf8_char in U. now replace (b0 <? 0x80)%N with true in U by lia. }
  destruct r0 as [|b1 r1]; [discriminate|]. cbn [length] in Hl.
  destruct (between 0xC2 b0 0xDF && cont b1) eqn:E1.
  { unfold between, cont, between in E1. destruct (K _ r1 cs ltac:(lia) H) as (cs' & -> & U); [left; lia|].
    unfold utf8_char in U. replace ((b0 - 192) * 64 + (b1 - 128) <? 128)%N with false in U by lia.
    replace ((b0 - 192) * 64 + (b1 - 128) <? 2048)%N with true in U by lia.
    replace (192 + ((b0 - 192) * 64 + (b1 - 128)) / 64)%N with b0 in U by lia.
    replace (128 + ((b0 - 192) * 64 + (b1 - 128)) mod 64)%N with b1 in U by lia. exact U. }
  destruct r1 as [|b2 r2]; [discriminate|]. cbn [length] in Hl.
  match type of H with (if ?b then _ else _) = _ => destruct b eqn:E2 end.
  { unfold between, cont, between in E2.
    assert (Hb : (0xE0 <= b0 <= 0xEF /\ 0x80 <= b1 <= 0xBF /\ 0x80 <= b2 <= 0xBF /\ (b0 = 0xE0 -> 0xA0 <= b1) /\ (b0 = 0xED -> b1 <= 0x9F))%N).
    { destruct (N.eqb_spec b0 0xE0), (N.eqb_spec b0 0xED); lia. }
    clear E1 E2. destruct Hb as (B0 & B1 & B2 & B3 & B4).
    set (c := ((b0 - 224) * 4096 + (b1 - 128) * 64 + (b2 - 128))%N) in *.
    destruct (K c r2 cs ltac:(lia) H) as (cs' & -> & U).
    - unfold scalar, c. destruct (N.eq_dec b0 0xED) as [-> |]; lia.
    - unfold utf8_char in U. assert (Hc : (0x800 <= c)%N) by (unfold c; destruct (N.eq_dec b0 0xE0) as [-> |]; lia).
      replace (c <? 128)%N with false in U by lia. replace (c <? 2048)%N with false in U by lia. replace (c <? 65536)%N with true in U by (unfold c; lia).
      replace (224 + c / 4096)%N with b0 in U by (unfold c; lia). replace (128 + c / 64 mod 64)%N with b1 in U by (unfold c; lia).
      replace (128 + c mod 64)%N with b2 in U by (unfold c; lia). exact U. }
  destruct r2 as [|b3 r3]; [discriminate|]. cbn [length] in Hl.
  match type of H with (if ?b then _ else _) = _ => destruct b eqn:E3 end; [|discriminate].
  unfold between, cont, between in E3.
  assert (Hb : (0xF0 <= b0 <= 0xF4 /\ 0x80 <= b1 <= 0xBF /\ 0x80 <= b2 <= 0xBF /\ 0x80 <= b3 <= 0xBF /\ (b0 = 0xF0 -> 0x90 <= b1) /\ (b0 = 0xF4 -> b1 <= 0x8F))%N).
  { destruct (N.eqb_spec b0 0xF0), (N.eqb_spec b0 0xF4); lia. }
  clear E1 E2 E3. destruct Hb as (B0 & B1 & B2 & B3 & B4 & B5).
  set (c := ((b0 - 240) * 262144 + (b1 - 128) * 4096 + (b2 - 128) * 64 + (b3 - 128))%N) in *.
  assert (Hc : (0x10000 <= c < 0x110000)%N).
  { unfold c. destruct (N.eq_dec b0 0xF0) as [-> |]; [lia|]. destruct (N.eq_dec b0 0xF4) as [-> |]; lia. }
  destruct (K c r3 cs ltac:(lia) H) as (cs' & -> & U); [right; lia|].
  unfold utf8_char in U.
  replace (c <? 128)%N with false in U by lia. replace (c <? 2048)%N with false in U by lia. replace (c <? 65536)%N with false in U by lia.
  replace (240 + c / 262144)%N with b0 in U by (unfold c; lia). replace (128 + c / 4096 mod 64)%N with b1 in U by (unfold c; lia).
  replace (128 + c / 64 mod 64)%N with b2 in U by (unfold c; lia). replace (128 + c mod 64)%N with b3 in U by (unfold c; lia). exact U.
Qed.
Lemma decode_none bs : decode bs = None <-> ~ exists cs, is_utf8 bs cs.
Proof.
  split.
  - intros H (cs & F & ->). rewrite decode_utf8 in H by exact F. discriminate.
  - intros H. destruct (decode bs) as [cs|] eqn:D; [|reflexivity]. exfalso. apply H. exists cs. eapply decode_sound; eauto.
Qed.
Lemma c_str_id t : ~ In 0%N t -> c_str t = t.
Proof.
  induction t as [|c t IH]; intros H; [reflexivity|]. cbn. destruct (N.eqb_spec c 0) as [-> |]; [exfalso; apply H; now left|].
  rewrite IH; [reflexivity|]. intros Hi. apply H. now right.
Qed.
Lemma c_str_prefix t : exists r, t = c_str t ++ r.
Proof. induction t as [|c t (r & IH)]; [now exists []|]. cbn. destruct (c =? 0)%N; [now exists (c :: t)|]. exists r. cbn. now rewrite <- IH. Qed.
Lemma utf8_char_nul c : In 0%N (utf8_char c) -> c = 0%N.
Proof.
  unfold utf8_char. destruct (_ <? _)%N; [intros [H|[]]; lia|]. destruct (_ <? _)%N; [intros [H|[H|[]]]; lia|].
  destruct (_ <? _)%N; [intros [H|[H|[H|[]]]]; lia|intros [H|[H|[H|[H|[]]]]]; lia].
Qed.
Lemma utf8_nul cs : ~ In 0%N cs -> ~ In 0%N (utf8 cs).
Proof. intros H Hi. unfold utf8 in Hi. apply in_flat_map in Hi as (c & Hc & Hi). apply utf8_char_nul in Hi as ->. contradiction. Qed.
Lemma utf8_nul_in cs : In 0%N cs -> In 0%N (utf8 cs).
Proof. intros H. unfold utf8. apply in_flat_map. exists 0%N. split; [exact H|now left]. Qed.
Lemma c_str_no_nul t : ~ In 0%N (c_str t).
Proof. induction t as [|c t IH]; [intros []|]. cbn. destruct (N.eqb_spec c 0); [intros []|]. intros [H|H]; [lia|contradiction]. Qed.
Lemma int8_effect e : int8 (effect_code e) = effect_code e. Proof. now destruct e. Qed.
Lemma int8_path e : int8 (path_code e) = path_code e. Proof. now destruct e. Qed.

(** ** Handles *)
Lemma put_len {A} i (a : A) l : length (put i a l) = length l.
Proof. revert i. induction l as [|x l IH]; intros [|i]; cbn; auto. Qed.
Lemma put_nth {A} i (a : A) l j : nth_error (put i a l) j = if Nat.eqb i j then match nth_error l j with Some _ => Some a | None => None end else nth_error l j.
Proof. revert i j. induction l as [|x l IH]; intros [|i] [|j]; cbn; try reflexivity; [now destruct (Nat.eqb i j)|apply IH]. Qed.
Lemma step_freed ws c ws' r i : c_step ws c = Ok (ws', r) ->
  (nth_error ws' i = Some CFreed <-> nth_error ws i = Some CFreed \/ (r = true /\ call_handle c = Some i)).
Proof.
  intros H. destruct c as [|[k|] rel th]; cbn in H.
  - injection H as <- <-. destruct (Nat.lt_ge_cases i (length ws)) as [Hi|Hi].
    + rewrite nth_error_app1 by exact Hi. cbn. intuition discriminate.
    + rewrite nth_error_app2 by exact Hi. assert (N : nth_error ws i = None) by now apply nth_error_None. rewrite N.
      destruct (i - length ws)%nat as [|[|n]]; cbn; intuition discriminate.
  - destruct (nth_error ws k) as [[v|]|] eqn:E; try discriminate. destruct (cpp_close v rel th) as [ok v']. destruct ok; injection H as <- <-;
      rewrite put_nth; cbn; destruct (Nat.eqb_spec k i) as [-> |Hne]; rewrite ?E; intuition congruence.
  - injection H as <- <-. cbn. intuition discriminate.
Qed.
Lemma run_app ws cs ds : c_run ws (cs ++ ds) =
  match c_run ws cs with
  | (l, Ok ws') => let (l', e) := c_run ws' ds in (l ++ l', e)
  | (l, e) => (l, e)
  end.
Proof.
  revert ws. induction cs as [|c cs IH]; intros ws; cbn [c_run app].
  - now destruct (c_run ws ds).
  - destruct (c_step ws c) as [[ws' r]| | |]; try reflexivity. rewrite IH. destruct (c_run ws' cs) as [l [w|u| |]]; try reflexivity.
    now destruct (c_run w ds).
Qed.
(** Freed are those closed with success. *)
Lemma run_freed cs : forall ws l ws', c_run ws cs = (l, Ok ws') ->
  forall i, nth_error ws' i = Some CFreed <-> nth_error ws i = Some CFreed \/ closed_ok i l.
Proof.
  induction cs as [|c cs IH]; intros ws l ws' H i; cbn [c_run] in H.
  - injection H as <- <-. split; [now left|]. intros [H|(c & [] & _)]; exact H.
  - destruct (c_step ws c) as [[ws1 r]| | |] eqn:S; try discriminate. destruct (c_run ws1 cs) as [l1 e] eqn:R. injection H as <- ->.
    rewrite (IH _ _ _ R i), (step_freed ws c ws1 r i S). unfold closed_ok. cbn [In].
    split.
    + intros [[H|[-> H]]|(c' & H & E)]; [now left|right; exists c; auto|right; exists c'; auto].
    + intros [H|(c' & [H|H] & E)]; [auto|injection H as <- ->; auto|right; exists c'; auto].
Qed.
Lemma run_undef cs : forall ws l u, c_run ws cs = (l, Undef u) ->
  exists c rest ws', cs = map fst l ++ c :: rest /\ c_run ws (map fst l) = (l, Ok ws') /\ c_step ws' c = Undef u.
Proof.
  induction cs as [|c cs IH]; intros ws l u H; cbn [c_run] in H; [discriminate|].
  destruct (c_step ws c) as [[ws1 r]| | |] eqn:S; try discriminate.
  - destruct (c_run ws1 cs) as [l1 e] eqn:R. injection H as <- ->. destruct (IH _ _ _ R) as (c' & rest & ws' & -> & R' & S').
    exists c', rest, ws'. cbn [map fst app c_run]. rewrite S, R'. auto.
  - injection H as <- ->. exists c, cs, ws. auto.
Qed.
Lemma run_log cs : forall ws l e, c_run ws cs = (l, Ok e) -> map fst l = cs.
Proof.
  induction cs as [|c cs IH]; intros ws l e H; cbn [c_run] in H; [injection H as <- _; reflexivity|].
  destruct (c_step ws c) as [[ws1 r]| | |]; try discriminate. destruct (c_run ws1 cs) as [l1 e1] eqn:R. injection H as <- ->. cbn. f_equal. eauto.
Qed.
Lemma opened_len cs : forall ws l e, opened_before (length ws) cs -> c_run ws cs = (l, e) -> e <> Undef OobRead /\ e <> Crash /\ e <> Fuel.
Proof.
  induction cs as [|c cs IH]; intros ws l e O H; cbn [c_run] in H; [injection H as <- <-; repeat split; discriminate|].
  destruct (c_step ws c) as [[ws1 r]|u| |] eqn:S.
  - destruct (c_run ws1 cs) as [l1 e1] eqn:R. injection H as <- ->. eapply IH; [|exact R].
    destruct c as [|[k|] rel th]; cbn in S, O.
    + injection S as <- _. rewrite app_length. cbn. now replace (length ws + 1)%nat with (Datatypes.S (length ws)) by lia.
    + destruct (nth_error ws k) as [[v|]|]; try discriminate. destruct (cpp_close v rel th) as [[] v']; injection S as <- _; rewrite put_len; apply O.
    + injection S as <- _. exact O.
  - injection H as <- <-. destruct c as [|[k|] rel th]; cbn in S, O; try discriminate. destruct (nth_error ws k) as [[v|]|] eqn:E.
    + destruct (cpp_close v rel th) as [[] v']; discriminate.
    + injection S as <-. repeat split; discriminate.
    + apply nth_error_None in E. lia.
  - destruct c as [|[k|] rel th]; cbn in S; try discriminate. destruct (nth_error ws k) as [[v|]|]; try discriminate. destruct (cpp_close v rel th) as [[] v']; discriminate.
  - destruct c as [|[k|] rel th]; cbn in S; try discriminate. destruct (nth_error ws k) as [[v|]|]; try discriminate. destruct (cpp_close v rel th) as [[] v']; discriminate.
Qed.

(** ** Doubles *)
Lemma to_double_small z : (Z.abs z <= 2 ^ 53)%Z -> to_double z = z.
Proof.
  intros H. unfold to_double. set (a := Z.abs z) in *. destruct (Z.eq_dec a (2 ^ 53)) as [E|Hne].
  - rewrite E. replace (Z.log2 (2 ^ 53))%Z with 53%Z by reflexivity. cbn zeta. replace (Z.max 0 (53 - 52))%Z with 1%Z by lia.
    vm_compute (2 ^ 1)%Z. vm_compute (2 ^ 53 / 2)%Z. vm_compute (2 ^ 53 mod 2)%Z. cbn [Z.mul Z.ltb Z.compare]. unfold a in E. lia.
  - assert (Hl : (Z.log2 a <= 52)%Z).
    { destruct (Z.le_gt_cases a 0); [rewrite Z.log2_nonpos; lia|]. assert (Z.log2 a < 53)%Z by (apply Z.log2_lt_pow2; lia). lia. }
    replace (Z.max 0 (Z.log2 a - 52))%Z with 0%Z by lia. cbn zeta. change (2 ^ 0)%Z with 1%Z. rewrite Z.div_1_r, Z.mod_1_r. cbn [Z.mul Z.ltb Z.compare].
    rewrite Z.mul_1_r. unfold a. lia.
Qed.
Lemma to_double_multiple z k : (0 <= k)%Z -> (2 ^ (52 + k) <= Z.abs z)%Z -> (to_double z mod 2 ^ k = 0)%Z.
Proof.
  intros Hk H. unfold to_double. set (a := Z.abs z) in *. assert (Hl : (52 + k <= Z.log2 a)%Z) by (apply Z.log2_le_pow2; [|exact H]; pose proof (Z.pow_pos_nonneg 2 (52 + k)); lia).
  set (e := Z.max 0 (Z.log2 a - 52)). assert (He : (k <= e)%Z) by lia. cbn zeta.
  match goal with |- context [(Z.sgn z * (?q * 2 ^ e))%Z] => generalize q; intros q' end.
  replace (2 ^ e)%Z with (2 ^ (e - k) * 2 ^ k)%Z by (rewrite <- Z.pow_add_r by lia; f_equal; lia).
  rewrite !Z.mul_assoc. apply Z.mod_mul. pose proof (Z.pow_pos_nonneg 2 k). lia.
Qed.
Lemma to_double_near z : (Z.abs (to_double z - z) * 2 <= 2 ^ Z.max 0 (Z.log2 (Z.abs z) - 52))%Z.
Proof.
  unfold to_double. set (a := Z.abs z). set (e := Z.max 0 (Z.log2 a - 52)). cbn zeta. set (u := (2 ^ e)%Z).
  assert (Hu : (0 < u)%Z) by (apply Z.pow_pos_nonneg; lia). pose proof (Z.div_mod a u). pose proof (Z.mod_pos_bound a u Hu).
  set (q := (a / u)%Z) in *. set (r := (a mod u)%Z) in *.
  assert (Hz : z = (Z.sgn z * a)%Z) by (unfold a; lia).
  set (q' := if (2 * r <? u)%Z then q else if (u <? 2 * r)%Z then (q + 1)%Z else if Z.even q then q else (q + 1)%Z).
  assert (Hd : (Z.abs (q' * u - a) * 2 <= u)%Z).
  { unfold q'. destruct (Z.ltb_spec (2 * r) u); [nia|]. destruct (Z.ltb_spec u (2 * r)); [nia|]. destruct (Z.even q); nia. }
  rewrite Hz at 2. rewrite <- Z.mul_sub_distr_l, Z.abs_mul. destruct (Z.eq_dec z 0) as [-> |]; [cbn; lia|]. replace (Z.abs (Z.sgn z)) with 1%Z by lia. lia.
Qed.

(** ** The queue *)
Lemma subseq_snoc_take {A} (a b : list A) x : subseq a b -> subseq (a ++ [x]) (b ++ [x]).
Proof. induction 1; cbn; [apply Sub_take, Sub_nil|now apply Sub_take|now apply Sub_skip]. Qed.
Lemma subseq_snoc_skip {A} (a b : list A) x : subseq a b -> subseq a (b ++ [x]).
Proof. induction 1; cbn; [apply Sub_skip, Sub_nil|now apply Sub_take|now apply Sub_skip]. Qed.
Record jinv {A} (s : jstate A) : Prop := {
  ji_subseq : subseq (map snd (j_called s) ++ j_queue s) (j_made s);
  ji_count : (length (j_called s) + length (j_queue s) + length (j_leaked s) = length (j_made s))%nat;
  ji_all : j_leaked s = [] -> map snd (j_called s) ++ j_queue s = j_made s;
}.
Lemma jinv_reach {A} (s : jstate A) : jreach jstart s -> jinv s.
Proof.
  intros H. remember jstart as s0 eqn:E0. induction H as [s|s t u H IH S]; subst.
  - split; cbn; [apply Sub_nil|reflexivity|reflexivity].
  - specialize (IH eq_refl). destruct IH as [I1 I2 I3]. inversion S; subst; cbn in *.
    + split; cbn; [rewrite app_assoc; now apply subseq_snoc_take|rewrite !app_length; cbn; lia|intros Hk; rewrite app_assoc; now rewrite I3].
    + split; cbn; [now apply subseq_snoc_skip|rewrite !app_length; cbn; lia|intros Hk; now destruct k].
    + split; cbn; rewrite ?map_app; cbn; rewrite <- ?app_assoc; [exact I1|rewrite app_length; cbn; lia|exact I3].
    + now split.
    + now split.
Qed.

(** ** Statements of PropsBind *)
From Verif Require Import EventSpec EventFacts.

Lemma c_str_cut t r : ~ In 0%N t -> c_str (t ++ 0%N :: r) = t.
Proof.
  induction t as [|c t IH]; intros H; [reflexivity|]. cbn. destruct (N.eqb_spec c 0) as [-> |]; [exfalso; apply H; now left|].
  rewrite IH; [reflexivity|]. intros Hi. apply H. now right.
Qed.
Lemma view_mirrors e : paths_ok no_nul e -> c_mirrors (view_of e) e.
Proof.
  intros [H1 H2]. unfold c_mirrors, view_of; cbn. rewrite (c_str_id _ H1). repeat (split; [reflexivity|]).
  split; [|split; [now destruct (ev_effect e)|now destruct (ev_ptype e)]].
  unfold assoc_path in *. destruct (ev_assoc e) as [a|]; [|reflexivity]. now rewrite c_str_id by (apply H2; reflexivity).
Qed.
Lemma wide_ok wide cs : faithful wide -> Forall scalar cs -> ~ In 0%N cs ->
  utf16_to_utf8 wide (utf16 cs) =
    if (N.of_nat (length (utf8 cs)) <? 4095)%N then Ok (Some (utf8 cs))
    else if (N.of_nat (length (utf8 cs)) =? 4095)%N then Undef OobWrite else Ok None.
Proof.
  intros F S Z. unfold utf16_to_utf8. rewrite F by assumption. unfold path_buf_len.
  destruct (N.leb_spec (N.of_nat (length (utf8 cs)) + 1) 4096) as [H|H].
  - destruct (utf8 cs ++ [0%N]) as [|b bs] eqn:E; [now destruct (utf8 cs)|]. rewrite <- E.
    rewrite app_length; cbn [length]. rewrite <- app_assoc. cbn [app]. rewrite c_str_cut by now apply utf8_nul.
    destruct (N.ltb_spec (N.of_nat (length (utf8 cs))) 4095); destruct (N.ltb_spec (N.of_nat (length (utf8 cs) + 1)) 4096); try lia; [reflexivity|].
    now replace (N.of_nat (length (utf8 cs)) =? 4095)%N with true by lia.
  - replace (N.of_nat (length (utf8 cs)) <? 4095)%N with false by lia. now replace (N.of_nat (length (utf8 cs)) =? 4095)%N with false by lia.
Qed.
Lemma win_ok wide e : faithful wide ->
  paths_ok (fun us => exists cs, is_utf16 us cs /\ ~ In 0%N cs /\ (N.of_nat (length (utf8 cs)) < 4095)%N) e ->
  exists v, view_of_win wide e = Ok (Some v) /\ c_mirrors_win v e.
Proof.
  intros F [(cs & [S E] & Z & L) H2].
  assert (W : utf16_to_utf8 wide (ev_path e) = Ok (Some (utf8 cs))).
  { rewrite E, wide_ok by assumption. now replace (N.of_nat (length (utf8 cs)) <? 4095)%N with true by lia. }
  unfold view_of_win. rewrite W. unfold assoc_path in H2.
  assert (X : win_text (utf8 cs) (ev_path e)) by (exists cs; repeat split; assumption).
  destruct (ev_assoc e) as [a|] eqn:A.
  - destruct (H2 _ eq_refl) as (ds & [S' E'] & Z' & L').
    assert (W' : utf16_to_utf8 wide (ev_path a) = Ok (Some (utf8 ds))).
    { rewrite E', wide_ok by assumption. now replace (N.of_nat (length (utf8 ds)) <? 4095)%N with true by lia. }
    rewrite W'. eexists. split; [reflexivity|]. unfold c_mirrors_win, assoc_path; cbn. rewrite A. split; [reflexivity|]. split; [exact X|].
    split; [exists ds; repeat split; assumption|]. split; [now destruct (ev_effect e)|now destruct (ev_ptype e)].
  - eexists. split; [reflexivity|]. unfold c_mirrors_win, assoc_path; cbn. rewrite A. split; [reflexivity|]. split; [exact X|].
    split; [exact I|]. split; [now destruct (ev_effect e)|now destruct (ev_ptype e)].
Qed.
Lemma win_bad wide cs e : faithful wide -> is_utf16 (ev_path e) cs -> ~ In 0%N cs ->
  (N.of_nat (length (utf8 cs)) = 4095%N -> view_of_win wide e = Undef OobWrite) /\
  ((4095 < N.of_nat (length (utf8 cs)))%N -> view_of_win wide e = Ok None).
Proof.
  intros F [S E] Z. unfold view_of_win. rewrite E, wide_ok by assumption. split; intros L.
  - replace (N.of_nat (length (utf8 cs)) <? 4095)%N with false by lia. now replace (N.of_nat (length (utf8 cs)) =? 4095)%N with true by lia.
  - replace (N.of_nat (length (utf8 cs)) <? 4095)%N with false by lia. now replace (N.of_nat (length (utf8 cs)) =? 4095)%N with false by lia.
Qed.

(** Calls on handles. *)
Lemma only_reuse cs l e : opened_before 0 cs -> c_run [] cs = (l, e) ->
  (exists ws, e = Ok ws) \/
  (e = Undef UseAfterFree /\ exists i r t rest, cs = map fst l ++ CClose (Some i) r t :: rest /\ closed_ok i l).
Proof.
  intros O R. destruct (opened_len cs [] l e O R) as (N1 & N2 & N3). destruct e as [ws|u| |]; [eauto| |contradiction|contradiction]. right.
  destruct (run_undef _ _ _ _ R) as (c & rest & ws' & E & R' & S).
  destruct c as [|[i|] r t]; cbn in S; try discriminate.
  destruct (nth_error ws' i) as [[v|]|] eqn:X.
  - destruct (cpp_close v r t) as [[] v']; discriminate.
  - injection S as <-. split; [reflexivity|]. exists i, r, t, rest. split; [exact E|].
    apply (run_freed _ _ _ _ R' i) in X as [X|X]; [|exact X]. destruct i; discriminate.
  - injection S as <-. contradiction.
Qed.
Lemma null_false cs : forall ws r t b, In (CClose None r t, b) (fst (c_run ws cs)) -> b = false.
Proof.
  induction cs as [|c cs IH]; intros ws r t b H; cbn [c_run] in H; [destruct H|].
  destruct (c_step ws c) as [[ws1 b1]| | |] eqn:S; try destruct H. 
  destruct (c_run ws1 cs) as [l e] eqn:R. cbn in H. destruct H as [H|H].
  - injection H as -> ->. cbn in S. now injection S as _ <-.
  - eapply (IH ws1). rewrite R. exact H.
Qed.
Lemma reuse_bad cs l ws i r t : c_run [] cs = (l, Ok ws) -> closed_ok i l ->
  snd (c_run [] (cs ++ [CClose (Some i) r t])) = Undef UseAfterFree.
Proof.
  intros R C. rewrite run_app, R. cbn [c_run c_step].
  assert (X : nth_error ws i = Some CFreed) by (apply (run_freed _ _ _ _ R i); now right). now rewrite X.
Qed.
Lemma leak_closes answers :
  let as_calls := map (fun a => CClose (Some 0%nat) (fst a) (snd a)) answers in
  c_run [CLive false] as_calls = (map (fun c => (c, false)) as_calls, Ok [CLive false]).
Proof.
  induction answers as [|[r t] l IH]; [reflexivity|]. cbn. cbn in IH. destruct r; cbn; now rewrite IH.
Qed.
Lemma rust_many before after drop : Forall (fun a => fst a = false) before ->
  snd (c_run [CLive true] (rust_calls 0 (before ++ (true, true) :: after) drop)) = Undef UseAfterFree.
Proof.
  intros H. unfold rust_calls. induction H as [|[r t] l Hr _ IH]; cbn in *.
  - destruct after as [|[r t] after]; reflexivity.
  - subst r. cbn. rewrite <- IH. now destruct (c_run [CLive true] _).
Qed.
Lemma rust_decode t : valid_utf8 t -> is_utf8 t (rust_str t).
Proof. intros (cs & S & ->). unfold rust_str. rewrite decode_utf8 by exact S. now split. Qed.
Lemma c_effect e : rust_effect (effect_c e) = e. Proof. now destruct e. Qed.
Lemma c_ptype e : rust_ptype (ptype_c e) = e. Proof. now destruct e. Qed.
Lemma rust_mirrors v e : c_mirrors v e -> paths_ok valid_utf8 e -> mirrors (rust_event v) e.
Proof.
  intros (E1 & E2 & E3 & E4 & E5) [V1 V2]. unfold mirrors, rust_event; cbn. rewrite E1, E2, E3, E4, E5, c_effect, c_ptype.
  split; [reflexivity|]. split; [now apply rust_decode|]. split; [|now split].
  destruct (assoc_path e) as [p|]; cbn; [|exact I]. apply rust_decode. now apply V2.
Qed.
Lemma py_effect_ok e : py_effect (effect_c e) = Some e. Proof. now destruct e. Qed.
Lemma py_ptype_ok e : py_ptype (ptype_c e) = Some e. Proof. now destruct e. Qed.
Lemma py_mirrors v e : c_mirrors v e -> paths_ok valid_utf8 e -> assoc_path e <> Some [] ->
  exists b, py_event v = Some b /\ mirrors b e.
Proof.
  intros (E1 & E2 & E3 & E4 & E5) [V1 V2] Hne. unfold py_event. rewrite E2, E3, E4, E5, py_effect_ok, py_ptype_ok.
  destruct V1 as (cs & S & Ep). unfold py_str. rewrite Ep, decode_utf8 by exact S.
  destruct (assoc_path e) as [p|] eqn:A.
  - destruct (V2 _ eq_refl) as (ds & S' & Ea). rewrite Ea. rewrite decode_utf8 by exact S'.
    destruct ds as [|d ds]; [subst p; now contradiction Hne|]. eexists. split; [reflexivity|].
    unfold mirrors; cbn [b_time b_path b_assoc b_effect b_ptype]. rewrite A, E1. split; [reflexivity|]. split; [now split|]. split; [|now split]. cbn. now split.
  - eexists. split; [reflexivity|]. unfold mirrors; cbn [b_time b_path b_assoc b_effect b_ptype]. rewrite A, E1. split; [reflexivity|]. split; [now split|]. split; [exact I|now split].
Qed.
Lemma py_refuses v e : c_mirrors v e -> ~ paths_ok valid_utf8 e -> py_event v = None.
Proof.
  intros (E1 & E2 & E3 & E4 & E5) H. unfold py_event, py_str. rewrite E2, E3. destruct (decode (ev_path e)) as [cs|] eqn:D; [|reflexivity].
  destruct (assoc_path e) as [p|] eqn:A.
  - destruct (decode p) as [ds|] eqn:D'; [|reflexivity]. exfalso. apply H. split; [exists cs; eapply decode_sound; eauto|].
    intros q Hq. rewrite A in Hq. injection Hq as <-. exists ds. eapply decode_sound; eauto.
  - exfalso. apply H. split; [exists cs; eapply decode_sound; eauto|]. intros q Hq. rewrite A in Hq. discriminate.
Qed.
Lemma py_calls_none ops : py_calls None ops = [].
Proof. induction ops as [|[] ops IH]; cbn; auto. Qed.
Lemma key_effect e : key ts_effects (effect_c e) = Some (effect_ts e). Proof. now destruct e. Qed.
Lemma key_ptype e : key ts_ptypes (ptype_c e) = Some (ptype_ts e). Proof. now destruct e. Qed.
Lemma js_ok lossy v e : c_mirrors v e -> paths_ok valid_utf8 e -> (Z.abs (ev_time e) <= 2 ^ 53)%Z -> js_mirrors (js_event lossy v) e.
Proof.
  intros (E1 & E2 & E3 & E4 & E5) [V1 V2] T. unfold js_mirrors, js_event; cbn. rewrite E1, E2, E3, E4, E5, key_effect, key_ptype, to_double_small by exact T.
  split; [reflexivity|]. split; [|split; [|now split]].
  - destruct V1 as (cs & S & Ep). exists cs. split; [now split|]. unfold js_str. now rewrite Ep, decode_utf8.
  - destruct (assoc_path e) as [p|] eqn:A; cbn; [|exact I]. destruct (V2 _ eq_refl) as (ds & S & Ep). exists ds. split; [now split|]. unfold js_str. now rewrite Ep, decode_utf8.
Qed.
(** The queue. *)
Lemma subseq_front {A} (a b c : list A) : subseq (a ++ b) c -> subseq a c.
Proof.
  remember (a ++ b) as l eqn:E. intros H. revert a b E. induction H as [|x l m H IH|x l m H IH]; intros a b E.
  - symmetry in E. apply app_eq_nil in E as [-> _]. apply Sub_nil.
  - destruct a as [|y a]; cbn in E.
    + clear. induction (x :: m); [apply Sub_nil|now apply Sub_skip].
    + injection E as <- E. apply Sub_take. eapply IH. exact E.
  - apply Sub_skip. eapply IH. exact E.
Qed.
Lemma jreach_trans {A} (s t u : jstate A) : jreach s t -> jreach t u -> jreach s u.
Proof. intros H K. revert H. induction K as [t|t u v K IH S]; intros H; [exact H|]. eapply JR1; [now apply IH|exact S]. Qed.
Lemma drains {A} (q : list A) : forall p m c k, p <> JClosing -> exists c', jreach (J p q m c k) (J p [] m c' k).
Proof.
  induction q as [|e q IH]; intros p m c k Hp; [exists c; apply JR0|].
  destruct (IH p m (c ++ [(p, e)]) k Hp) as (c' & R). exists c'. eapply jreach_trans; [|exact R].
  eapply JR1; [apply JR0|]. now apply J_call.
Qed.
Lemma jfill {A} (e : A) n : forall p q m c k, p <> JClosed -> exists (q' m' k' : list A), jreach (J p q m c k) (J p q' m' c k') /\ (length q' >= Nat.min queue_size n)%nat.
Proof.
  induction n as [|n IH]; intros p q m c k Hp.
  - exists q, m, k. split; [apply JR0|]. rewrite Nat.min_0_r. lia.
  - destruct (IH p q m c k Hp) as (q' & m' & k' & R & L). destruct (Nat.lt_ge_cases (length q') queue_size) as [H|H].
    + exists (q' ++ [e]), (m' ++ [e]), k'. split; [eapply JR1; [exact R|now apply J_made]|]. rewrite app_length; cbn [length]. lia.
    + exists q', m', k'. split; [exact R|]. lia.
Qed.
Lemma jlose {A} (e : A) p q m c k : p <> JClosed -> exists (q' m' k' : list A), jreach (J p q m c k) (J p q' m' c k') /\ k' <> [].
Proof.
  intros Hp. destruct (jfill e queue_size p q m c k Hp) as (q' & m' & k' & R & L). rewrite Nat.min_id in L.
  exists q', (m' ++ [e]), (k' ++ [e]). split; [eapply JR1; [exact R|now apply J_full]|]. destruct k'; discriminate.
Qed.
Lemma leaked_grows {A} (s t : jstate A) : jreach s t -> (length (j_leaked s) <= length (j_leaked t))%nat.
Proof. induction 1 as [s|s t u H IH S]; [lia|]. inversion S; subst; cbn in *; rewrite ?app_length; lia. Qed.
Lemma lost_forever {A} (s t : jstate A) : jreach jstart s -> j_leaked s <> [] -> jreach s t -> (length (j_called t) < length (j_made t))%nat.
Proof.
  intros R K R'. pose proof (leaked_grows _ _ R') as G. pose proof (ji_count _ (jinv_reach t (jreach_trans _ _ _ R R'))) as C.
  destruct (j_leaked s) as [|x l]; [contradiction|]. cbn in G. lia.
Qed.
(** The path given. *)
Lemma fit_ok cs : forall room, (length (utf8 cs) <= room)%nat -> fit room cs = utf8 cs.
Proof.
  induction cs as [|c cs IH]; intros room H; [reflexivity|]. unfold utf8 in *. cbn [flat_map fit] in *. rewrite app_length in H.
  destruct (Nat.leb_spec (length (utf8_char c)) room); [|lia]. now rewrite IH by lia.
Qed.
Lemma fit_len cs : forall room, (length (fit room cs) <= room)%nat.
Proof.
  induction cs as [|c cs IH]; intros room; cbn [fit]; [cbn; lia|]. destruct (Nat.leb_spec (length (utf8_char c)) room); [|cbn; lia].
  rewrite app_length. specialize (IH (room - length (utf8_char c))%nat). lia.
Qed.
Lemma c_str_len t : (length (c_str t) <= length t)%nat.
Proof. induction t as [|c t IH]; [cbn; lia|]. cbn. destruct (c =? 0)%N; cbn; lia. Qed.
Lemma existsb_nul cs : existsb (N.eqb 0) cs = true <-> In 0%N cs.
Proof. rewrite existsb_exists. split; [intros (x & H & E); apply N.eqb_eq in E; now subst|intros H; exists 0%N; now split]. Qed.
Lemma forallb_scalar cs : forallb is_scalar cs = true <-> Forall scalar cs.
Proof.
  rewrite forallb_forall, Forall_forall. split; intros H c Hc; specialize (H c Hc); unfold is_scalar, between, scalar in *; lia.
Qed.
(** Python's JSON. *)
Lemma value_int n z : has_value (S n) (chars_of_Z z) (JNum z).
Proof.
  intros r Hr. unfold chars_of_Z. destruct (Z.ltb_spec z 0) as [Hz|Hz].
  - destruct (chars_of_N_decimal (Z.to_N (- z))) as (H1 & H2 & H3 & H4).
    destruct (chars_of_N (Z.to_N (- z))) as [|d ds] eqn:E; [contradiction|].
    assert (Hd : is_digit d = true) by (cbn in H2; apply andb_prop in H2; tauto).
    assert (Hne : d <> 48%N). { intros ->. specialize (H4 eq_refl). rewrite H4 in H3. change (dec_value [48%N]) with 0%N in H3. lia. }
    assert (Hint : read_int ((45%N :: d :: ds) ++ r) = Some (z, r)).
    { unfold read_int. cbn [app N.eqb Pos.eqb tl]. change (d :: ds ++ r) with ((d :: ds) ++ r). rewrite read_digits_app by assumption.
      destruct (N.eqb_spec d 48); [contradiction|]. cbn [andb]. rewrite H3. do 2 f_equal. lia. }
    cbn [app] in *. cbn [read_value skip_ws]. change (is_ws 45) with false. cbn [N.eqb Pos.eqb]. rewrite Hint. reflexivity.
  - destruct (chars_of_N_decimal (Z.to_N z)) as (H1 & H2 & H3 & H4).
    destruct (chars_of_N (Z.to_N z)) as [|d ds] eqn:E; [contradiction|].
    assert (Hd : is_digit d = true) by (cbn in H2; apply andb_prop in H2; tauto).
    assert (Hrange : (48 <= d <= 57)%N) by (unfold is_digit in Hd; lia).
    assert (Hint : read_int ((d :: ds) ++ r) = Some (z, r)).
    { unfold read_int. cbn [app]. destruct (N.eqb_spec d 45); [lia|].
      change (d :: ds ++ r) with ((d :: ds) ++ r). rewrite read_digits_app by assumption.
      destruct (N.eqb_spec d 48) as [E48|]; cbn [andb].
      - pose proof (H4 E48) as K. injection K as -> ->. cbn [length Nat.eqb negb]. rewrite H3. do 2 f_equal. lia.
      - rewrite H3. do 2 f_equal. lia. }
    cbn [app] in *. cbn [read_value skip_ws].
    replace (is_ws d) with false by (unfold is_ws; lia).
    destruct (N.eqb_spec d 123); [lia|]. destruct (N.eqb_spec d 91); [lia|].
    destruct (N.eqb_spec d 34); [lia|]. destruct (N.eqb_spec d 110); [lia|].
    destruct (N.eqb_spec d 116); [lia|]. destruct (N.eqb_spec d 102); [lia|].
    rewrite Hint. reflexivity.
Qed.
Lemma py_json_reads b : plain (b_path b) = true -> (forall a, b_assoc b = Some a -> plain a = true /\ a <> []) ->
  read_json (py_json b) = Some (py_event_as_json b).
Proof.
  intros Hp Ha. apply (read_json_of 8).
  - unfold py_json, py_event_as_json. rewrite <- effect_name_doc, <- ptype_name_doc.
    change (lit "{""effect_time"":") with (lit "{" ++ quoted (lit "effect_time") ++ lit ":").
    change (lit ",""path_name"":") with (lit "," ++ quoted (lit "path_name") ++ lit ":").
    change (lit ",""associated_path_name"":") with (lit "," ++ quoted (lit "associated_path_name") ++ lit ":").
    change (lit ",""effect_type"":") with (lit "," ++ quoted (lit "effect_type") ++ lit ":").
    change (lit ",""path_type"":") with (lit "," ++ quoted (lit "path_type") ++ lit ":").
    rewrite <- !app_assoc. apply value_obj.
    apply members_cons; [reflexivity|apply value_int|].
    apply members_cons; [reflexivity|now apply value_str|].
    apply members_cons; [reflexivity| |].
    { destruct (b_assoc b) as [[|c a]|]; [now destruct (Ha _ eq_refl)|apply value_str; now apply Ha|apply value_null]. }
    apply members_cons; [reflexivity|apply value_str, lit_plain_effect|].
    apply members_last; [reflexivity|apply value_str, lit_plain_ptype].
  - unfold py_json. rewrite app_length. change (length (lit "{""effect_time"":")) with 15%nat. lia.
Qed.

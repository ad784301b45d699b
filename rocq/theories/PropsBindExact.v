(** Theorems C121: exactly which events each binding shows as they are.  Statements use
    BindModel (the code) and BindSpec, Utf8Spec (the meaning). *)
From Verif Require Import Base EventModel EventSpec Utf8Spec BindModel BindSpec BindFacts.

Lemma c_str_nul t : c_str t = t <-> no_nul t.
Proof. split; [intros <-; apply c_str_no_nul|apply c_str_id]. Qed.
Lemma c_str_utf8 cs : c_str (utf8 cs) = utf8 (c_str cs).
Proof.
  induction cs as [|c cs IH]; [reflexivity|]. cbn [utf8 flat_map c_str]. fold (utf8 cs). destruct (N.eqb_spec c 0) as [-> |H]; [reflexivity|].
  cbn [utf8 flat_map]. fold (utf8 (c_str cs)). rewrite <- IH. assert (K : ~ In 0%N (utf8_char c)) by (intros K; now apply utf8_char_nul in K).
  induction (utf8_char c) as [|x l IHl]; [reflexivity|]. cbn. destruct (N.eqb_spec x 0) as [-> |]; [exfalso; apply K; now left|]. f_equal. apply IHl. intros X. apply K. now right.
Qed.
(** What was decoded from the text up to a NUL is the whole only without a NUL. *)
Lemma cut_exact p cs : is_utf8 p cs -> decode (c_str p) = Some (c_str cs).
Proof.
  intros [S ->]. rewrite c_str_utf8. apply decode_utf8. apply Forall_forall. intros x Hx. rewrite Forall_forall in S. apply S.
  destruct (c_str_prefix cs) as (r & ->). apply in_or_app. now left.
Qed.
Lemma utf8_no_nul p cs : is_utf8 p cs -> c_str cs = cs -> no_nul p.
Proof. intros [_ ->] H. apply utf8_nul. now apply c_str_nul. Qed.
Lemma utf8_unique p cs ds : is_utf8 p cs -> is_utf8 p ds -> cs = ds.
Proof. intros [S ->] [S' E]. apply decode_utf8 in S, S'. rewrite E in S. congruence. Qed.
Lemma cut_utf16 cs : utf16 (c_str cs) = utf16 cs -> c_str cs = cs.
Proof.
  intros H. induction cs as [|c cs IH]; [reflexivity|]. cbn in *. destruct (c =? 0)%N eqn:E.
  - exfalso. cbn in H. unfold utf16_char in H. apply N.eqb_eq in E as ->. discriminate H.
  - f_equal. apply IH. cbn in H. now apply app_inv_head in H.
Qed.
Lemma rust_text p : is_utf8 p (rust_str (c_str p)) <-> no_nul p /\ valid_utf8 p.
Proof.
  split.
  - intros H. split; [|eexists; exact H]. pose proof (cut_exact _ _ H) as K. unfold rust_str in K at 1.
    assert (E : rust_str (c_str p) = c_str (rust_str (c_str p))). { unfold rust_str at 1. now rewrite K. }
    eapply utf8_no_nul; [exact H|now symmetry].
  - intros [H V]. rewrite c_str_id by exact H. now apply rust_decode.
Qed.
Lemma double_exact z : to_double z = z <-> fits_double z.
Proof.
  split.
  - intros H. unfold to_double in H. set (a := Z.abs z) in *. set (e := Z.max 0 (Z.log2 a - 52)) in *. cbn zeta in H. set (u := (2 ^ e)%Z) in *.
    assert (Hu : (0 < u)%Z) by (apply Z.pow_pos_nonneg; lia). pose proof (Z.mod_pos_bound a u Hu) as Hr. pose proof (Z.div_mod a u ltac:(lia)) as Hd.
    set (q := (a / u)%Z) in *. set (r := (a mod u)%Z) in *.
    assert (Ha : (a < 2 ^ 53 * u)%Z).
    { destruct (Z.le_gt_cases a 0); [lia|]. pose proof (Z.log2_spec a ltac:(lia)) as [_ L]. eapply Z.lt_le_trans; [exact L|]. unfold u.
      rewrite <- Z.pow_add_r by lia. apply Z.pow_le_mono_r; lia. }
    assert (Hq : (q < 2 ^ 53)%Z) by nia. assert (Hq0 : (0 <= q)%Z) by (unfold q, a; apply Z.div_pos; lia).
    set (q' := if (2 * r <? u)%Z then q else if (u <? 2 * r)%Z then (q + 1)%Z else if Z.even q then q else (q + 1)%Z) in *.
    assert (Hq' : (0 <= q' <= 2 ^ 53)%Z) by (unfold q'; destruct (2 * r <? u)%Z; [lia|]; destruct (u <? 2 * r)%Z; [lia|]; destruct (Z.even q); lia).
    exists (Z.sgn z * q')%Z, e. split; [lia|]. split; [|fold u; lia]. clearbody q' u. destruct (Z.sgn_spec z) as [[_ ->]|[[_ ->]|[_ ->]]]; lia.
  - intros (m & k & Hk & Hm & E). destruct (Z.le_gt_cases (Z.abs z) (2 ^ 53)) as [H|H]; [now apply to_double_small|].
    unfold to_double. set (a := Z.abs z) in *. set (e := Z.max 0 (Z.log2 a - 52)) in *. cbn zeta. set (u := (2 ^ e)%Z) in *.
    assert (Ea : a = (Z.abs m * 2 ^ k)%Z). { unfold a. rewrite E, Z.abs_mul. f_equal. apply Z.abs_eq. apply Z.pow_nonneg; lia. }
    assert (Hm0 : (0 < Z.abs m)%Z). { destruct (Z.eq_dec m 0) as [-> |]; [|lia]. cbn in Ea. lia. }
    assert (D : (u | a)%Z).
    { destruct (Z.eq_dec (Z.abs m) (2 ^ 53)) as [Em|Em].
      - rewrite Ea, Em, <- Z.pow_add_r by lia. assert (e = (k + 1)%Z). { unfold e. rewrite Ea, Em, <- Z.pow_add_r, Z.log2_pow2 by lia. lia. }
        unfold u. exists (2 ^ 52)%Z. rewrite <- Z.pow_add_r by lia. f_equal. lia.
      - assert (e <= k)%Z. { unfold e. rewrite Ea, Z.log2_mul_pow2 by lia. assert (Z.log2 (Z.abs m) < 53)%Z by (apply Z.log2_lt_pow2; lia). lia. }
        rewrite Ea. apply Z.divide_mul_r. unfold u. exists (2 ^ (k - e))%Z. rewrite <- Z.pow_add_r by lia. f_equal. lia. }
    assert (Hu : (0 < u)%Z) by (apply Z.pow_pos_nonneg; lia). destruct D as (q & D).
    replace (a mod u)%Z with 0%Z by (rewrite D; symmetry; apply Z.mod_mul; lia). replace (2 * 0 <? u)%Z with true by lia.
    replace (a / u)%Z with q by (rewrite D; symmetry; apply Z.div_mul; lia). rewrite <- D. unfold a. lia.
Qed.

(** C, other than on Windows. *)
Theorem C121_c_view_exact_when : forall e, c_mirrors (view_of e) e <-> paths_ok no_nul e.
Proof.
  intros e. split; [|apply view_mirrors]. intros (_ & E2 & E3 & _). cbn in E2, E3. split; [now apply c_str_nul|].
  intros p Hp. unfold assoc_path in *. destruct (ev_assoc e) as [a|]; [|discriminate Hp]. injection Hp as <-. injection E3 as E3. now apply c_str_nul.
Qed.
Print Assumptions C121_c_view_exact_when.

(** C on Windows, with a conversion that is right whenever there is room. *)
Theorem C121_c_view_on_windows_exact_when : forall wide e, faithful wide ->
  ((exists v, view_of_win wide e = Ok (Some v) /\ c_mirrors_win v e) <->
   paths_ok (fun us => exists cs, is_utf16 us cs /\ ~ In 0%N cs /\ (N.of_nat (length (utf8 cs)) < 4095)%N) e).
Proof.
  intros wide e F. split; [|apply win_ok, F]. intros (v & H & M).
  assert (Text : forall us p, utf16_to_utf8 wide us = Ok (Some p) -> win_text p us -> exists cs, is_utf16 us cs /\ ~ In 0%N cs /\ (N.of_nat (length (utf8 cs)) < 4095)%N).
  { intros us p W (cs & [S8 E8] & [S16 E16]). exists cs.
    assert (Z : ~ In 0%N cs).
    { intros K. apply utf8_nul_in in K. rewrite <- E8 in K. unfold utf16_to_utf8 in W.
      destruct (wide us path_buf_len) as [[|b bs]|]; [discriminate W| |discriminate W]. destruct (_ <? _)%N; [|discriminate W]. injection W as <-. exact (c_str_no_nul ((b :: bs) ++ [0%N]) K). }
    split; [now split|]. split; [exact Z|]. rewrite E16, wide_ok in W by assumption.
    destruct (N.ltb_spec (N.of_nat (length (utf8 cs))) 4095) as [L|L]; [exact L|]. destruct (_ =? _)%N; discriminate W. }
  destruct M as (_ & M1 & M2 & _). unfold view_of_win in H.
  destruct (utf16_to_utf8 wide (ev_path e)) as [[p|]| | |] eqn:W; try discriminate H. unfold assoc_path in *. unfold paths_ok, assoc_path.
  destruct (ev_assoc e) as [a|] eqn:A.
  - destruct (utf16_to_utf8 wide (ev_path a)) as [[q|]| | |] eqn:W'; try discriminate H. injection H as <-. cbn in M1, M2.
    split; [eapply Text; eauto|]. intros us Hus. injection Hus as <-. eapply Text; eauto.
  - injection H as <-. cbn in M1. split; [eapply Text; eauto|]. intros us Hus. discriminate Hus.
Qed.
Print Assumptions C121_c_view_on_windows_exact_when.

(** Rust. *)
Theorem C121_rust_event_exact_when : forall e, mirrors (rust_event (view_of e)) e <-> paths_ok no_nul e /\ paths_ok valid_utf8 e.
Proof.
  intros e. split; [|intros [N V]; apply rust_mirrors; [now apply view_mirrors|exact V]].
  intros (_ & M1 & M2 & _). cbn in M1, M2. apply rust_text in M1 as [N1 V1].
  assert (K : forall p, assoc_path e = Some p -> no_nul p /\ valid_utf8 p).
  { intros p Hp. unfold assoc_path in *. destruct (ev_assoc e) as [a|]; [|discriminate Hp]. injection Hp as <-. cbn in M2. now apply rust_text in M2. }
  split; (split; [assumption|]); intros p Hp; now apply K.
Qed.
Print Assumptions C121_rust_event_exact_when.

(** Python. *)
Theorem C121_python_event_exact_when : forall e,
  (exists b, py_event (view_of e) = Some b /\ mirrors b e) <-> paths_ok no_nul e /\ paths_ok valid_utf8 e /\ assoc_path e <> Some [].
Proof.
  intros e. split; [|intros (N & V & A); apply py_mirrors; [now apply view_mirrors|exact V|exact A]].
  intros (b & H & _ & M1 & M2 & _). unfold py_event, py_str in H. cbn [view_of v_path v_assoc] in H.
  destruct (decode (c_str (ev_path e))) as [cs|] eqn:D; [|discriminate H].
  assert (T : forall p ds, decode (c_str p) = Some ds -> is_utf8 p ds -> no_nul p /\ valid_utf8 p).
  { intros p ds Dp U. split; [|now exists ds]. pose proof (cut_exact _ _ U) as K. eapply utf8_no_nul; [exact U|]. congruence. }
  unfold assoc_path in *. destruct (ev_assoc e) as [a|] eqn:A.
  - destruct (decode (c_str (ev_path a))) as [ds|] eqn:Da; [|discriminate H]. destruct (py_effect _); [|discriminate H]. destruct (py_ptype _); [|discriminate H].
    injection H as <-. cbn [b_path b_assoc] in M1, M2. destruct ds as [|d ds]; [destruct M2|]. cbn [opt_rel] in M2.
    pose proof (T _ _ D M1) as [N1 V1]. pose proof (T _ _ Da M2) as [N2 V2]. unfold paths_ok, assoc_path. rewrite A.
    split; [split; [exact N1|intros p' Hp; injection Hp as <-; exact N2]|]. split; [split; [exact V1|intros p' Hp; injection Hp as <-; exact V2]|]. intros Hp. injection Hp as Hp. destruct M2 as [_ M2]. rewrite Hp in M2.
    cbn in M2. unfold utf8_char in M2. repeat match type of M2 with context [if ?c then _ else _] => destruct c end; discriminate M2.
  - destruct (py_effect _); [|discriminate H]. destruct (py_ptype _); [|discriminate H]. injection H as <-. cbn [b_path] in M1.
    pose proof (T _ _ D M1) as [N1 V1]. unfold paths_ok, assoc_path. rewrite A. split; [split; [exact N1|intros p' Hp; discriminate Hp]|]. split; [split; [exact V1|intros p' Hp; discriminate Hp]|]. discriminate.
Qed.
Print Assumptions C121_python_event_exact_when.

(** Node, whatever V8 makes of bytes that are not UTF-8. *)
Theorem C121_node_event_exact_when : forall lossy e,
  js_mirrors (js_event lossy (view_of e)) e <-> paths_ok no_nul e /\ paths_ok valid_utf8 e /\ fits_double (ev_time e).
Proof.
  intros lossy e. split.
  - intros (T & (cs & U & P) & A & _). cbn [js_event j_time j_path j_assoc view_of v_time v_path v_assoc] in *.
    assert (K : forall p cs, is_utf8 p cs -> js_str lossy (c_str p) = utf16 cs -> no_nul p /\ valid_utf8 p).
    { intros p ds Up E. split; [|now exists ds]. unfold js_str in E. rewrite (cut_exact _ _ Up) in E. eapply utf8_no_nul; [exact Up|]. now apply cut_utf16. }
    destruct (K _ _ U P) as [N1 V1].
    assert (K2 : forall p, assoc_path e = Some p -> no_nul p /\ valid_utf8 p).
    { intros p Hp. unfold assoc_path in *. destruct (ev_assoc e) as [a|]; [|discriminate Hp]. injection Hp as <-. cbn in A. destruct A as (ds & Ua & Ea). eapply K; eauto. }
    split; [split; [exact N1|]; intros p Hp; now apply K2|]. split; [split; [exact V1|]; intros p Hp; now apply K2|]. now apply double_exact.
  - intros (N & V & T). apply double_exact in T. destruct e as [p f t tm a].
    destruct (js_ok lossy (view_of (Ev p f t 0 a)) (Ev p f t 0 a)) as (_ & H2 & H3 & H4 & H5); [apply view_mirrors; exact N|exact V|cbn; lia|].
    split; [exact T|]. split; [exact H2|]. split; [exact H3|]. split; [exact H4|exact H5].
Qed.
Print Assumptions C121_node_event_exact_when.

(** A time of 2026 that a double holds, and one it does not; a path with a non-ASCII
    character. *)
Example C121_example :
  let e t := Ev [47; 0xC3; 0xA9]%N EtCreate PtFile t None in
  paths_ok no_nul (e 0%Z) /\ paths_ok valid_utf8 (e 0%Z) /\ fits_double 1790000000000000000 /\ ~ fits_double 1790000000000000001.
Proof.
  cbv zeta. split; [split; [unfold no_nul; cbn; intuition discriminate|intros p H; discriminate H]|].
  split; [split; [exists [47; 0xE9]%N; split; [repeat constructor; unfold scalar; lia|reflexivity]|intros p H; discriminate H]|].
  split; rewrite <- double_exact; [reflexivity|discriminate].
Qed.

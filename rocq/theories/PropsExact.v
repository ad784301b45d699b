(** Theorems C129 and C130: exactly which paths the bindings open a watcher on as they are
    given, and exactly which events can be made wide text.  Statements use BindModel,
    WideModel, EventModel (the code), BindSpec, Utf8Spec (the meaning). *)
From Verif Require Import Base EventModel EventSpec EventFacts Utf8Spec BindModel BindSpec BindFacts WideModel PropsBind PropsWide.

(** ** C129 *)
Lemma c_str_no_nul t : ~ In 0%N (c_str t).
Proof.
  induction t as [|c t IH]; [intros []|]. cbn [c_str]. destruct (N.eqb_spec c 0) as [->|H]; [intros []|]. intros [->|K]; [now apply H|now apply IH].
Qed.
Lemma nul_utf8 cs : In 0%N cs -> In 0%N (utf8 cs).
Proof. intros H. unfold utf8. apply in_flat_map. exists 0%N. split; [exact H|now left]. Qed.
Lemma nul_kept cs : c_str (utf8 cs) = utf8 cs -> ~ In 0%N cs.
Proof. intros E H. apply nul_utf8 in H. rewrite <- E in H. exact (c_str_no_nul _ H). Qed.
(** Rust: paths without NUL; others end the program. *)
Theorem C129_rust_opens_when :
  forall cs, Forall scalar cs -> (rust_open cs = Ok (utf8 cs) <-> ~ In 0%N cs) /\ (rust_open cs = Crash <-> In 0%N cs).
Proof.
  intros cs S. destruct (existsb (N.eqb 0) cs) eqn:E.
  - assert (Z : In 0%N cs) by now apply existsb_nul. unfold rust_open. rewrite E. split; split; auto; try contradiction. discriminate.
  - assert (Z : ~ In 0%N cs) by (intros Z; apply existsb_nul in Z; congruence). destruct (C58_path_is_passed_on_partial cs S Z) as (R & _). rewrite R.
    split; split; auto; try contradiction. discriminate.
Qed.
Print Assumptions C129_rust_opens_when.
(** Python: scalar values without NUL.  Strings with others raise an error; one with a NUL
    is opened as another path. *)
Theorem C129_python_opens_when :
  forall cs, (py_open cs = Some (utf8 cs) <-> Forall scalar cs /\ ~ In 0%N cs) /\ (py_open cs = None <-> ~ Forall scalar cs).
Proof.
  intros cs. destruct (forallb is_scalar cs) eqn:E.
  - assert (S : Forall scalar cs) by now apply forallb_scalar. unfold py_open. rewrite E. split; split; try discriminate.
    + intros [= H]. split; [exact S|now apply nul_kept].
    + intros [_ Z]. now rewrite c_str_id by now apply utf8_nul.
    + contradiction.
  - assert (S : ~ Forall scalar cs) by (intros S; apply forallb_scalar in S; congruence). unfold py_open. rewrite E. split; split; auto; try discriminate. now intros [S' _].
Qed.
Print Assumptions C129_python_opens_when.
(** Node: without NUL, at most 4095 bytes; another path is opened otherwise. *)
Theorem C129_node_opens_when :
  forall cs, Forall scalar cs -> (node_open cs = utf8 cs <-> ~ In 0%N cs /\ (N.of_nat (length (utf8 cs)) <= 4095)%N).
Proof.
  intros cs S. split.
  - intros E. assert (L : (N.of_nat (length (utf8 cs)) <= 4095)%N).
    { destruct (N.le_gt_cases (N.of_nat (length (utf8 cs))) 4095); [assumption|]. exfalso. now apply (C58_long_paths_in_node_refuted cs). }
    split; [|exact L]. intros Z. apply nul_utf8 in Z. rewrite <- E in Z. exact (c_str_no_nul _ Z).
  - intros [Z L]. now apply C58_path_is_passed_on_partial.
Qed.
Print Assumptions C129_node_opens_when.
(** Both sides: a path of 4095 bytes is opened, one of 4096 is not; a surrogate is refused. *)
Example C129_example :
  node_open (repeat 47%N 4095) = utf8 (repeat 47%N 4095) /\ node_open (repeat 47%N 4096) <> utf8 (repeat 47%N 4096) /\ py_open [47; 0xDFFF]%N = None /\
  rust_open [47; 0; 47]%N = Crash /\ py_open [47; 0; 47]%N = Some [47%N].
Proof.
  split; [vm_compute; reflexivity|]. split; [apply C58_long_paths_in_node_refuted; vm_compute; reflexivity|]. repeat split.
Qed.

(** ** C130 *)
(** Wide text can be made of an event exactly if its paths are UTF-8; then it is the
    narrow text's characters.  Otherwise the program ends. *)
Lemma path_ok_dec t : {valid_utf8 t} + {~ valid_utf8 t}.
Proof.
  destruct (decode t) as [cs|] eqn:E; [left|right; now apply decode_none].
  exists cs. apply (decode_sound (S (length t))); [lia|exact E].
Qed.
Theorem C130_wide_text_when :
  forall e,
    (paths_ok valid_utf8 e <-> exists w, json_by widen e = Ok w) /\
    (paths_ok valid_utf8 e <-> exists w, json_by widen e = Ok w /\ is_utf8 (event_json e) w) /\
    (~ paths_ok valid_utf8 e <-> json_by widen e = Crash).
Proof.
  intros e.
  assert (A : paths_ok valid_utf8 e -> exists w, json_by widen e = Ok w /\ is_utf8 (event_json e) w).
  { intros [V W]. destruct (C68_wide_agrees_with_narrow_partial e V) as (w & E & U & _); [|eauto].
    intros a Ea. apply W. unfold assoc_path. now rewrite Ea. }
  assert (B : ~ paths_ok valid_utf8 e -> json_by widen e = Crash).
  { intros H. refine (proj1 (proj1 C68_other_paths_end_the_program_refuted e [] _)).
    destruct (path_ok_dec (ev_path e)) as [V|V]; [|left; exact V]. right.
    destruct (ev_assoc e) as [a|] eqn:Ea; [|exfalso; apply H; split; [exact V|unfold assoc_path; rewrite Ea; discriminate]].
    exists a. split; [reflexivity|]. destruct (path_ok_dec (ev_path a)) as [W|W]; [|exact W]. exfalso. apply H. split; [exact V|].
    unfold assoc_path. rewrite Ea. intros p [= <-]. exact W. }
  assert (D : paths_ok valid_utf8 e \/ ~ paths_ok valid_utf8 e).
  { destruct (path_ok_dec (ev_path e)) as [V|V]; [|right; intros [V' _]; contradiction].
    destruct (ev_assoc e) as [a|] eqn:Ea.
    - destruct (path_ok_dec (ev_path a)) as [W|W]; [left|right]; unfold paths_ok, assoc_path; rewrite Ea.
      + split; [exact V|]. intros p [= <-]. exact W.
      + intros [_ W']. apply W. now apply W'.
    - left. unfold paths_ok, assoc_path. rewrite Ea. split; [exact V|discriminate]. }
  destruct D as [D|D].
  - destruct (A D) as (w & E & U). split; [split; eauto|]. split; [split; eauto|]. split; [contradiction|]. intros H. rewrite E in H. discriminate H.
  - pose proof (B D) as E. split; [|split]; (split; [auto; contradiction|]); auto; intros H; exfalso.
    + destruct H as (w & H). congruence.
    + destruct H as (w & H & _). congruence.
Qed.
Print Assumptions C130_wide_text_when.
Example C130_example :
  paths_ok valid_utf8 sample /\ ~ paths_ok valid_utf8 (Ev (lit "/d/a") EtRename PtFile 1 (Some (Ev [0x2F; 0xC3]%N EtRename PtFile 1 None))).
Proof.
  split; [exact sample_utf8|]. intros [_ H]. specialize (H _ eq_refl). revert H. apply decode_none. vm_compute. reflexivity.
Qed.

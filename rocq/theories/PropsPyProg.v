(** Theorems C139: the Python program, watcher-py/watcher/watcher.py:205-213.  Statements use
    PyProgModel, EventSpec (the JSON reader) and BindSpec. *)
From Verif Require Import Base EventModel EventSpec EventFacts Utf8Spec BindModel BindSpec BindFacts JsonExact PyProgModel PropsBind.

(** The JSON object for an event with these (decoded) paths. *)
Definition told_as (e : event) (p : list N) (a : option (list N)) : jv :=
  JObj [ (lit "effect_time", JNum (ev_time e)); (lit "path_name", JStr p);
         (lit "associated_path_name", match a with Some q => JStr q | None => JNull end);
         (lit "effect_type", JStr (lit (effect_doc (ev_effect e)))); (lit "path_type", JStr (lit (ptype_doc (ev_ptype e)))) ].
(** Paths that this program can tell: UTF-8 without quote, backslash, control character; an associated one is not empty. *)
Definition tellable (e : event) : Prop :=
  paths_ok (fun p => valid_utf8 p /\ plain p = true) e /\ assoc_path e <> Some [].

Lemma plain_nul p : plain p = true -> no_nul p.
Proof. intros H Hz. unfold plain in H. rewrite forallb_forall in H. apply H in Hz. discriminate. Qed.
Lemma char_plain c : scalar c -> plain (utf8_char c) = plain [c].
Proof.
  intros H. unfold utf8_char, cont. destruct (N.ltb_spec c 0x80); [reflexivity|].
  assert (P : plain [c] = true).
  { cbn. rewrite andb_true_r, !andb_true_iff, !negb_true_iff. repeat split; [apply N.leb_le|apply N.eqb_neq|apply N.eqb_neq]; lia. }
  assert (Q : forall b, (128 <= b)%N -> ((32 <=? b) && negb (b =? 34) && negb (b =? 92))%N = true).
  { intros b Hb. rewrite !andb_true_iff, !negb_true_iff. repeat split; [apply N.leb_le|apply N.eqb_neq|apply N.eqb_neq]; lia. }
  rewrite P. destruct (c <? 0x800)%N; [|destruct (c <? 0x10000)%N]; unfold plain; cbn [forallb]; rewrite !Q by lia; reflexivity.
Qed.
Lemma plain_app a b : plain (a ++ b) = plain a && plain b.
Proof. apply forallb_app. Qed.
Lemma utf8_plain cs : Forall scalar cs -> plain (utf8 cs) = plain cs.
Proof.
  induction 1 as [|c cs Hc _ IH]; [reflexivity|]. change (utf8 (c :: cs)) with (utf8_char c ++ utf8 cs). change (c :: cs) with ([c] ++ cs).
  now rewrite !plain_app, char_plain, IH.
Qed.
Lemma quoted_line t : plain t = true -> ~ In 10%N (quoted t).
Proof.
  intros P. unfold quoted. rewrite !in_app_iff. intros [H|[H|H]]; try (destruct H as [H|[]]; discriminate H).
  unfold plain in P. rewrite forallb_forall in P. apply P in H. discriminate.
Qed.
Lemma digits_line z : ~ In 10%N (chars_of_Z z).
Proof. intros H. pose proof (chars_range z 10%N H). lia. Qed.
Lemma py_json_line b : plain (b_path b) = true -> (forall a, b_assoc b = Some a -> plain a = true) -> ~ In 10%N (py_json b).
Proof.
  intros P Q. unfold py_json. cbv zeta. rewrite !in_app_iff.
  intros H. repeat match type of H with _ \/ _ => destruct H as [H|H] end; try (cbn in H; intuition discriminate); try (now apply digits_line in H).
  - now apply quoted_line in H.
  - destruct (b_assoc b) as [[|x l]|]; [cbn in H; intuition discriminate| |cbn in H; intuition discriminate]. now apply quoted_line in H; [|apply Q].
  - destruct (b_effect b); cbn in H; intuition discriminate.
  - destruct (b_ptype b); cbn in H; intuition discriminate.
Qed.

(** Whatever events come, if their paths can be told: the output is a sequence of lines, one
    for each event, in order; a JSON reader gets the event's fields from each. *)
Theorem C139_python_program_tells_partial :
  forall evs, Forall tellable evs ->
    exists lines, py_shown evs = flat_map (fun l => l ++ [10%N]) lines /\ (forall l, In l lines -> ~ In 10%N l) /\
      Forall2 (fun l e => exists p a, is_utf8 (ev_path e) p /\ opt_rel is_utf8 (assoc_path e) a /\ read_json l = Some (told_as e p a)) lines evs.
Proof.
  intros evs H. induction H as [|e evs He _ IH]; [exists []; repeat split; [intros ? []|constructor]|].
  destruct IH as (lines & E1 & E2 & E3). destruct He as [[[V P] A] Ne].
  assert (Nn : paths_ok no_nul e) by (split; [now apply plain_nul|intros q Hq; now apply plain_nul, A]).
  assert (Vv : paths_ok valid_utf8 e) by (split; [exact V|intros q Hq; now apply A]).
  destruct (C52_python_events_mirror_partial e Nn Vv Ne) as (b & Eb & M1 & M2 & M3 & M4 & M5).
  assert (P1 : plain (b_path b) = true).
  { destruct M2 as [S2 M2]. rewrite M2, utf8_plain in P by exact S2. exact P. }
  assert (P2 : forall a, b_assoc b = Some a -> plain a = true /\ a <> []).
  { intros a Ea. rewrite Ea in M3. destruct (assoc_path e) as [q|] eqn:Eq; [|contradiction M3]. destruct M3 as [S3 M3].
    destruct (A q eq_refl) as [_ Pq]. rewrite M3, utf8_plain in Pq by exact S3. split; [exact Pq|]. intros ->. apply Ne. now rewrite M3. }
  exists (py_json b :: lines). split; [|split].
  - unfold py_shown. cbn [flat_map]. rewrite Eb. unfold py_shown in E1. now rewrite E1.
  - intros l [<-|Hl]; [apply py_json_line; [exact P1|intros a Ea; now apply P2]|now apply E2].
  - constructor; [|exact E3]. exists (b_path b), (b_assoc b). split; [exact M2|]. split; [exact M3|].
    rewrite py_json_reads by (assumption || exact P2). unfold py_event_as_json, told_as. now rewrite M1, M4, M5.
Qed.
Print Assumptions C139_python_program_tells_partial.

(** Otherwise not.  A path that is not UTF-8: nothing is written.  A path with a newline: no
    line of the output is JSON. *)
Theorem C139_python_program_tells_refuted :
  (forall e, paths_ok no_nul e -> ~ paths_ok valid_utf8 e -> py_shown [e] = []) /\
  exists e l1 l2, py_shown [e] = l1 ++ [10%N] ++ l2 ++ [10%N] /\ ~ In 10%N l1 /\ ~ In 10%N l2 /\ read_json l1 = None /\ read_json l2 = None.
Proof.
  split.
  - intros e Nn V. unfold py_shown. cbn [flat_map]. now rewrite (C52_other_paths_refuted e Nn V).
  - exists (Ev (lit "/w/a" ++ [10%N] ++ lit "b") EtCreate PtFile 7 None). eexists (lit "{""effect_time"":7,""path_name"":""/w/a"), (lit "b"",""associated_path_name"":null,""effect_type"":""create"",""path_type"":""file""}").
    split; [vm_compute; reflexivity|]. split; [cbn; intuition discriminate|]. split; [cbn; intuition discriminate|]. split; vm_compute; reflexivity.
Qed.
Print Assumptions C139_python_program_tells_refuted.

(** The path watched: the one given, else the current directory; one that is not UTF-8 ends the program. *)
Theorem C139_python_program_path :
  py_main_path [] = Some (lit ".") /\ (forall prog : text, py_main_path [prog] = Some (lit ".")) /\
  forall (prog a : text) (rest : list text), no_nul a ->
    (valid_utf8 a -> py_main_path (prog :: a :: rest) = Some a) /\ (~ valid_utf8 a -> py_main_path (prog :: a :: rest) = None).
Proof.
  split; [reflexivity|]. split; [reflexivity|]. intros prog a rest Na. unfold py_main_path. split.
  - intros (cs & Hcs & ->). rewrite (decode_utf8 cs Hcs). unfold py_open. rewrite (proj2 (forallb_scalar cs) Hcs). now rewrite c_str_id.
  - intros H. apply decode_none in H. now rewrite H.
Qed.
Print Assumptions C139_python_program_path.

(** Two events, one with an accent and an associated path, and what is written. *)
Definition py_two : list event :=
  [Ev (lit "/w/" ++ [0xC3; 0xA9]%N) EtRename PtFile 7 (Some (Ev (lit "/w/b") EtRename PtFile 7 None)); Ev (lit "/w/d") EtDestroy PtDir (-8) None].
Example C139_example : Forall tellable py_two /\
  py_shown py_two = lit "{""effect_time"":7,""path_name"":""/w/" ++ [0xE9%N] ++ lit """,""associated_path_name"":""/w/b"",""effect_type"":""rename"",""path_type"":""file""}" ++ [10%N] ++
    lit "{""effect_time"":-8,""path_name"":""/w/d"",""associated_path_name"":null,""effect_type"":""destroy"",""path_type"":""dir""}" ++ [10%N] /\
  py_main_path [lit "watcher.py"; lit "/w"] = Some (lit "/w").
Proof.
  split; [|split; vm_compute; reflexivity].
  assert (V : forall t cs, decode t = Some cs -> valid_utf8 t) by (intros t cs H; exists cs; exact (decode_sound (length t) t cs (le_n _) H)).
  constructor; [|constructor; [|constructor]].
  - split; [|discriminate]. split; [split; [eapply V; vm_compute; reflexivity|reflexivity]|]. intros q Hq. cbn in Hq. injection Hq as <-. split; [eapply V; vm_compute; reflexivity|reflexivity].
  - split; [|discriminate]. split; [split; [eapply V; vm_compute; reflexivity|reflexivity]|]. intros q Hq. discriminate Hq.
Qed.

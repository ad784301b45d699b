(** Theorems C128: the Rust command line program.  Statements use RustProgModel, BindLife,
    BindModel (the code), EventSpec (the JSON reader), BindSpec (what a reader should get). *)
From Verif Require Import Base EventModel EventSpec EventFacts Utf8Spec SemabinModel WatchModel WatchSpec BindModel BindSpec BindFacts BindLife RustProgModel JsonExact PropsLife.

(** Strings are read back, whatever is in them. *)
Lemma hex_back n : (n < 16)%N -> hex (hex_digit n) = Some n.
Proof.
  intros H. unfold hex_digit, hex. destruct (N.ltb_spec n 10).
  - replace ((48 <=? 48 + n)%N && (48 + n <=? 57)%N) with true by lia. f_equal. lia.
  - replace ((48 <=? 87 + n)%N && (87 + n <=? 57)%N) with false by lia.
    replace ((65 <=? 87 + n)%N && (87 + n <=? 70)%N) with false by lia.
    replace ((97 <=? 87 + n)%N && (87 + n <=? 102)%N) with true by lia. f_equal. lia.
Qed.
Lemma read_serde s r : read_string (flat_map serde_char s ++ 34%N :: r) = Some (s, r).
Proof.
  induction s as [|c s IH]; [reflexivity|]. cbn [flat_map]. rewrite <- app_assoc. unfold serde_char at 1.
  destruct (N.eqb_spec c 34) as [->|H1]; [cbn; now rewrite IH|].
  destruct (N.eqb_spec c 92) as [->|H2]; [cbn; now rewrite IH|].
  destruct (N.eqb_spec c 8) as [->|]; [cbn; now rewrite IH|].
  destruct (N.eqb_spec c 9) as [->|]; [cbn; now rewrite IH|].
  destruct (N.eqb_spec c 10) as [->|]; [cbn; now rewrite IH|].
  destruct (N.eqb_spec c 12) as [->|]; [cbn; now rewrite IH|].
  destruct (N.eqb_spec c 13) as [->|]; [cbn; now rewrite IH|].
  destruct (N.ltb_spec c 32).
  - assert (Hd : (c / 16 < 16)%N) by (apply N.div_lt_upper_bound; lia).
    assert (Hm : (c mod 16 < 16)%N) by (apply N.mod_lt; lia).
    cbn [app read_string]. cbn [N.eqb Pos.eqb]. change (hex 48) with (Some 0%N).
    rewrite (hex_back _ Hd), (hex_back _ Hm), IH. do 3 f_equal. pose proof (N.div_mod c 16 ltac:(lia)). lia.
  - cbn [app read_string]. destruct (N.eqb_spec c 34); [contradiction|]. destruct (N.eqb_spec c 92); [contradiction|].
    destruct (N.ltb_spec c 32); [lia|]. now rewrite IH.
Qed.
Lemma value_serde n s : has_value (S n) (serde_str s) (JStr s).
Proof.
  intros r _. unfold serde_str. rewrite quoted_eq. cbn [read_value skip_ws is_ws N.eqb Pos.eqb orb].
  rewrite read_serde. reflexivity.
Qed.
Lemma serde_plain s : plain s = true -> serde_str s = quoted s.
Proof.
  intros H. unfold serde_str. f_equal. induction s as [|c s IH]; [reflexivity|]. cbn [plain forallb] in H. apply andb_prop in H as [H1 H2].
  cbn [flat_map]. rewrite IH by exact H2. unfold serde_char.
  destruct (N.eqb_spec c 34); [lia|]. destruct (N.eqb_spec c 92); [lia|]. destruct (N.eqb_spec c 8); [lia|]. destruct (N.eqb_spec c 9); [lia|].
  destruct (N.eqb_spec c 10); [lia|]. destruct (N.eqb_spec c 12); [lia|]. destruct (N.eqb_spec c 13); [lia|]. destruct (N.ltb_spec c 32); [lia|]. reflexivity.
Qed.
Lemma rust_json_reads b : read_json (rust_json b) = Some (py_event_as_json b).
Proof.
  apply (read_json_of 8).
  - unfold rust_json, py_event_as_json.
    rewrite (serde_plain (lit "effect_time")), (serde_plain (lit "path_name")), (serde_plain (lit "associated_path_name")), (serde_plain (lit "effect_type")), (serde_plain (lit "path_type")) by reflexivity.
    apply value_obj.
    apply members_cons; [reflexivity|apply value_int|].
    apply members_cons; [reflexivity|apply value_serde|].
    apply members_cons; [reflexivity|destruct (b_assoc b); [apply value_serde|apply value_null]|].
    apply members_cons; [reflexivity|destruct (b_effect b); apply value_serde|].
    apply members_last; [reflexivity|destruct (b_ptype b); apply value_serde].
  - unfold rust_json. rewrite !app_length. change (length (serde_str (lit "effect_time"))) with 13%nat. lia.
Qed.
(** No newline in a line. *)
Lemma serde_line s : ~ In 10%N (serde_str s).
Proof.
  unfold serde_str, quoted. rewrite !in_app_iff. intros [H|[H|H]]; [destruct H as [H|[]]; discriminate| |destruct H as [H|[]]; discriminate].
  apply in_flat_map in H as (c & _ & H). unfold serde_char in H.
  destruct (N.eqb_spec c 34); [cbn in H; intuition discriminate|]. destruct (N.eqb_spec c 92); [cbn in H; intuition discriminate|].
  destruct (N.eqb_spec c 8); [cbn in H; intuition discriminate|]. destruct (N.eqb_spec c 9); [cbn in H; intuition discriminate|].
  destruct (N.eqb_spec c 10); [cbn in H; intuition discriminate|]. destruct (N.eqb_spec c 12); [cbn in H; intuition discriminate|].
  destruct (N.eqb_spec c 13); [cbn in H; intuition discriminate|].
  destruct (c <? 32)%N; cbn [In] in H; [|destruct H as [H|[]]; congruence].
  assert (K : forall k, hex_digit k <> 10%N) by (intros k; unfold hex_digit; destruct (k <? 10)%N; lia).
  pose proof (K (c / 16)%N). pose proof (K (c mod 16)%N). intuition (try discriminate; congruence).
Qed.
Lemma digits_line z : ~ In 10%N (chars_of_Z z).
Proof. intros H. pose proof (chars_range z 10%N H). lia. Qed.
Lemma json_line b : ~ In 10%N (rust_json b).
Proof.
  unfold rust_json. rewrite !in_app_iff.
  intros H. repeat match type of H with _ \/ _ => destruct H as [H|H] end; try (cbn in H; intuition discriminate); try (now apply serde_line in H); try (now apply digits_line in H).
  - destruct (b_assoc b); [now apply serde_line in H|cbn in H; intuition discriminate].
  - destruct (b_effect b); now apply serde_line in H.
  - destruct (b_ptype b); now apply serde_line in H.
Qed.

(** However the program's polls fall among what the watcher does, its output is a sequence
    of lines.  A JSON reader gets from them, in order, the fields of the events the
    watcher sent (as C50 says they reach Rust), each once, up to those that still wait.
    Nothing is asked of the paths. *)
Theorem C128_rust_program_lines_can_be_read :
  forall ms answers left, rust_stream [] ms = (answers, left) ->
    exists lines, rust_shown answers = flat_map (fun l => l ++ [10%N]) lines /\ (forall l, In l lines -> ~ In 10%N l) /\
      map read_json lines ++ map (fun b => Some (py_event_as_json b)) left
      = map (fun e => Some (py_event_as_json (rust_event (view_of e)))) (received (logged ms)).
Proof.
  intros ms answers left H. exists (map rust_json (items answers)). split; [|split].
  - unfold rust_shown, items. clear H. induction answers as [|[b| |] l IH]; cbn [flat_map map app]; auto. now rewrite IH.
  - intros l Hl. apply in_map_iff in Hl as (b & <- & _). apply json_line.
  - rewrite map_map. rewrite (map_ext _ (fun b => Some (py_event_as_json b))) by (intros b; apply rust_json_reads).
    rewrite <- map_app, (C70_stream_gives_every_event_once ms answers left H), map_map. reflexivity.
Qed.
Print Assumptions C128_rust_program_lines_can_be_read.
(** With UTF-8 paths: the very fields of each event. *)
Theorem C128_rust_program_tells_the_event :
  forall e, paths_ok no_nul e -> paths_ok valid_utf8 e ->
    exists p a, is_utf8 (ev_path e) p /\ opt_rel is_utf8 (assoc_path e) a /\
      read_json (rust_json (rust_event (view_of e))) =
        Some (JObj [ (lit "effect_time", JNum (ev_time e)); (lit "path_name", JStr p);
                     (lit "associated_path_name", match a with Some q => JStr q | None => JNull end);
                     (lit "effect_type", JStr (lit (effect_doc (ev_effect e)))); (lit "path_type", JStr (lit (ptype_doc (ev_ptype e)))) ]).
Proof.
  intros e N V. destruct (rust_mirrors (view_of e) e (view_mirrors e N) V) as (M1 & M2 & M3 & M4 & M5).
  exists (b_path (rust_event (view_of e))), (b_assoc (rust_event (view_of e))). split; [exact M2|]. split; [exact M3|].
  rewrite rust_json_reads. unfold py_event_as_json. now rewrite M1, M4, M5.
Qed.
Print Assumptions C128_rust_program_tells_the_event.
(** The path: the one given, else the current directory; a first argument that is not
    UTF-8 ends the program. *)
Theorem C128_rust_program_path :
  rust_main_path [] = Ok (lit ".") /\
  forall prog, valid_utf8 prog ->
    rust_main_path [prog] = Ok (lit ".") /\
    forall a rest, no_nul a ->
      (valid_utf8 a -> rust_main_path (prog :: a :: rest) = Ok a) /\ (~ valid_utf8 a -> rust_main_path (prog :: a :: rest) = Crash).
Proof.
  split; [reflexivity|]. intros prog (ps & Hps). destruct Hps as [Hps ->]. unfold rust_main_path. rewrite (decode_utf8 ps Hps). split; [reflexivity|]. intros a rest Na. split.
  - intros (cs & Hcs). destruct Hcs as [Hcs ->]. rewrite (decode_utf8 cs Hcs). unfold rust_open.
    assert (Z : ~ In 0%N cs). { intros H. apply Na. unfold utf8. apply in_flat_map. exists 0%N. split; [exact H|now left]. }
    destruct (existsb (N.eqb 0) cs) eqn:E; [apply existsb_nul in E; contradiction|]. rewrite c_str_id by exact Na. reflexivity.
  - intros H. apply decode_none in H. now rewrite H.
Qed.
Print Assumptions C128_rust_program_path.
(** A path with a quote, a backslash and a newline, which the other programs' JSON cannot hold (C120). *)
Example C128_example :
  let e := Ev (lit "/w/a""b\" ++ [10%N; 0xC3%N; 0xA9%N; 1%N]) EtRename PtSymLink (-7) (Some (Ev (lit "/w/c") EtRename PtSymLink (-7) None)) in
  paths_ok no_nul e /\ paths_ok valid_utf8 e /\
  rust_json (rust_event (view_of e)) =
    lit "{""effect_time"":-7,""path_name"":""/w/a\""b\\\n" ++ [0xE9%N] ++ lit "\u0001"",""associated_path_name"":""/w/c"",""effect_type"":""rename"",""path_type"":""sym_link""}" /\
  rust_main_path [lit "wtr-watcher"; lit "/w"] = Ok (lit "/w").
Proof.
  cbv zeta. split; [|split; [|split; [vm_compute; reflexivity|vm_compute; reflexivity]]].
  - split; [unfold no_nul; cbn; intuition discriminate|]. intros p H. cbn in H. injection H as <-. unfold no_nul. cbn. intuition discriminate.
  - split.
    + eexists. apply (decode_sound 100); [cbn; lia|vm_compute; reflexivity].
    + intros p H. cbn in H. injection H as <-. eexists. apply (decode_sound 100); [cbn; lia|vm_compute; reflexivity].
Qed.

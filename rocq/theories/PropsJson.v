(** Theorems C120: exactly which events are told faithfully in JSON, in the three places
    where the code writes it.  Statements use EventModel, BindModel (the code), EventSpec,
    JsonSpec, BindSpec (the meaning). *)
From Verif Require Import Base EventModel EventSpec EventFacts JsonSpec JsonExact BindModel BindSpec BindFacts.

(** The text an event streams: one level of association.  A reader gets time and fields
    back if and only if both paths are plain and the time has nineteen characters. *)
Theorem C120_event_json_faithful_when :
  forall e, in64 (ev_time e) ->
    ((exists key, is_decimal key (ev_time e) /\
        read_json (lit "{" ++ event_json e ++ lit "}") = Some (JObj [(key, JObj (event_as_json e))])) <->
     plain (ev_path e) = true /\ (forall a, ev_assoc e = Some a -> plain (ev_path a) = true) /\ nineteen (ev_time e)).
Proof.
  intros e H6. split.
  - intros (key & D & H). destruct (event_json_back e key H6 H D) as (P & Q & T). split; [exact P|]. split; [exact Q|]. now apply nineteen_exact.
  - intros (P & Q & T). apply nineteen_exact in T; [|exact H6]. exists (num_to_str (ev_time e)). split; [exact T|]. now apply event_json_exact.
Qed.
Print Assumptions C120_event_json_faithful_when.

(** The command line's: every level. *)
Theorem C120_cli_json_faithful_when :
  forall e, every (fun x => in64 (ev_time x)) e ->
    (read_json (cli_json e) = Some (event_as_cli_json e) <-> every (fun x => plain (ev_path x) = true /\ nineteen (ev_time x)) e).
Proof.
  intros e H6. split.
  - intros H. apply json_value in H as (n & r & H). rewrite <- (app_nil_r (cli_json e)) in H. exact (cli_back_all e H6 _ _ _ H).
  - intros H. destruct (cli_forth e H6 H) as (n & Hn & V). exact (read_json_of n _ _ V Hn).
Qed.
Print Assumptions C120_cli_json_faithful_when.

(** Python's: any time. *)
Theorem C120_python_json_faithful_when :
  forall b, read_json (py_json b) = Some (py_event_as_json b) <->
    plain (b_path b) = true /\ (forall a, b_assoc b = Some a -> plain a = true /\ a <> []).
Proof. intros b. split; [apply py_json_back|]. intros [P Q]. now apply py_json_reads. Qed.
Print Assumptions C120_python_json_faithful_when.

(** Both sides occur: a rename with plain paths; and a path whose backslashes come in
    pairs, which is still read, but as another path. *)
Example C120_example :
  let good := Ev (lit "/w/a") EtRename PtFile 1700000000000000000 (Some (Ev (lit "/w/b") EtRename PtFile (-123456789012345678) None)) in
  let bad := Ev (lit "/w/a\\b") EtCreate PtFile 1700000000000000000 None in
  every (fun x => in64 (ev_time x)) good /\ read_json (cli_json good) = Some (event_as_cli_json good) /\
  read_json (cli_json bad) = Some (event_as_cli_json (Ev (lit "/w/a\b") EtCreate PtFile 1700000000000000000 None)) /\
  read_json (cli_json bad) <> Some (event_as_cli_json bad).
Proof.
  cbv zeta. split; [cbn; unfold in64; repeat split; lia|]. split; [vm_compute; reflexivity|]. split; [vm_compute; reflexivity|]. vm_compute. discriminate.
Qed.

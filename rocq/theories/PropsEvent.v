(** Theorems C12-C17: events, their equality, their text.
    Statements use EventModel (the code) and EventSpec (the meaning). *)
From Verif Require Import Base PathModel EventModel EventSpec EventFacts.

(** ** C12: equality of events *)

(** [==] holds exactly when every component agrees, at every depth. *)
Theorem C12_equality_is_componentwise :
  forall l r, ev_eqb l r = true <-> same_event l r.
Proof. exact ev_eqb_same. Qed.
Print Assumptions C12_equality_is_componentwise.

Theorem C12_equality_is_an_equivalence :
  (forall e, ev_eqb e e = true) /\
  (forall a b, ev_eqb a b = true -> ev_eqb b a = true) /\
  (forall a b c, ev_eqb a b = true -> ev_eqb b c = true -> ev_eqb a c = true).
Proof. exact ev_eqb_equivalence. Qed.
Print Assumptions C12_equality_is_an_equivalence.

Theorem C12_inequality_is_the_negation :
  forall l r, ev_neqb l r = true <-> ~ same_event l r.
Proof. exact ev_neqb_same. Qed.
Print Assumptions C12_inequality_is_the_negation.

(** Two different spellings of one path compare equal; different times do not. *)
Example C12_example :
  let a t p := Ev (lit "/d/a") EtRename PtFile 5 (Some (Ev p EtRename PtFile t None)) in
  same_event (a 6%Z (lit "/d//b")) (a 6%Z (lit "/d/b")) /\
  ~ same_event (a 6%Z (lit "/d/b")) (a 7%Z (lit "/d/b")) /\
  ~ same_event (a 6%Z (lit "/d/b")) (a 6%Z (lit "/d/b/")).
Proof.
  cbv zeta. rewrite <- !ev_eqb_same. vm_compute. split; [reflexivity|]. split; discriminate.
Qed.

(** ** C13: copies and combinations *)
Theorem C13_copies_are_equal :
  forall e, ev_copy e = e /\ ev_eqb (ev_copy e) e = true.
Proof. exact ev_copy_equal. Qed.
Print Assumptions C13_copies_are_equal.

(** The combining constructor keeps the base's path and types, takes a fresh
    time and carries an exact copy of the associated event. *)
Theorem C13_pairs_keep_both :
  forall now base assoc,
    let e := ev_pair now base assoc in
    ev_path e = ev_path base /\ ev_effect e = ev_effect base /\
    ev_ptype e = ev_ptype base /\ ev_time e = now /\ ev_assoc e = Some assoc.
Proof. exact ev_pair_fields. Qed.
Print Assumptions C13_pairs_keep_both.

(** ** C14: timestamps *)

(** Exact for every time from 2001-09-09T01:46:40Z on. *)
Theorem C14_timestamps_print_exactly_partial :
  forall z, modern_time z -> is_decimal (num_to_str z) z.
Proof. exact num_to_str_exact. Qed.
Print Assumptions C14_timestamps_print_exactly_partial.

(** What is printed in every case: nothing for times up to -10^18, otherwise
    the decimal notation followed by NUL characters up to nineteen in all. *)
Theorem C14_timestamps_shape :
  forall z, (- 2 ^ 63 <= z < 2 ^ 63)%Z ->
    ((z <= - 10 ^ 18)%Z /\ num_to_str z = []) \/
    ((- 10 ^ 18 < z)%Z /\
     exists t k, is_decimal t z /\ num_to_str z = t ++ repeat 0%N k /\ (length t + k = 19)%nat).
Proof. exact num_to_str_shape. Qed.
Print Assumptions C14_timestamps_shape.

(** So the times that print exactly are these and no others (in 64 bits). *)
Theorem C14_timestamps_exact_when :
  forall z, (- 2 ^ 63 <= z < 2 ^ 63)%Z ->
    (is_decimal (num_to_str z) z <-> (- 10 ^ 18 < z <= - 10 ^ 17 \/ 10 ^ 18 <= z)%Z).
Proof. exact num_to_str_exact_iff. Qed.
Print Assumptions C14_timestamps_exact_when.

(** The full claim fails: the epoch prints as a zero and eighteen NULs, and
    early negative times print as nothing. *)
Theorem C14_timestamps_print_exactly_refuted :
  ~ (forall z, (- 2 ^ 63 <= z < 2 ^ 63)%Z -> is_decimal (num_to_str z) z) /\
  num_to_str 0 = lit "0" ++ repeat 0%N 18 /\
  num_to_str (- 10 ^ 18) = [].
Proof. exact num_to_str_refuted. Qed.
Print Assumptions C14_timestamps_print_exactly_refuted.

Example C14_example : modern_time 1700000000000000000 /\
  num_to_str 1700000000000000000 = lit "1700000000000000000".
Proof. unfold modern_time. split; [lia|vm_compute; reflexivity]. Qed.

(** ** C15: the JSON an event streams *)

(** Holds for paths free of quotes, backslashes and control characters, and
    modern times. *)
Theorem C15_event_json_is_faithful_partial :
  forall e,
    plain (ev_path e) = true ->
    match ev_assoc e with Some a => plain (ev_path a) = true | None => True end ->
    modern_time (ev_time e) ->
    exists key, is_decimal key (ev_time e) /\
      read_json (lit "{" ++ event_json e ++ lit "}")
      = Some (JObj [(key, JObj (event_as_json e))]).
Proof. exact event_json_reads. Qed.
Print Assumptions C15_event_json_is_faithful_partial.

(** The full claim fails: a quote in a file name breaks the JSON, and a file
    name can even smuggle in members of its own. *)
Theorem C15_event_json_is_faithful_refuted :
  (exists e, modern_time (ev_time e) /\ read_json (lit "{" ++ event_json e ++ lit "}") = None) /\
  (exists e key ms, modern_time (ev_time e) /\
     read_json (lit "{" ++ event_json e ++ lit "}") = Some (JObj [(key, JObj ms)]) /\
     In (lit "path_name", JStr (lit "/etc/passwd")) ms /\ ev_path e <> lit "/etc/passwd").
Proof. exact event_json_refuted. Qed.
Print Assumptions C15_event_json_is_faithful_refuted.

(** Only one level of association is shown. *)
Theorem C15_event_json_drops_deep_associations :
  forall p f t tm p2 f2 t2 tm2 a b,
    event_json (Ev p f t tm (Some (Ev p2 f2 t2 tm2 a)))
    = event_json (Ev p f t tm (Some (Ev p2 f2 t2 tm2 b))).
Proof. exact event_json_shallow. Qed.
Print Assumptions C15_event_json_drops_deep_associations.

Example C15_example :
  read_json (lit "{" ++
    event_json (Ev (lit "/w/a") EtRename PtFile 1700000000000000000
                  (Some (Ev (lit "/w/b") EtRename PtFile 1700000000000000000 None))) ++ lit "}")
  = Some (JObj [(lit "1700000000000000000",
       JObj [(lit "effect_type", JStr (lit "rename")); (lit "path_name", JStr (lit "/w/a"));
             (lit "path_type", JStr (lit "file"));
             (lit "associated", JObj [(lit "effect_type", JStr (lit "rename"));
                (lit "path_name", JStr (lit "/w/b")); (lit "path_type", JStr (lit "file"))])])]).
Proof. vm_compute. reflexivity. Qed.

(** ** C16: names *)
Theorem C16_names_are_documented :
  (forall e, effect_name e = lit (effect_doc e)) /\
  (forall p, ptype_name p = lit (ptype_doc p)).
Proof. exact names_documented. Qed.
Print Assumptions C16_names_are_documented.

Theorem C16_names_are_distinct :
  (forall a b, effect_name a = effect_name b -> a = b) /\
  (forall a b, ptype_name a = ptype_name b -> a = b).
Proof. exact names_distinct. Qed.
Print Assumptions C16_names_are_distinct.

Theorem C16_out_of_range_is_other :
  forall z, (z < 0 \/ 5 < z)%Z ->
    effect_name_raw z = lit "other" /\ path_name_raw z = lit "other".
Proof. exact names_other. Qed.
Print Assumptions C16_out_of_range_is_other.

(** ** C17: the command line program's JSON *)
Theorem C17_cli_json_is_faithful_partial :
  forall e, plain_event e -> modern_event e ->
    read_json (cli_json e) = Some (event_as_cli_json e).
Proof. exact cli_json_reads. Qed.
Print Assumptions C17_cli_json_is_faithful_partial.

Theorem C17_cli_json_is_faithful_refuted :
  exists e, modern_event e /\ read_json (cli_json e) = None.
Proof. exact cli_json_refuted. Qed.
Print Assumptions C17_cli_json_is_faithful_refuted.

Example C17_example :
  let e := Ev (lit "/w/a") EtRename PtFile 1700000000000000000
             (Some (Ev (lit "/w/b") EtRename PtFile 1700000000000000000 None)) in
  plain_event e /\ modern_event e.
Proof. cbv zeta. split; repeat constructor; cbn; unfold modern_time; lia. Qed.

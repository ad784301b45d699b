(** Model of the small example program, src/wtr/tiny_watcher/main.cpp:17-36: the
    line it shows for an event, and its exit code.  Not modelled: the reading of the
    newline that ends it. *)
From Verif Require Import Base EventModel.

(** show, :17-24. *)
Definition tiny_line (e : event) : text :=
  effect_name (ev_effect e) ++ lit " " ++ ptype_name (ev_ptype e) ++ lit " " ++ ev_path e
  ++ (match ev_assoc e with Some a => lit " -> " ++ ev_path a | None => [] end) ++ [10%N].
(** What is on the standard output after these events. *)
Definition tiny_output (es : list event) : text := flat_map tiny_line es.
(** main, :36: its exit code when close() has answered [closed]. *)
Definition tiny_main (closed : bool) : Z := if closed then 0%Z else 1%Z.

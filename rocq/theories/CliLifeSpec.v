(** Model and specification for C144: the command line program while it watches,
    src/wtr/watcher/main.cpp:107-122. *)
From Verif Require Import Base EventModel EventSpec SemabinModel WatchModel WatchSpec KernelSpec.

(** ** The program *)
(** What is on the program's output: for each call of the callback (:111) the event's
    text and a newline ([endl]).  Only the watching thread writes.  A program that is
    killed, or whose output fails, is not modelled. *)
Definition cli_output (l : list entry) : text :=
  flat_map (fun x => match x with LCb ev => cli_json ev ++ [10]%N | _ => [] end) l.
(** What the calls of close() returned: main's (:120), then the destructor's. *)
Definition cli_closes (l : list entry) : list (sst * bool) :=
  flat_map (fun x => match x with LClosed v b => [(v, b)] | _ => [] end) l.

(** ** What is asked of it *)
(** The lines of a text; what follows the last newline is not a line. *)
Fixpoint lines_from (cur t : text) : list text :=
  match t with
  | [] => []
  | c :: t' => if (c =? 10)%N then cur :: lines_from [] t' else lines_from (cur ++ [c]) t'
  end.
Definition lines : text -> list text := lines_from [].
(** No newline in the event's paths. *)
Fixpoint one_line (ev : event) : Prop :=
  match ev with Ev p _ _ _ a => ~ In 10%N p /\ match a with Some b => one_line b | None => True end end.
(** Names a JSON string can hold unescaped. *)
Definition plain_names (o : op) : Prop :=
  match o with
  | Make _ _ n | Write _ n | Remove _ n | RemoveDir _ n _ | MoveOut _ n | MoveIn _ _ n => plain n = true
  | Rename _ n n' => plain n = true /\ plain n' = true
  end.

(** Specification for C147: the small example program while it watches. *)
From Verif Require Import Base EventModel KernelSpec.

(** No newline and no " ->" in a text. *)
Definition clear (t : text) : Prop := ~ In 10%N t /\ ~ exists x y, t = x ++ lit " ->" ++ y.
(** The names a change is about. *)
Definition clear_names (o : op) : Prop :=
  match o with
  | Make _ _ n | Write _ n | Remove _ n | RemoveDir _ n _ | MoveOut _ n | MoveIn _ _ n => clear n
  | Rename _ n n' => clear n /\ clear n'
  end.

(** What C120 talks about, beside [EventSpec] (the reader, plain text) and [BindSpec]. *)
From Verif Require Import Base EventModel.

(** A time that fits the 64 bits it is held in. *)
Definition in64 (z : Z) : Prop := (- 2 ^ 63 <= z < 2 ^ 63)%Z.
(** The times whose decimal notation has nineteen characters: from 2001-09-09 on, and
    from 1938-04-24 to 1966-10-31. *)
Definition nineteen (z : Z) : Prop := (- 10 ^ 18 < z <= - 10 ^ 17 \/ 10 ^ 18 <= z < 2 ^ 63)%Z.
(** Of an event, the event associated with it, the one associated with that, ... *)
Fixpoint every (P : event -> Prop) (e : event) : Prop :=
  match e with Ev p f t tm a => P e /\ match a with Some b => every P b | None => True end end.

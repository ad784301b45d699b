(** Independent specification of event times: what the clock said and what the
    user was told, in the order in which it happened. *)
From Verif Require Import Base EventModel.

Inductive tick :=
| Read (t : Z)         (* the clock was read *)
| Told (e : event).    (* the callback was called *)

(** Events about the filesystem, as opposed to messages of the watcher. *)
Definition about_files (e : event) : Prop := ev_ptype e <> PtWatcher.

(** No event about the filesystem was told in [l]. *)
Definition quiet (l : list tick) : Prop := forall e, In (Told e) l -> ~ about_files e.

(** The time of [e], and that of its associated event, were read in [l], the
    latter first, and no event about the filesystem was told since. *)
Definition dated_in (e : event) (l : list tick) : Prop :=
  exists a b, l = a ++ Read (ev_time e) :: b /\ quiet b /\
    forall x, ev_assoc e = Some x -> exists c d, a = c ++ Read (ev_time x) :: d /\ quiet d.

(** Every event is dated by the clock, between the filesystem event told before it
    and its own telling. *)
Definition dated (l : list tick) : Prop := forall a e b, l = a ++ Told e :: b -> dated_in e a.

(** The times the clock told, and the times of the filesystem events. *)
Fixpoint readings (l : list tick) : list Z :=
  match l with [] => [] | Read t :: l' => t :: readings l' | _ :: l' => readings l' end.
Fixpoint file_times (l : list tick) : list Z :=
  match l with
  | [] => []
  | Told e :: l' => match ev_ptype e with PtWatcher => file_times l' | _ => ev_time e :: file_times l' end
  | _ :: l' => file_times l'
  end.

(** Never less than before. *)
Definition never_back (l : list Z) : Prop := forall a x b y c, l = a ++ x :: b ++ y :: c -> (x <= y)%Z.

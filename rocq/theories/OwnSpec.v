(** What C141 is about: several watchers in one program, on Linux, and their descriptors. *)
From Verif Require Import Base EventModel Sys LinuxModel LinuxWatch LinuxSpec.

(** The descriptors a call is made on.  Closing -1 does nothing. *)
Definition uses (x : obs) : list Z :=
  match x with
  | OAddWatch fd _ _ _ | OFanMark fd _ _ _ | OEpollWait fd _ | ORead fd _ | OReadlink fd _ => [fd]
  | OEpollCtl ep fd _ => [ep; fd]
  | OClose fd => if (0 <=? fd)%Z then [fd] else []
  | _ => []
  end.

(** ** The program *)
(** The calls of all watchers as they follow one another; each with the watcher's number. *)
Definition calls := list (nat * obs).
(** The calls of one watcher. *)
Definition calls_of (i : nat) (g : calls) : trace := map snd (filter (fun c => Nat.eqb (fst c) i) g).
(** Every watcher's calls are those of the Linux adapter so far, on any path and with any
    answers of the system (to each of its calls: so also answers that depend on what other
    watchers did); [il i]: the stop descriptor it was given. *)
Definition all_watch (il : nat -> Z) (g : calls) : Prop :=
  forall i, exists s fuel path rest, fst (linux_watch s fuel path (il i) []) = calls_of i g ++ rest.
(** The kernel hands out no descriptor that is open in the program: not one that a watcher
    opened and nobody closed, nor a stop descriptor (they stay open). *)
Definition handed_out_free (il : nat -> Z) (g : calls) : Prop :=
  forall g1 i x g2 fd, g = g1 ++ (i, x) :: g2 -> fd_opened x = Some fd ->
    open_count fd (map snd g1) = 0%Z /\ forall j, fd <> il j.
(** [fd] was opened by watcher [i], and since then neither opened nor closed by any. *)
Definition opened_by (i : nat) (fd : Z) (g : calls) : Prop :=
  exists g1 x g2, g = g1 ++ (i, x) :: g2 /\ fd_opened x = Some fd /\
    Forall (fun c => fd_opened (snd c) <> Some fd /\ fd_closed (snd c) <> Some fd) g2.

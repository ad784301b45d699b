(** Independent specifications for the Linux adapter as a whole (C18, C26,
    C34-C36): predicates on the trace of observations. *)
From Verif Require Import Base EventModel Sys.

(** ** Messages (C18, C34) *)
Definition starts (pre t : text) : Prop := exists rest, t = pre ++ rest.

(** A message of the watcher about itself: severity letter, then a slash. *)
Definition is_message (e : event) : Prop := ev_ptype e = PtWatcher.
Definition is_warning (e : event) : Prop :=
  is_message e /\ ev_effect e = EtOther /\ ev_assoc e = None /\ starts (lit "w/") (ev_path e).
Definition is_error (e : event) : Prop :=
  is_message e /\ ev_effect e = EtOther /\ ev_assoc e = None /\ starts (lit "e/") (ev_path e).

(** The errors that can end the Linux adapter; the message carries the watched path. *)
Definition fatal_messages : list string :=
  ["e/sys/api/inotify@"; "e/sys/api/epoll@"; "e/sys/api/read@"; "e/sys/ret@";
   "e/sys/lim/kernel_version@"; "e/self/noent@"]%string.
Definition fatal_message (path : text) (e : event) : Prop :=
  is_error e /\ exists m, In m fatal_messages /\ ev_path e = lit m ++ path.

(** The stop descriptor [il] was ready in the last wait of [o]. *)
Definition stop_seen (il : Z) (o : trace) : Prop :=
  exists o1 ep fds o2, o = o1 ++ OEpollWait ep (Some fds) :: o2 /\ In il fds /\
    (forall ep' r, ~ In (OEpollWait ep' r) o2).

(** All messages shown so far are warnings. *)
Definition only_warnings (o : trace) : Prop :=
  forall e, In (OCallback e) o -> is_message e -> is_warning e.

(** ** New directories (C26) *)

(** What a mark must ask the kernel for: modifications, both halves of moves,
    creations and deletions; with inotify also the directory's own deletion and
    move, with fanotify also directories as subjects and events on children
    (inotify(7), fanotify_mark(2)). *)
Definition asks (bits : list N) (mask : N) : Prop := Forall (fun b => flag mask b = true) bits.
Definition changes : list N := [0x2; 0x40; 0x80; 0x100; 0x200]%N.

(** One attempt to mark the directory [p]: it succeeded, or the user was warned. *)
Inductive mark_attempt (p : text) : trace -> Prop :=
| MaInotify real fd mask wd :
    (0 < wd)%Z -> asks (0x400 :: 0x800 :: changes)%N mask ->
    mark_attempt p [ORealpath p (Some real); OStatDir real true; OAddWatch fd real mask wd]
| MaFanotify real fd mask :
    asks (0x40000000 :: 0x8000000 :: changes)%N mask ->
    mark_attempt p [ORealpath p (Some real); OStatDir real true; OFanMark fd real mask 0]
| MaWarned m t :
    mark_attempt p (m ++ [ONow t; OCallback (Ev (lit "w/sys/not_watched@" ++ p) EtOther PtWatcher t None)]).

Definition is_new_dir (e : event) : Prop := ev_effect e = EtCreate /\ ev_ptype e = PtDir.

(** Right before a new directory is announced it was marked, or the user was
    warned that it is not watched. *)
Definition marked_before_announced (o : trace) : Prop :=
  forall o1 e o2, o = o1 ++ OCallback e :: o2 -> is_new_dir e ->
    exists o0 m, o1 = o0 ++ m /\ mark_attempt (ev_path e) m.

(** ** Descriptors (C35) *)

(** The descriptor an observation opens or closes; negative ones are no descriptors. *)
Definition fd_opened (x : obs) : option Z :=
  match x with
  | OInotifyInit fd | OFanInit fd | OEpollCreate fd | OOpenHandle _ fd _ =>
      if (0 <=? fd)%Z then Some fd else None
  | _ => None
  end.
Definition fd_closed (x : obs) : option Z :=
  match x with OClose fd => if (0 <=? fd)%Z then Some fd else None | _ => None end.

Definition hits (fd : Z) (o : option Z) : Z :=
  match o with Some x => if (x =? fd)%Z then 1 else 0 | None => 0 end.

(** How often [fd] is open after [o]: opens minus closes. *)
Fixpoint open_count (fd : Z) (o : trace) : Z :=
  match o with
  | [] => 0
  | x :: o' => hits fd (fd_opened x) - hits fd (fd_closed x) + open_count fd o'
  end.

(** Nothing is closed that is not open. *)
Definition no_bad_close (o : trace) : Prop :=
  forall fd o1 o2, o = o1 ++ o2 -> (0 <= open_count fd o1)%Z.
(** Everything opened is closed. *)
Definition all_closed (o : trace) : Prop := forall fd, open_count fd o = 0%Z.

(** The same for directory streams. *)
Fixpoint dir_count (p : text) (o : trace) : Z :=
  match o with
  | [] => 0
  | OOpendir q (Some _) :: o' => (if text_eqb q p then 1 else 0) + dir_count p o'
  | OClosedir q :: o' => dir_count p o' - (if text_eqb q p then 1 else 0)
  | _ :: o' => dir_count p o'
  end.

(** Every stream opened in [o] is closed in [o], none is closed twice or unopened. *)
Definition streams_balanced (o : trace) : Prop :=
  forall p, dir_count p o = 0%Z /\ forall o1 o2, o = o1 ++ o2 -> (0 <= dir_count p o1)%Z.

(** The system never hands out descriptor 0 (standard input is open). *)
Definition stdin_open (s : os) : Prop :=
  (forall tr, os_inotify_init s tr <> 0%Z) /\ (forall tr, os_fan_init s tr <> 0%Z) /\
  (forall tr, os_epoll_create s tr <> 0%Z) /\ (forall tr h, fst (os_open_handle s tr h) <> 0%Z).

(** ** Adapter choice (C36) *)
Definition uses_fanotify (x : obs) : Prop := match x with OFanInit _ => True | _ => False end.
Definition uses_inotify (x : obs) : Prop := match x with OInotifyInit _ => True | _ => False end.
Definition none_of (P : obs -> Prop) (o : trace) : Prop := Forall (fun x => ~ P x) o.

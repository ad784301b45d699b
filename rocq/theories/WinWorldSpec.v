(** A filesystem that is being changed, and ReadDirectoryChangesW: the environment of
    C100 and C101.  This is not a model of code in the repository; it replaces three
    answers of the system (the read, the wait, whether something is a directory) by what
    Windows would answer while others change files.

    Simplifications: the system's own buffer is not limited (its overflow is C44); a
    read begins well and completes later (others are C44); the two records of a rename
    come in one completion (otherwise C43); relative names have two to a thousand units
    (C42 says what becomes of a single record with a name of one unit); moves between
    directories, which the system reports as a removal and an addition, are two changes,
    and so is a rename onto a name in use (a removal and a rename).
    Changes happen between the calls of the watcher, at any of them. *)
From Verif Require Import Base EventModel InotifySpec Mon WindowsModel WindowsSpec.
From Verif Require Sys.

(** ** Changes *)
(** Names are relative to the watched path, with backslashes between. *)
Inductive wop :=
| WMake (dir : bool) (n : text)
| WWrite (n : text)
| WRemove (n : text)
| WRename (n n' : text).                (* within a directory; with all that is in it *)

(** An event tells of a change.  The type is the watcher's guess (see C101). *)
Definition tells (root : text) (c : wop) (ev : shape) : Prop :=
  match c with
  | WMake _ n => exists t, ev = Sh (win_entry root n) EtCreate t None
  | WWrite n => exists t, ev = Sh (win_entry root n) EtModify t None
  | WRemove n => exists t, ev = Sh (win_entry root n) EtDestroy t None
  | WRename n n' => exists t t', ev = Sh (win_entry root n) EtRename t (Some (Sh (win_entry root n') EtRename t' None))
  end.

(** ** The filesystem *)
Record wworld := WWorld {
  ww_dirs : list text; ww_files : list text;
  ww_on : bool;                         (* a read was begun, so changes are noted *)
  ww_queue : list wop;                  (* noted, not yet given to the watcher *)
  ww_log : list wop }.                  (* for the theorems only: all that were noted *)
Definition has (p : text) (l : list text) : bool := existsb (text_eqb p) l.
Definition name_ok (n : text) : bool :=
  (2 <=? N.of_nat (length n))%N && (N.of_nat (length n) <=? 1000)%N && forallb (fun u => u <? 65536)%N n.
Definition there (w : wworld) (n : text) : bool := has n (ww_dirs w) || has n (ww_files w).
Definition possible (w : wworld) (c : wop) : bool :=
  match c with
  | WMake _ n => name_ok n && negb (there w n)
  | WWrite n | WRemove n => name_ok n && there w n
  | WRename n n' => name_ok n && name_ok n' && there w n && negb (text_eqb n n') && negb (there w n')
  end.
Definition gone (n : text) (l : list text) : list text := filter (fun q => negb (text_eqb n q)) l.
(** The new path of [q] after [n] became [n']. *)
Definition moved (n n' q : text) : text :=
  if text_eqb q n then n'
  else if text_eqb (firstn (S (length n)) q) (n ++ [92%N]) then n' ++ skipn (length n) q
  else q.
Definition dirs_then (w : wworld) (c : wop) : list text :=
  match c with
  | WMake true n => n :: ww_dirs w
  | WRemove n => gone n (ww_dirs w)
  | WRename n n' => map (moved n n') (ww_dirs w)
  | _ => ww_dirs w
  end.
Definition files_then (w : wworld) (c : wop) : list text :=
  match c with
  | WMake false n => n :: ww_files w
  | WRemove n => gone n (ww_files w)
  | WRename n n' => map (moved n n') (ww_files w)
  | _ => ww_files w
  end.
Definition happen (w : wworld) (c : wop) : wworld :=
  if possible w c then
    WWorld (dirs_then w c) (files_then w c) (ww_on w)
      (if ww_on w then ww_queue w ++ [c] else ww_queue w) (if ww_on w then ww_log w ++ [c] else ww_log w)
  else w.
Definition happens (w : wworld) (cs : list wop) : wworld := fold_left happen cs w.

(** ** Records *)
(** FILE_ACTION_... and name. *)
Definition noted (c : wop) : list (N * text) :=
  match c with
  | WMake _ n => [(1, n)]
  | WRemove n => [(2, n)]
  | WWrite n => [(3, n)]
  | WRename n n' => [(4, n); (5, n')]
  end%N.
(** Records begin at multiples of four. *)
Fixpoint aligned (l : list (N * text)) : list wrec :=
  match l with
  | [] => []
  | [(a, n)] => [{| w_action := a; w_name := n; w_pad := 0 |}]
  | (a, n) :: l' => {| w_action := a; w_name := n; w_pad := if Nat.even (length n) then 0 else 2 |} :: aligned l'
  end.
Definition completion (cs : list wop) : text := w_encode (aligned (flat_map noted cs)).
(** How many changes fit: at most [n], at most [room] bytes. *)
Definition room_for (c : wop) : N := fold_right N.add 0%N (map (fun x => 14 + 2 * N.of_nat (length (snd x)))%N (noted c)).
Fixpoint fitting (room : N) (n : nat) (q : list wop) : nat :=
  match n, q with
  | S n', c :: q' => if (room_for c <=? room)%N then S (fitting (room - room_for c) n' q') else O
  | _, _ => O
  end.
(** How many are given to a wait that would like to give [want]. *)
Definition given (want : nat) (w : wworld) : nat := fitting 8192 want (ww_queue w).

(** ** The whole system *)
(** [we_path]: the watched path; [we_ops]: the changes before the next call; [we_want]:
    how many changes the next wait gives (none: it times out); [we_base]: all other
    answers. *)
Record wenv := { we_path : text; we_start : wworld; we_ops : list nobs -> list wop; we_want : list nobs -> nat; we_base : nfs }.
Section Env.
  Variable e : wenv.
  (** The state after these calls, the last first. *)
  Fixpoint state_rev (rtr : list nobs) : wworld :=
    match rtr with
    | [] => we_start e
    | x :: r =>
        let w := happens (state_rev r) (we_ops e (rev r)) in
        match x with
        | NRead _ => WWorld (ww_dirs w) (ww_files w) true (ww_queue w) (ww_log w)
        | NWait (WtDone _) => WWorld (ww_dirs w) (ww_files w) (ww_on w) (skipn (given (we_want e (rev r)) w) (ww_queue w)) (ww_log w)
        | _ => w
        end
    end.
  Definition state (tr : list nobs) : wworld := state_rev (rev tr).
  Definition at_call (tr : list nobs) : wworld := happens (state tr) (we_ops e tr).
  Definition system : nfs := {|
    nf_now := nf_now (we_base e);
    nf_isdir := fun tr p =>
      if has p (map (win_entry (we_path e)) (ww_dirs (at_call tr))) then Some true
      else if has p (map (win_entry (we_path e)) (ww_files (at_call tr))) then Some false
      else match nf_isdir (we_base e) tr p with None => None | Some _ => Some false end;
    nf_narrow := nf_narrow (we_base e);
    nf_open := nf_open (we_base e);
    nf_port := nf_port (we_base e);
    nf_bind := nf_bind (we_base e);
    nf_read := fun _ => RdOk [];
    nf_wait := fun tr =>
      if armed tr then
        match given (we_want e tr) (at_call tr) with
        | O => WtNone
        | c => WtDone (completion (firstn c (ww_queue (at_call tr))))
        end
      else WtNone;
    nf_pending := nf_pending (we_base e);
  |}.
End Env.
(** At the start nothing was noted. *)
Definition world_start (dirs files : list text) : wworld := WWorld dirs files false [] [].

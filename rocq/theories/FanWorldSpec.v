(** A filesystem that is being changed, and the kernel's fanotify (fanotify(7)) as
    root uses it: the environment of C107-C114.  This is not a model of code in the
    repository; it replaces five answers of the system (making the descriptor, marking a
    directory, reading records, opening a handle, the path of what was opened) by what a
    kernel would answer while others change files.

    A record names its directory by a handle and the entry by its name.  A record joins
    one that is still waiting and has the same directory, name, type and process: the
    waiting one then has several kinds (fanotify_merge, fs/notify/fanotify/fanotify.c).

    Simplifications: directories are not removed, renamed or moved (what then happens is
    C29), and there are no links; the queue is not limited (overflow is C29); the kernel looks for
    the record to join among all that wait, not among some (take another process number
    for those it does not find); a read gives less than 4096 bytes (C28 is about a buffer filled
    to the last byte).  Changes happen between the calls of the watcher, at any of them. *)
From Verif Require Import Base EventModel Sys InotifySpec FanotifySpec.

(** ** Changes *)
(** Made by the process [pid]. *)
Inductive fop :=
| FMake (pid : N) (dir : bool) (p n : text)
| FWrite (pid : N) (p n : text)
| FRemove (pid : N) (p n : text)                (* a file *)
| FRename (pid : N) (p n q m : text).           (* a file, to any directory; a file there is replaced *)
Definition by_pid (o : fop) : N := match o with FMake i _ _ _ | FWrite i _ _ | FRemove i _ _ | FRename i _ _ _ _ => i end.
(** The entries it touches: the directory, the name, how, and the entry's type. *)
Definition touches (o : fop) : list (text * text * fkind * bool) :=
  match o with
  | FMake _ d p n => [(p, n, FCreate, d)]
  | FWrite _ p n => [(p, n, FModify, false)]
  | FRemove _ p n => [(p, n, FDelete, false)]
  | FRename _ p n q m => [(p, n, FFrom, false); (q, m, FTo, false)]
  end.
Definition at_path (p n : text) : text := p ++ lit "/" ++ n.

(** ** The kernel *)
Record fworld := FWorld {
  fw_dirs : list text;                  (* by canonical path; the place in the list is in its handle *)
  fw_files : list text;
  fw_marks : list text;                 (* the marked directories *)
  fw_queue : list frec;                 (* records not yet read *)
  (* for the theorems only: *)
  fw_batches : list (list frec);        (* what the reads gave *)
  fw_log : list (text * fkind * bool) }.  (* every change of an entry of a marked directory, and the entry's type *)
Definition fworld_start (dirs files : list text) : fworld := FWorld dirs files [] [] [] [].

Definition mem (p : text) (l : list text) : bool := existsb (text_eqb p) l.
Definition less (p : text) (l : list text) : list text := filter (fun q => negb (text_eqb p q)) l.
(** A name: not empty, at most NAME_MAX bytes, no NUL and no slash, not "." or ".."; a path
    within PATH_MAX. *)
Definition sound_name (p n : text) : bool :=
  negb (text_eqb n []) && (N.of_nat (length n) <=? 255)%N && forallb (fun b => negb (b =? 0)%N && negb (b =? 47)%N) n
  && negb (text_eqb n (lit ".")) && negb (text_eqb n (lit "..")) && (N.of_nat (length (at_path p n)) <=? 4095)%N.
Definition may (w : fworld) (o : fop) : bool :=
  match o with
  | FMake _ _ p n => mem p (fw_dirs w) && sound_name p n && negb (mem (at_path p n) (fw_dirs w)) && negb (mem (at_path p n) (fw_files w))
      && (N.of_nat (length (fw_dirs w)) <? 2 ^ 63)%N
  | FWrite _ p n | FRemove _ p n => mem p (fw_dirs w) && sound_name p n && mem (at_path p n) (fw_files w)
  | FRename _ p n q m =>
      mem p (fw_dirs w) && mem q (fw_dirs w) && sound_name p n && sound_name q m && mem (at_path p n) (fw_files w)
      && negb (mem (at_path q m) (fw_dirs w)) && negb (text_eqb (at_path p n) (at_path q m))
  end.

(** *** Records *)
Fixpoint place (p : text) (l : list text) : N :=
  match l with [] => 0 | q :: l' => if text_eqb p q then 0 else 1 + place p l' end%N.
(** An eight byte handle; names are padded to a multiple of four, with at least one NUL. *)
Definition fan_rec (w : fworld) (pid : N) (t : text * text * fkind * bool) : frec :=
  match t with
  | (p, n, k, d) =>
      {| f_kinds := [k]; f_dir := d; f_pid := pid; f_fsid := repeat 1%N 8; f_htype := 1;
         f_handle := le_bytes 8 (place p (fw_dirs w)); f_name := n; f_pad := 4 - Nat.modulo (length n) 4 |}
  end.
Definition records (w : fworld) (o : fop) : list frec :=
  map (fan_rec w (by_pid o)) (filter (fun t => mem (fst (fst (fst t))) (fw_marks w)) (touches o)).
Definition joins (old new : frec) : bool :=
  text_eqb (f_handle old) (f_handle new) && text_eqb (f_name old) (f_name new) && Bool.eqb (f_dir old) (f_dir new) && (f_pid old =? f_pid new)%N.
(** The kinds of both, each once. *)
Definition all_kinds : list fkind := [FCreate; FDelete; FModify; FFrom; FTo].
Definition with_kinds (r : frec) (ks : list fkind) : frec :=
  {| f_kinds := ks; f_dir := f_dir r; f_pid := f_pid r; f_fsid := f_fsid r; f_htype := f_htype r;
     f_handle := f_handle r; f_name := f_name r; f_pad := f_pad r |}.
Definition joined (old new : frec) : frec := with_kinds old (filter (fun k => has k old || has k new) all_kinds).
Fixpoint enqueue (q : list frec) (r : frec) : list frec :=
  match q with
  | [] => [r]
  | x :: q' => if joins x r then joined x r :: q' else x :: enqueue q' r
  end.

(** *** A change happens *)
Definition dirs_then (w : fworld) (o : fop) : list text :=
  match o with FMake _ true p n => fw_dirs w ++ [at_path p n] | _ => fw_dirs w end.
Definition files_then (w : fworld) (o : fop) : list text :=
  match o with
  | FMake _ false p n => at_path p n :: fw_files w
  | FRemove _ p n => less (at_path p n) (fw_files w)
  | FRename _ p n q m => at_path q m :: less (at_path p n) (less (at_path q m) (fw_files w))
  | _ => fw_files w
  end.
Definition noted (w : fworld) (o : fop) : list (text * fkind * bool) :=
  map (fun t => match t with (p, n, k, d) => (at_path p n, k, d) end) (filter (fun t => mem (fst (fst (fst t))) (fw_marks w)) (touches o)).
Definition happen (w : fworld) (o : fop) : fworld :=
  if may w o then
    FWorld (dirs_then w o) (files_then w o) (fw_marks w) (fold_left enqueue (records w o) (fw_queue w)) (fw_batches w) (fw_log w ++ noted w o)
  else w.
Definition happens (w : fworld) (os : list fop) : fworld := fold_left happen os w.

(** *** Calls *)
(** fanotify_mark.  A mark that does not ask for all the kinds of records, for
    directories and for their entries is granted, but nothing is reported of it. *)
Definition asks (m : N) : bool :=
  forallb (fun b => negb (N.land m b =? 0)%N) (0x40000000 :: 0x08000000 :: map fkind_bit all_kinds)%N.
Definition marking (mine deny : bool) (m : N) (w : fworld) (p : text) : Z * fworld :=
  if negb mine || deny || negb (mem p (fw_dirs w)) then ((-1)%Z, w)
  else (0%Z, if asks m then FWorld (fw_dirs w) (fw_files w) (p :: fw_marks w) (fw_queue w) (fw_batches w) (fw_log w) else w).
Fixpoint fitting (room : N) (n : nat) (q : list frec) : nat :=
  match n, q with
  | S n', r :: q' => let l := N.of_nat (f_len r) in if (l <=? room)%N then S (fitting (room - l) n' q') else O
  | _, _ => O
  end.
Definition reading (mine : bool) (want : nat) (w : fworld) : rd * fworld :=
  match mine, fw_queue w with
  | true, (_ :: _) as q =>
      let b := firstn (fitting 4095 (S want) q) q in
      ({| rd_len := Z.of_nat (length (fencode (map Chg b))); rd_bytes := fencode (map Chg b); rd_errno := 0 |},
       FWorld (fw_dirs w) (fw_files w) (fw_marks w) (skipn (fitting 4095 (S want) q) q) (fw_batches w ++ [b]) (fw_log w))
  | _, _ => ({| rd_len := -1; rd_bytes := []; rd_errno := 11 |}, w)
  end.
(** open_by_handle_at, and the path of what was opened. *)
Fixpoint opened (h : text) (i : N) (dirs : list text) : Z * Z :=
  match dirs with
  | [] => (-1, 116)%Z
  | _ :: dirs' =>
      if text_eqb h (le_bytes 4 8 ++ le_bytes 4 1 ++ le_bytes 8 i) then (1000 + Z.of_N i, 0)%Z else opened h (i + 1) dirs'
  end.
Definition path_of (fd : Z) (dirs : list text) : text := nth (Z.to_nat (fd - 1000)) dirs (lit "/").

(** ** The whole system *)
(** [fe_fd]: the descriptor; [fe_ops]: the changes before the next call; [fe_deny]: the next mark
    is denied; [fe_want]: a read gives at most so many records, and one; [fe_base]: all other answers. *)
Record fenv := {
  fe_fd : Z; fe_start : fworld; fe_ops : trace -> list fop; fe_deny : trace -> bool; fe_want : trace -> nat; fe_base : fworld -> os }.
Section Env.
  Variable e : fenv.
  (** The state after these calls, the last first. *)
  Fixpoint state_rev (rtr : list obs) : fworld :=
    match rtr with
    | [] => fe_start e
    | x :: r =>
        let w := happens (state_rev r) (fe_ops e (rev r)) in
        match x with
        | OFanMark fd p m _ => snd (marking (fd =? fe_fd e)%Z (fe_deny e (rev r)) m w p)
        | ORead fd _ => snd (reading (fd =? fe_fd e)%Z (fe_want e (rev r)) w)
        | _ => w
        end
    end.
  Definition state (tr : trace) : fworld := state_rev (rev tr).
  (** The state in which the next call is answered. *)
  Definition at_call (tr : trace) : fworld := happens (state tr) (fe_ops e tr).
  Definition system : os := {|
    os_fan_init := fun _ => fe_fd e;
    os_fan_mark := fun tr fd p m => fst (marking (fd =? fe_fd e)%Z (fe_deny e tr) m (at_call tr) p);
    os_read := fun tr fd _ => fst (reading (fd =? fe_fd e)%Z (fe_want e tr) (at_call tr));
    os_open_handle := fun tr h => opened h 0 (fw_dirs (at_call tr));
    os_readlink := fun tr fd => Some (path_of fd (fw_dirs (at_call tr)));
    os_geteuid := fun _ => 0%Z;
    os_now := fun tr => os_now (fe_base e (at_call tr)) tr;
    os_realpath := fun tr => os_realpath (fe_base e (at_call tr)) tr;
    os_is_dir := fun tr => os_is_dir (fe_base e (at_call tr)) tr;
    os_opendir := fun tr => os_opendir (fe_base e (at_call tr)) tr;
    os_inotify_init := fun tr => os_inotify_init (fe_base e (at_call tr)) tr;
    os_add_watch := fun tr => os_add_watch (fe_base e (at_call tr)) tr;
    os_epoll_create := fun tr => os_epoll_create (fe_base e (at_call tr)) tr;
    os_epoll_ctl := fun tr => os_epoll_ctl (fe_base e (at_call tr)) tr;
    os_epoll_wait := fun tr => os_epoll_wait (fe_base e (at_call tr)) tr;
  |}.
End Env.
(** The descriptor is one; the directories at the start have paths, are no files and are few
    enough for the handles; the root directory, whose entries the adapter calls "//name", is not among them. *)
Record fenv_ok (e : fenv) : Prop := {
  fv_fd : (1 <= fe_fd e)%Z;
  fv_start : exists dirs files, fe_start e = fworld_start dirs files /\ Forall (fun d => d <> [] /\ d <> lit "/") dirs /\ (N.of_nat (length dirs) <= 2 ^ 63)%N
    /\ forall p, In p dirs -> ~ In p files }.

(** ** What the user is owed *)
(** The events about files (the others, warnings and errors, are about the watcher). *)
Definition about_fs (s : shape) : bool := match s with Sh _ _ PtWatcher _ => false | _ => true end.
Definition fs_events (o : trace) : list shape := filter about_fs (shown o).
(** An event that mentions [p], as its subject or as what it was renamed to. *)
Definition mentions (p : text) (s : shape) : Prop :=
  match s with Sh q _ _ a => q = p \/ exists q' f t x, a = Some (Sh q' f t x) /\ q' = p end.
(** The event tells of changes that happened to the entry: of the kind its effect says,
    and the path type is the entry's. *)
Definition happened (l : list (text * fkind * bool)) (s : shape) : Prop :=
  let type (d : bool) := if d then PtDir else PtFile in
  match s with
  | Sh p EtCreate t None => exists d, In (p, FCreate, d) l /\ t = type d
  | Sh p EtDestroy t None => exists d, In (p, FDelete, d) l /\ t = type d
  | Sh p EtModify t None => exists d, In (p, FModify, d) l /\ t = type d
  | Sh p EtRename t None => exists d, (In (p, FFrom, d) l \/ In (p, FTo, d) l) /\ t = type d
  | Sh p EtRename t (Some (Sh q EtRename u None)) => In (p, FFrom, false) l /\ In (q, FTo, false) l /\ t = PtFile /\ u = PtFile
  | _ => False
  end.
(** The path of a record. *)
Definition rec_path (w : fworld) (r : frec) : text := at_path (nth (N.to_nat (le_word (f_handle r))) (fw_dirs w) []) (f_name r).
(** The change [k] of [p] is still to be read. *)
Definition pending_for (w : fworld) (p : text) (k : fkind) (d : bool) : Prop :=
  exists r, In r (fw_queue w) /\ rec_path w r = p /\ has k r = true /\ f_dir r = d.
(** Two records the second of which the adapter takes for the beginning of the move that ends
    with the first. *)
Definition crossed (r n : frec) : Prop :=
  f_moves r = true /\ has FTo r = true /\ has FFrom n = true /\ ~ (has FFrom r = true /\ has FTo n = true).
Fixpoint uncrossed (b : list frec) : Prop :=
  match b with
  | r :: ((n :: _) as b') => ~ crossed r n /\ uncrossed b'
  | _ => True
  end.

(** The record of the change was read in a batch after an end of a move that was directly before a beginning, or as that beginning. *)
Definition behind_crossing (w : fworld) (p : text) (k : fkind) (d : bool) : Prop :=
  exists b r b', In (b ++ r :: b') (fw_batches w) /\ rec_path w r = p /\ has k r = true /\ f_dir r = d /\
    exists b1 r1 r2 b2, b ++ [r] = b1 ++ r1 :: r2 :: b2 /\ crossed r1 r2.

(** *** Without renames *)
Definition no_renames (e : fenv) : Prop := forall tr, Forall (fun o => match o with FRename _ _ _ _ _ => False | _ => True end) (fe_ops e tr).
(** An event that tells of the change: as such or, where the kernel joined it with others, as
    one of these. *)
Definition told_as (p : text) (k : fkind) (d : bool) (s : shape) : Prop :=
  exists f, s = Sh p f (if d then PtDir else PtFile) None /\
    match k with
    | FCreate => f = EtCreate
    | FDelete => f = EtCreate \/ f = EtDestroy
    | FModify => f = EtCreate \/ f = EtDestroy \/ f = EtModify
    | _ => False
    end.
(** The event of a record that is not about a rename. *)
Definition rec_event (w : fworld) (r : frec) : shape := Sh (rec_path w r) (f_effect r) (f_ptype r) None.
(** *** Whether a file is there *)
Definition one_process (e : fenv) : Prop := exists pid, forall tr, Forall (fun o => by_pid o = pid) (fe_ops e tr).
(** No record says both that its file was made and that it was removed. *)
Definition unmixed (w : fworld) : Prop :=
  forall r, In r (concat (fw_batches w) ++ fw_queue w) -> ~ (has FCreate r = true /\ has FDelete r = true).
(** The last event about [p] is [s]. *)
Definition last_about (p : text) (l : list shape) (s : shape) : Prop :=
  exists a b, l = a ++ s :: b /\ mentions p s /\ forall x, In x b -> ~ mentions p x.

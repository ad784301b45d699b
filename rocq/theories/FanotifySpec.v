(** Independent specification for the fanotify adapter: kernel records, their
    byte layout (fanotify(7)), and the events a batch of records produces. *)
From Verif Require Import Base EventModel Sys InotifySpec.

(** ** Kernel records *)

(** What a record reports; the kernel may merge several of these into one record. *)
Inductive fkind := FCreate | FDelete | FModify | FFrom | FTo.
Definition fkind_bit (k : fkind) : N :=
  match k with FModify => 0x2 | FFrom => 0x40 | FTo => 0x80 | FCreate => 0x100 | FDelete => 0x200 end%N.

(** A record with directory handle and entry name (FAN_REPORT_DFID_NAME). *)
Record frec := {
  f_kinds : list fkind;
  f_dir : bool;        (* the subject is a directory *)
  f_pid : N;
  f_fsid : text;       (* 8 bytes *)
  f_htype : N;
  f_handle : text;     (* the handle of the directory *)
  f_name : text;       (* the entry; "." for the directory itself *)
  f_pad : nat;         (* NUL bytes after the name *)
}.
(** Or the record of a queue overflow: metadata only. *)
Inductive fan := Chg (r : frec) | Ovf.

Fixpoint f_bits (ks : list fkind) : N :=
  match ks with [] => 0 | k :: ks' => N.lor (fkind_bit k) (f_bits ks') end.
Definition f_mask (r : frec) : N := N.lor (f_bits (f_kinds r)) (if f_dir r then 0x40000000 else 0)%N.

Definition f_len (r : frec) : nat := (44 + length (f_handle r) + length (f_name r) + f_pad r)%nat.

(** What the kernel guarantees of a record: a terminated name, a length that is
    a multiple of four (and fits 32 bits). *)
Record frec_ok (r : frec) : Prop := {
  fo_fsid : length (f_fsid r) = 8%nat;
  fo_name : Forall (fun b => b <> 0)%N (f_name r);
  fo_pad : (0 < f_pad r)%nat;
  fo_align : exists k, f_len r = (4 * k)%nat;
  fo_len : (N.of_nat (f_len r) < 4294967296)%N;
  fo_kinds : f_kinds r <> [];
}.
Definition fan_ok (x : fan) : Prop := match x with Chg r => frec_ok r | Ovf => True end.

(** The handle as the kernel takes it back: size, type, bytes. *)
Definition handle_of (r : frec) : text :=
  le_bytes 4 (N.of_nat (length (f_handle r))) ++ le_bytes 4 (f_htype r) ++ f_handle r.

(** Byte layout.  Metadata: event_len, vers = 3, reserved, metadata_len = 24,
    mask, fd = FAN_NOFD, pid.  Info: type = 2 (DFID_NAME), pad, len, fsid,
    handle, name, padding. *)
Definition fencode_rec (x : fan) : text :=
  match x with
  | Chg r =>
      le_bytes 4 (N.of_nat (f_len r)) ++ [3; 0]%N ++ le_bytes 2 24 ++ le_bytes 8 (f_mask r)
      ++ le_bytes 4 (of_i32 (-1)) ++ le_bytes 4 (f_pid r)
      ++ [2; 0]%N ++ le_bytes 2 (N.of_nat (f_len r - 24)) ++ f_fsid r
      ++ handle_of r ++ f_name r ++ repeat 0%N (f_pad r)
  | Ovf =>
      le_bytes 4 24 ++ [3; 0]%N ++ le_bytes 2 24 ++ le_bytes 8 0x4000
      ++ le_bytes 4 (of_i32 (-1)) ++ le_bytes 4 0
  end.
Definition fencode (rs : list fan) : text := flat_map fencode_rec rs.

(** ** What a batch does *)

(** The reported effect of a record: one of its kinds, in this order of preference. *)
Definition has (k : fkind) (r : frec) : bool :=
  existsb (fun j => match k, j with
    FCreate, FCreate | FDelete, FDelete | FModify, FModify | FFrom, FFrom | FTo, FTo => true | _, _ => false end) (f_kinds r).
Definition f_effect (r : frec) : effect_type :=
  if has FCreate r then EtCreate else if has FDelete r then EtDestroy else if has FModify r then EtModify else EtRename.
Definition f_ptype (r : frec) : path_type := if f_dir r then PtDir else PtFile.
Definition f_moves (r : frec) : bool := match f_effect r with EtRename => true | _ => false end.

(** An entry of a directory, cut to PATH_MAX - 1 bytes; the directory itself for ".". *)
Definition fpath (d name : text) : text :=
  if text_eqb name (lit ".") then firstn (N.to_nat 4095) d
  else firstn (N.to_nat 4095) (firstn (N.to_nat 4095) d ++ lit "/" ++ name).

(** At some time the system opened the record's directory and told its path;
    this gives the record's path. *)
Definition named (s : os) (r : frec) (p : text) : Prop :=
  exists tr fd err d,
    os_open_handle s tr (handle_of r) = (fd, err) /\ (0 < fd)%Z /\
    os_readlink s (tr ++ [OOpenHandle (handle_of r) fd err]) fd = Some d /\
    p = fpath d (f_name r).
(** At some time the system could not open the record's directory. *)
Definition unnamed (s : os) (r : frec) : Prop := exists tr, (fst (os_open_handle s tr (handle_of r)) < 0)%Z.

(** Warnings that a new directory is not watched. *)
Definition only_unwatched (p : text) (w : list shape) : Prop := w = [] \/ w = [warning "w/sys/not_watched@" p].

(** How a batch ended. *)
Inductive fend := FAll | FOverflow | FBadHandle.

(** [fbatch s missing rs shown e]: the adapter, going through [rs] while it
    believes [missing] bytes fewer to be there than are, shows [shown].  The
    claim (C29, C30) would have nothing missing, no [FSwap], no [FOvf], no
    [FUnnamed]. *)
Definition fits (missing : nat) (rs : list fan) : Prop :=
  match rs with [] => False | r :: _ => (length (fencode_rec r) + missing <= length (fencode rs))%nat end.
Definition pairs (r : frec) (rest : list fan) (missing : nat) : Prop :=
  exists n rest', rest = Chg n :: rest' /\ fits missing rest /\ f_moves r = true /\
    (has FFrom r = true /\ has FTo n = true \/ has FTo r = true /\ has FFrom n = true).

Inductive fbatch (s : os) : nat -> list fan -> list shape -> fend -> Prop :=
| FStop m rs : ~ fits m rs -> fbatch s m rs [] FAll
| FOvf m rs : fits m (Ovf :: rs) -> fbatch s m (Ovf :: rs) [] FOverflow
| FUnnamed m r rs : fits m (Chg r :: rs) -> unnamed s r -> fbatch s m (Chg r :: rs) [] FBadHandle
| FUnnamed2 m r n rs : fits m (Chg r :: Chg n :: rs) -> pairs r (Chg n :: rs) m -> unnamed s n ->
    fbatch s m (Chg r :: Chg n :: rs) [] FBadHandle
| FOne m r rs p w o e :
    fits m (Chg r :: rs) -> ~ pairs r rs m -> named s r p ->
    (if match f_effect r, f_ptype r with EtCreate, PtDir => true | _, _ => false end then only_unwatched p w else w = []) ->
    fbatch s m rs o e ->
    fbatch s m (Chg r :: rs) (w ++ Sh p (f_effect r) (f_ptype r) None :: o) e
| FPair m r n rs p q o e :
    fits m (Chg r :: Chg n :: rs) -> fits m (Chg n :: rs) -> f_moves r = true -> has FFrom r = true -> has FTo n = true ->
    named s r p -> named s n q ->
    fbatch s m rs o e ->
    fbatch s m (Chg r :: Chg n :: rs) (Sh p EtRename (f_ptype r) (Some (Sh q EtRename (f_ptype r) None)) :: o) e
| FSwap m r n rs p q o e :
    fits m (Chg r :: Chg n :: rs) -> fits m (Chg n :: rs) -> f_moves r = true ->
    ~ (has FFrom r = true /\ has FTo n = true) -> has FTo r = true -> has FFrom n = true ->
    named s n p -> named s r q ->
    fbatch s (m + length (fencode_rec (Chg n))) (Chg n :: rs) o e ->
    fbatch s m (Chg r :: Chg n :: rs) (Sh p EtRename (f_ptype r) (Some (Sh q EtRename (f_ptype r) None)) :: o) e.

(** ** The system *)

(** Directory handles open to positive descriptors or fail with an error number;
    open descriptors can be looked up in /proc. *)
Record handles_ok (s : os) : Prop := {
  ho_open : forall tr h, (0 < fst (os_open_handle s tr h) \/ fst (os_open_handle s tr h) < 0 /\ snd (os_open_handle s tr h) <> 0)%Z;
  ho_link : forall tr fd, (0 < fd)%Z -> exists d, os_readlink s tr fd = Some d /\ d <> [];
}.

(** What one read returns: whole records, and not exactly a full buffer. *)
Record fbatch_ok (rs : list fan) : Prop := {
  fb_recs : Forall fan_ok rs;
  fb_size : (length (fencode rs) < N.to_nat 4096)%nat;
}.

(** ** The claims C29 and C30 *)

(** What happened in the watched tree, with the records the kernel gives out for
    it.  Where a move begins or ends outside of the tree, there is one half only. *)
Inductive op :=
| Change (k : fkind) (r : frec)
| Moved (r n : frec)         (* from the entry [r] to the entry [n] *)
| MovedOut (r : frec)
| MovedIn (n : frec).
Definition recs_of (x : op) : list frec :=
  match x with Change _ r => [r] | Moved r n => [r; n] | MovedOut r => [r] | MovedIn n => [n] end.
Definition batch_of (ops : list op) : list fan := map Chg (flat_map recs_of ops).
Definition kind_effect (k : fkind) : effect_type :=
  match k with FCreate => EtCreate | FDelete => EtDestroy | FModify => EtModify | FFrom | FTo => EtRename end.
(** No record is merged from several. *)
Definition op_ok (x : op) : Prop :=
  match x with
  | Change k r => f_kinds r = [k] /\ k <> FFrom /\ k <> FTo
  | Moved r n => f_kinds r = [FFrom] /\ f_kinds n = [FTo]
  | MovedOut r => f_kinds r = [FFrom]
  | MovedIn n => f_kinds n = [FTo]
  end.
(** What the claims want to be shown for it. *)
Definition tells (s : os) (x : op) (sh : list shape) : Prop :=
  match x with
  | Change k r => exists p w, named s r p /\ sh = w ++ [Sh p (kind_effect k) (f_ptype r) None] /\
      (w = [] \/ k = FCreate /\ f_dir r = true /\ w = [warning "w/sys/not_watched@" p])
  | Moved r n => exists p q, named s r p /\ named s n q /\
      sh = [Sh p EtRename (f_ptype r) (Some (Sh q EtRename (f_ptype r) None))]
  | MovedOut r | MovedIn r => exists p, named s r p /\ sh = [Sh p EtRename (f_ptype r) None]
  end.
(** The condition under which they hold: halves of different moves stand apart. *)
Fixpoint apart (ops : list op) : Prop :=
  match ops with
  | x :: ((y :: _) as rest) =>
      match x, y with
      | MovedOut _, MovedIn _ | MovedIn _, MovedOut _ | MovedIn _, Moved _ _ => False
      | _, _ => True
      end /\ apart rest
  | _ => True
  end.
(** Every directory can be opened. *)
Definition always_opens (s : os) : Prop := forall tr h, (0 < fst (os_open_handle s tr h))%Z.

(** ** Whole runs *)

(** Every read fails or returns a batch (of which [P] holds). *)
Definition fanotify_kernel (P : list fan -> Prop) (s : os) : Prop :=
  forall tr fd n, let r := os_read s tr fd n in
    (rd_len r < 0)%Z \/
    exists rs, rs <> [] /\ fbatch_ok rs /\ P rs /\ rd_len r = Z.of_nat (length (fencode rs)) /\ rd_bytes r = fencode rs.

(** The user is root and the kernel offers fanotify. *)
Definition fanotify_used (s : os) : Prop := (forall tr, os_geteuid s tr = 0%Z) /\ (forall tr, (1 <= os_fan_init s tr)%Z).

(** The reads in [o] returned exactly these batches. *)
Definition fgave (P : list fan -> Prop) (o : trace) (rss : list (list fan)) : Prop :=
  reads o = map fencode rss /\ Forall fbatch_ok rss /\ Forall P rss.

(** Successive batches. *)
Inductive fsession (s : os) : list (list fan) -> list shape -> Prop :=
| FSNil : fsession s [] []
| FSBatch rs rss sh sh' e : fbatch s 0 rs sh e -> fsession s rss sh' -> fsession s (rs :: rss) (sh ++ sh').

(** The events shown in a trace. *)
Definition shown (o : trace) : list shape := map shape_of (callbacks o).

(** Independent specification of what the inotify adapter owes its user:
    kernel records, their byte layout (inotify(7)), and the events a batch of
    records must produce. *)
From Verif Require Import Base EventModel Sys.

(** ** Kernel records *)

(** What a record reports. *)
Inductive kind :=
| KAccess | KModify | KAttrib | KCloseWrite | KCloseNoWrite | KOpen
| KMovedFrom | KMovedTo | KCreate | KDelete | KDeleteSelf | KMoveSelf
| KUnmount | KOverflow | KIgnored.

(** inotify(7), <sys/inotify.h>. *)
Definition kind_bit (k : kind) : N :=
  match k with
  | KAccess => 0x1 | KModify => 0x2 | KAttrib => 0x4 | KCloseWrite => 0x8
  | KCloseNoWrite => 0x10 | KOpen => 0x20 | KMovedFrom => 0x40 | KMovedTo => 0x80
  | KCreate => 0x100 | KDelete => 0x200 | KDeleteSelf => 0x400 | KMoveSelf => 0x800
  | KUnmount => 0x2000 | KOverflow => 0x4000 | KIgnored => 0x8000
  end%N.

Record krec := {
  k_wd : Z;          (* watch descriptor *)
  k_kind : kind;
  k_dir : bool;      (* the subject is a directory *)
  k_cookie : N;      (* relates the two halves of a rename *)
  k_name : text;     (* entry name; empty when the record is about the directory itself *)
  k_pad : nat;       (* NUL bytes after the name *)
}.

Definition k_mask (r : krec) : N :=
  (kind_bit (k_kind r) + if k_dir r then 0x40000000 else 0)%N.

(** Records about an entry of the watched directory. *)
Definition names_entry (k : kind) : bool :=
  match k with
  | KModify | KMovedFrom | KMovedTo | KCreate | KDelete => true
  | _ => false
  end.

(** What the kernel guarantees of each record of a directory watch. *)
Record krec_ok (r : krec) : Prop := {
  ok_wd : (-2147483648 <= k_wd r < 2147483648)%Z;
  ok_cookie : (k_cookie r < 4294967296)%N;
  ok_len : (N.of_nat (length (k_name r) + k_pad r) < 4294967296)%N;
  ok_name : Forall (fun b => b <> 0 /\ b <> 47)%N (k_name r);
  ok_pad : k_name r <> [] -> (0 < k_pad r)%nat;
  ok_named : names_entry (k_kind r) = true -> k_name r <> [];
}.

(** Byte layout: wd, mask, cookie, len, name, padding. *)
Definition encode_rec (r : krec) : text :=
  le_bytes 4 (of_i32 (k_wd r)) ++ le_bytes 4 (k_mask r) ++ le_bytes 4 (k_cookie r)
  ++ le_bytes 4 (N.of_nat (length (k_name r) + k_pad r))
  ++ k_name r ++ repeat 0%N (k_pad r).
Definition encode (rs : list krec) : text := flat_map encode_rec rs.

(** ** Events without their times *)
Inductive shape :=
| Sh (path : text) (effect : effect_type) (ptype : path_type) (assoc : option shape).
Fixpoint shape_of (e : event) : shape :=
  match e with
  | Ev p f t _ a => Sh p f t (match a with Some b => Some (shape_of b) | None => None end)
  end.

Definition warning (m : string) (path : text) : shape := Sh (lit m ++ path) EtOther PtWatcher None.

(** An entry of a directory: one slash between the two, none added when the
    directory path already ends in one (the root) or is empty. *)
Definition entry (dir name : text) : text :=
  match dir with
  | [] => name
  | _ => if (last dir 0 =? 47)%N then dir ++ name else dir ++ lit "/" ++ name
  end.

Definition type_of (r : krec) : path_type := if k_dir r then PtDir else PtFile.

Definition effect_of (k : kind) : option effect_type :=
  match k with
  | KCreate => Some EtCreate
  | KDelete => Some EtDestroy
  | KModify => Some EtModify
  | KMovedFrom | KMovedTo => Some EtRename
  | _ => None
  end.

(** The two halves of one rename. *)
Definition rename_pair (r n : krec) : Prop :=
  k_kind r = KMovedFrom /\ k_kind n = KMovedTo /\ k_cookie n = k_cookie r /\ k_cookie r <> 0%N.

(** ** What a batch must do *)

(** Visible steps: something shown to the user, or a directory marked. *)
Inductive item :=
| Shown (s : shape)
| Marked (wd : Z) (dir : text).

(** The visible steps in a trace. *)
Fixpoint items (o : trace) : list item :=
  match o with
  | [] => []
  | OCallback ev :: o' => Shown (shape_of ev) :: items o'
  | OAddWatch _ p _ wd :: o' => if (0 <? wd)%Z then Marked wd p :: items o' else items o'
  | _ :: o' => items o'
  end.

(** Which directory each watch descriptor stands for. *)
Definition dirs := Z -> option text.
Definition learn (known : dirs) (wd : Z) (d : text) : dirs :=
  fun k => match known k with Some x => Some x | None => if (k =? wd)%Z then Some d else None end.

(** The system resolved [path] to [real] at some time. *)
Definition resolves (s : os) (path real : text) : Prop := exists tr, os_realpath s tr path = Some real.

(** The mark of a new directory: either marked or warned about. *)
Inductive marks (s : os) (known : dirs) (path : text) : list item -> dirs -> Prop :=
| MarkDone wd real : (0 < wd)%Z -> resolves s path real ->
    marks s known path [Marked wd real] (learn known wd real)
| MarkFailed : marks s known path [Shown (warning "w/sys/not_watched@" path)] known.

(** [batch loose known rs is known']: a batch of records [rs], read while [known]
    holds, produces the visible steps [is] and ends knowing [known'].
    With [loose = true] the new path of a rename is wrongly placed in the
    old path's directory; the claim of C20-C22 is [loose = false]. *)
Inductive batch (s : os) (loose : bool) : dirs -> list krec -> list item -> dirs -> Prop :=
| BNil known : batch s loose known [] [] known
  (* a record for a directory we do not know *)
| BPhantom known r rs is known' :
    known (k_wd r) = None ->
    batch s loose known rs is known' ->
    batch s loose known (r :: rs) (Shown (warning "w/sys/phantom@" []) :: is) known'
  (* the kernel dropped records *)
| BOverflow known d r rs is known' :
    known (k_wd r) = Some d -> k_kind r = KOverflow ->
    batch s loose known rs is known' ->
    batch s loose known (r :: rs) (Shown (warning "w/sys/q_overflow@" d) :: is) known'
  (* nothing of interest *)
| BSilent known d r rs is known' :
    known (k_wd r) = Some d -> effect_of (k_kind r) = None -> k_kind r <> KOverflow ->
    batch s loose known rs is known' ->
    batch s loose known (r :: rs) is known'
  (* a rename within the watched tree: one event from the old to the new path *)
| BRename known d d' r n rs is known' :
    rename_pair r n -> known (k_wd r) = Some d -> (if loose then d' = d else known (k_wd n) = Some d') ->
    batch s loose known rs is known' ->
    batch s loose known (r :: n :: rs)
      (Shown (Sh (entry d (k_name r)) EtRename (type_of r)
                (Some (Sh (entry d' (k_name n)) EtRename (type_of n) None))) :: is) known'
  (* a new directory: marked, then announced *)
| BNewDir known d r rs ms is known1 known' :
    known (k_wd r) = Some d -> k_kind r = KCreate -> k_dir r = true ->
    marks s known (entry d (k_name r)) ms known1 ->
    batch s loose known1 rs is known' ->
    batch s loose known (r :: rs)
      (ms ++ Shown (Sh (entry d (k_name r)) EtCreate PtDir None) :: is) known'
  (* anything else of interest: one event *)
| BOne known d f r rs is known' :
    known (k_wd r) = Some d -> effect_of (k_kind r) = Some f ->
    ~ (k_kind r = KCreate /\ k_dir r = true) ->
    (forall n rs', rs = n :: rs' -> ~ rename_pair r n) ->
    batch s loose known rs is known' ->
    batch s loose known (r :: rs) (Shown (Sh (entry d (k_name r)) f (type_of r) None) :: is) known'.

(** What we know after the batch: its self-deleted directories are forgotten. *)
Definition forget_deleted (rs : list krec) (known : dirs) : dirs :=
  fun k => if existsb (fun r => (k_wd r =? k)%Z && match k_kind r with KDeleteSelf => true | _ => false end) rs
           then None else known k.

(** The kernel's ordering promises for renames: the moved-to half never comes
    right before its moved-from half, and both halves agree about being a
    directory. *)
Definition renames_ordered (rs : list krec) : Prop :=
  forall a r n b, rs = a ++ r :: n :: b ->
    ~ rename_pair n r /\ (rename_pair r n -> k_dir n = k_dir r).

(** Both halves of each rename in the batch are in the same directory. *)
Definition renames_local (rs : list krec) : Prop :=
  forall a r n b, rs = a ++ r :: n :: b -> rename_pair r n -> k_wd n = k_wd r.

(** ** Whole runs *)

(** What the kernel promises of one batch. *)
Record batch_ok (rs : list krec) : Prop := {
  bo_recs : Forall krec_ok rs;
  bo_size : (length (encode rs) <= N.to_nat 4096)%nat;
  bo_order : renames_ordered rs;
}.

(** Every read returns "try again" or a batch of whole records.  Unless [loose],
    no batch holds a rename from one directory into another. *)
Definition inotify_kernel (loose : bool) (s : os) : Prop :=
  forall tr fd n, let r := os_read s tr fd n in
    (rd_len r = -1 /\ rd_errno r = 11)%Z \/
    exists rs, batch_ok rs /\ (loose = false -> renames_local rs) /\
      rd_len r = Z.of_nat (length (encode rs)) /\ rd_bytes r = encode rs.

(** The bytes that successful reads returned, in order. *)
Fixpoint reads (o : trace) : list text :=
  match o with
  | [] => []
  | ORead _ r :: o' => if (0 <=? rd_len r)%Z then rd_bytes r :: reads o' else reads o'
  | _ :: o' => reads o'
  end.

(** The reads in [o] returned exactly these batches. *)
Definition gave (o : trace) (rss : list (list krec)) : Prop :=
  reads o = map encode rss /\ Forall batch_ok rss.

(** Successive batches. *)
Inductive session (s : os) (loose : bool) : dirs -> list (list krec) -> list item -> Prop :=
| SNil known : session s loose known [] []
| SBatch known rs rss is is' known' :
    batch s loose known rs is known' -> session s loose (forget_deleted rs known') rss is' ->
    session s loose known (rs :: rss) (is ++ is').

(** Which directories a list of steps taught us. *)
Fixpoint learn_all (known : dirs) (is : list item) : dirs :=
  match is with
  | [] => known
  | Marked wd d :: is' => learn_all (learn known wd d) is'
  | _ :: is' => learn_all known is'
  end.
Definition nowhere : dirs := fun _ => None.

(** ** The watched tree (C27) *)

(** [p] is [root] or lies below it. *)
Definition slashed (root : text) : text := if (last root 0 =? 47)%N then root else root ++ lit "/".
Definition inside (root p : text) : Prop := p = root \/ exists rest, p = slashed root ++ rest.

(** No path of the tree resolves to a place outside it; the system's paths
    fit into PATH_MAX - 1 bytes. *)
Record contained (s : os) (root real : text) : Prop := {
  ct_nonempty : root <> [] /\ real <> [];
  ct_root : forall tr p q, os_realpath s tr p = Some q -> inside root p -> inside real q;
  ct_real : forall tr p q, os_realpath s tr p = Some q -> inside real p -> inside real q;
  ct_fits : forall tr p, os_opendir s tr p <> None -> (length p <= N.to_nat 4095)%nat;
}.

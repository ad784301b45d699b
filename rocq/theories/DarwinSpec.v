(** Independent specification for the Darwin adapter (C37-C41): how a log is
    read. *)
From Verif Require Import Base PathModel EventModel InotifySpec Mon DarwinModel.

(** A record with what became of it: the question about the existence of a path,
    and the events. *)
Record rep := Rep { r_path : text; r_flags : N; r_asked : option (text * bool); r_events : list shape }.
(** The events, and the question, up to the next record. *)
Fixpoint mine (o : list dobs) : list shape :=
  match o with
  | [] | DRec _ _ :: _ => []
  | DCb e :: o' => shape_of e :: mine o'
  | _ :: o' => mine o'
  end.
Fixpoint asked (o : list dobs) : option (text * bool) :=
  match o with
  | [] | DRec _ _ :: _ => None
  | DAccess p b :: _ => Some (p, b)
  | _ :: o' => asked o'
  end.
Fixpoint reports (o : list dobs) : list rep :=
  match o with
  | [] => []
  | DRec p fl :: o' => Rep p fl (asked o') (mine o') :: reports o'
  | _ :: o' => reports o'
  end.

(** All events of a log, as shapes. *)
Fixpoint dshown (o : list dobs) : list shape :=
  match o with [] => [] | DCb e :: o' => shape_of e :: dshown o' | _ :: o' => dshown o' end.

(** The creations and destructions of a path among events. *)
Definition sh_path (x : shape) : text := match x with Sh p _ _ _ => p end.
Definition sh_effect (x : shape) : effect_type := match x with Sh _ f _ _ => f end.
Definition is_mark (p : text) (x : shape) : bool :=
  text_eqb p (sh_path x) && match sh_effect x with EtCreate | EtDestroy => true | _ => false end.
Definition marks (p : text) (xs : list shape) : list effect_type := map sh_effect (filter (is_mark p) xs).
(** The latest of them is a creation. *)
Definition alive (p : text) (h : list rep) : bool :=
  match rev (marks p (flat_map r_events h)) with EtCreate :: _ => true | _ => false end.

(** The bits of FSEvents.h. *)
Definition b_created (fl : N) := N.testbit fl 8.
Definition b_removed (fl : N) := N.testbit fl 9.
Definition b_inodemeta (fl : N) := N.testbit fl 10.
Definition b_renamed (fl : N) := N.testbit fl 11.
(** modified, Finder information, owner, extended attributes *)
Definition b_content (fl : N) := N.testbit fl 12 || N.testbit fl 13 || N.testbit fl 14 || N.testbit fl 15.
Definition b_known (fl : N) := b_created fl || b_removed fl || b_inodemeta fl || b_renamed fl || b_content fl.
(** file, directory, symbolic link, hard link, last hard link *)
Definition b_type (fl : N) : path_type :=
  if N.testbit fl 16 then PtFile
  else if N.testbit fl 17 then PtDir
  else if N.testbit fl 18 then PtSymLink
  else if N.testbit fl 20 || N.testbit fl 21 then PtHardLink
  else PtOther.

Definition is_rename (x : shape) : bool := match sh_effect x with EtRename => true | _ => false end.
(** The rename events of a record; the records flagged as renamed. *)
Definition renames_of (r : rep) : list shape := filter is_rename (r_events r).
Definition flagged_renamed (h : list rep) : list rep := filter (fun r => b_renamed (r_flags r)) h.

(** The records event_recv went through in a piece of log. *)
Fixpoint recs (o : list dobs) : list record :=
  match o with [] => [] | DRec p fl :: o' => (p, fl) :: recs o' | _ :: o' => recs o' end.

(** [P] inevitably becomes true: as long as it is not, something can happen, and
    whatever happens leads on to it. *)
Inductive comes_to {W : Type} (step : W -> W -> Prop) (P : W -> Prop) (w : W) : Prop :=
| Come_now : P w -> comes_to step P w
| Come_later : (exists w', step w w') -> (forall w', step w w' -> comes_to step P w') -> comes_to step P w.
(** A step that is not a new change in the filesystem. *)
Definition no_change (s : dfs) (w w' : dworld) : Prop := dstep s w w' /\ next w' = next w.

(** Independent specification for the Windows adapter (C42-C44, C57): the records
    of ReadDirectoryChangesW, and how a log is read. *)
From Verif Require Import Base EventModel InotifySpec Mon WindowsModel.
From Verif Require Sys.

(** ** Records *)
(** FILE_NOTIFY_INFORMATION: action, name in UTF-16, padding behind it. *)
Record wrec := { w_action : N; w_name : text; w_pad : nat }.
Definition w_size (r : wrec) : N := (12 + 2 * N.of_nat (length (w_name r)) + N.of_nat (w_pad r))%N.
Record wrec_ok (r : wrec) : Prop := {
  wo_action : (w_action r < 2 ^ 32)%N;
  wo_size : (w_size r < 2 ^ 32)%N;
  wo_name : Forall (fun u => u < 65536)%N (w_name r);
}.
(** Offset to the next record (zero in the last), action, name length in bytes,
    name, padding. *)
Definition w_bytes (next : N) (r : wrec) : text :=
  Sys.le_bytes 4 next ++ Sys.le_bytes 4 (w_action r) ++ Sys.le_bytes 4 (2 * N.of_nat (length (w_name r)))
  ++ flat_map (Sys.le_bytes 2) (w_name r) ++ repeat 0%N (w_pad r).
Fixpoint w_encode (rs : list wrec) : text :=
  match rs with
  | [] => []
  | [r] => w_bytes 0 r
  | r :: rs' => w_bytes (w_size r) r ++ w_encode rs'
  end.

(** FILE_ACTION_...: 1 added, 2 removed, 3 modified, 4 old name, 5 new name. *)
Definition is_old (r : wrec) : bool := (w_action r =? 4)%N.
Definition is_new (r : wrec) : bool := (w_action r =? 5)%N.
Definition action_effect (a : N) : effect_type :=
  match a with 1%N => EtCreate | 2%N => EtDestroy | 3%N => EtModify | 4%N | 5%N => EtRename | _ => EtOther end.
Definition dir_type (d : option bool) : path_type :=
  match d with Some true => PtDir | Some false => PtFile | None => PtOther end.

(** ** Logs *)
(** What became of a record: the path asked about, the answer, the events. *)
Record nrep := NRep { n_path : text; n_dir : option bool; n_events : list shape }.
Definition n_type (q : nrep) : path_type := dir_type (n_dir q).
(** The events up to the next record or the next read. *)
Fixpoint nmine (o : list nobs) : list shape :=
  match o with
  | [] | NIsDir _ _ :: _ | NRead _ :: _ => []
  | NCb e :: o' => shape_of e :: nmine o'
  | _ :: o' => nmine o'
  end.
Fixpoint nreports (o : list nobs) : list nrep :=
  match o with
  | [] => []
  | NIsDir p d :: o' => NRep p d (nmine o') :: nreports o'
  | _ :: o' => nreports o'
  end.
(** All events. *)
Fixpoint nshown (o : list nobs) : list shape :=
  match o with [] => [] | NCb e :: o' => shape_of e :: nshown o' | _ :: o' => nshown o' end.
(** Up to the first read. *)
Fixpoint until_read (o : list nobs) : list nobs :=
  match o with [] | NRead _ :: _ => [] | x :: o' => x :: until_read o' end.

(** The path of an entry of a directory: a backslash between the two, unless the
    directory's path is empty or ends in a backslash, slash or colon. *)
Definition win_entry (dir name : text) : text :=
  if existsb (N.eqb (last dir 58%N)) [92; 47; 58]%N then dir ++ name else dir ++ [92%N] ++ name.

(** One record is told rightly (renames aside). *)
Definition told (root : text) (r : wrec) (q : nrep) : Prop :=
  n_path q = win_entry root (w_name r) /\
  if is_old r || is_new r then forall x, In x (n_events q) -> match x with Sh _ f _ _ => f = EtRename end
  else n_events q = [Sh (n_path q) (action_effect (w_action r)) (n_type q) None].
(** The records of a buffer that are halves of a rename, with what became of them. *)
Definition halves (rs : list wrec) (qs : list nrep) : list (wrec * nrep) :=
  filter (fun x => is_old (fst x) || is_new (fst x)) (combine rs qs).
(** The rename event for two halves, in either order. *)
Definition joined (x y : wrec * nrep) : shape :=
  let (old, new) := if is_old (fst x) then (snd x, snd y) else (snd y, snd x) in
  Sh (n_path old) EtRename (n_type old) (Some (Sh (n_path new) EtRename (n_type new) None)).
Definition opposite (x y : wrec * nrep) : Prop :=
  is_old (fst x) = true /\ is_new (fst y) = true \/ is_new (fst x) = true /\ is_old (fst y) = true.

(** A handled completion: from the wait that brought it to the next look at the
    stop flag. *)
Definition handled (o l1 : list nobs) (bs : text) (l2 : list nobs) : Prop :=
  (exists b l3, o = l1 ++ NWait (WtDone bs) :: l2 ++ NState b :: l3) /\ (forall b, ~ In (NState b) l2).

(** ** Listening (C44) *)
(** A read is outstanding. *)
Fixpoint armed_from (a : bool) (o : list nobs) : bool :=
  match o with
  | [] => a
  | NRead (RdOk _) :: o' => armed_from true o'
  | NWait WtFail :: o' | NWait (WtDone _) :: o' => armed_from false o'
  | _ :: o' => armed_from a o'
  end.
Definition armed (o : list nobs) : bool := armed_from false o.
(** Only outstanding reads end. *)
Definition honest (s : nfs) : Prop := forall o, armed o = false -> nf_wait s o = WtNone.

(** The names in an event, with their types. *)
Definition names (ev : event) : list (text * path_type) :=
  (ev_path ev, ev_ptype ev) :: match ev with Ev _ _ _ _ (Some a) => [(ev_path a, ev_ptype a)] | _ => [] end.

(** Specification for C115-C119: a filesystem that others change on a Mac, what FSEvents says
    of the changes, and a user who keeps a picture of the tree with the events.

    Simplifications: a thing is a path with a type; what a directory that is moved into the
    tree contains is not said of it.  Written from FSEvents.h and Apple's File System Events
    programming guide, not from the adapter. *)
From Verif Require Import Base PathModel EventModel InotifySpec Mon DarwinModel DarwinSpec.

(** ** The filesystem *)
Inductive change :=
| CMake (p : text) (t : path_type)
| CDelete (p : text)
| CWrite (p : text)                   (* content, owner, extended attributes, Finder information *)
| CTouch (p : text)                   (* inode metadata: permissions, times *)
| CMove (p q : text)                  (* inside the tree; what was at [q] is gone *)
| CAway (p : text)                    (* moved out of the tree *)
| CInto (q : text) (t : path_type).   (* moved into it *)

Definition tree := text -> option path_type.
Definition put (w : tree) (p : text) (x : option path_type) : tree := fun r => if text_eqb r p then x else w r.
(** What comes after [p] in [r], if [r] is [p] or below it. *)
Definition rest_of (p r : text) : option text :=
  if text_eqb (firstn (length p) r) p then
    match skipn (length p) r with
    | [] => Some []
    | c :: x => if (c =? 47)%N then Some (c :: x) else None
    end
  else None.
Definition after (w : tree) (c : change) : tree :=
  match c with
  | CMake p t | CInto p t => put w p (Some t)
  | CDelete p => put w p None
  | CWrite _ | CTouch _ => w
  | CMove p q => fun r =>
      match rest_of q r with
      | Some x => w (p ++ x)
      | None => match rest_of p r with Some _ => None | None => w r end
      end
  | CAway p => fun r => match rest_of p r with Some _ => None | None => w r end
  end.
Definition afters (w : tree) (cs : list change) : tree := fold_left after cs w.
Definition is_there (w : tree) (p : text) : bool := match w p with Some _ => true | None => false end.
Definition type_at (w : tree) (p : text) : path_type := match w p with Some t => t | None => PtOther end.

(** Changes that can be made. *)
Definition can (w : tree) (c : change) : Prop :=
  match c with
  | CMake p t => w p = None /\ t <> PtWatcher
  | CInto q t => t <> PtWatcher
  | CDelete p | CWrite p | CTouch p => w p <> None
  | CMove p q => p <> [] /\ w p <> None /\ path_eqb p q = false /\ rest_of p q = None /\ rest_of q p = None
  | CAway p => w p <> None
  end.
Fixpoint cans (w : tree) (cs : list change) : Prop :=
  match cs with [] => True | c :: cs' => can w c /\ cans (after w c) cs' end.

(** ** What FSEvents says *)
(** The bit of a type; the last hard link is one, too. *)
Definition type_bit (t : path_type) : N :=
  match t with PtFile => 0x10000 | PtDir => 0x20000 | PtSymLink => 0x40000 | PtHardLink => 0x100000 | _ => 0 end.

(** Flags are gathered per path, may be repeated and may come late: a flag says that such a
    change of the path is among those made ([cs], from [w0]). *)
Definition hit (k : change -> Prop) (cs : list change) : Prop := exists c, In c cs /\ k c.
Definition makes (p : text) (c : change) : Prop := exists t, c = CMake p t.
Definition moves (p : text) (c : change) : Prop :=
  (exists q, c = CMove p q \/ c = CMove q p) \/ c = CAway p \/ exists t, c = CInto p t.
Definition about (p : text) (c : change) : Prop :=
  makes p c \/ c = CDelete p \/ c = CWrite p \/ c = CTouch p \/ moves p c.
(** At some time a thing of type [t] was at [p]. *)
Definition was (w0 : tree) (cs : list change) (p : text) (t : path_type) : Prop :=
  exists cs1 cs2, cs = cs1 ++ cs2 /\ afters w0 cs1 p = Some t.
Definition flags_true (w0 : tree) (cs : list change) (p : text) (fl : N) : Prop :=
  (b_known fl = true -> was w0 cs p (b_type fl)) /\
  (b_created fl = true -> hit (makes p) cs) /\
  (b_removed fl = true -> In (CDelete p) cs) /\
  (b_content fl = true -> In (CWrite p) cs) /\
  (b_renamed fl = true -> hit (moves p) cs).

(** [hist]: the changes made when the log has a length. *)
Definition grows_on (hist : nat -> list change) : Prop := forall n m, (n <= m)%nat -> exists more, hist m = hist n ++ more.
Record honest (w0 : tree) (hist : nat -> list change) (o : list dobs) : Prop := {
  ho_grows : grows_on hist;
  ho_flags : forall o1 i rs o2 p fl, o = o1 ++ DOccur i (Some rs) :: o2 -> In (p, fl) rs ->
    flags_true w0 (hist (length o1)) p fl;
  ho_there : forall o1 p b o2, o = o1 ++ DAccess p b :: o2 -> p <> [] -> b = is_there (afters w0 (hist (length o1))) p;
}.

(** What an event [x] says is true, when the log was [o1] before it.  Something was made, made
    and deleted, written at its path, of its type.  Of a rename event: both paths took part in
    moves (maybe not the same), they differ, and when both had taken part nothing was at the
    first one.  [other] is said of records of no known kind. *)
Definition true_event (w0 : tree) (hist : nat -> list change) (o1 : list dobs) (x : shape) : Prop :=
  let cs := hist (length o1) in
  match x with
  | Sh p EtCreate t None => hit (makes p) cs /\ was w0 cs p t
  | Sh p EtDestroy t None => hit (makes p) cs /\ In (CDelete p) cs /\ was w0 cs p t
  | Sh p EtModify t None => In (CWrite p) cs /\ was w0 cs p t
  | Sh p EtRename t (Some (Sh q EtRename t' None)) =>
      path_eqb p q = false /\ t' = t /\ was w0 cs q t /\
      exists n, (n <= length o1)%nat /\ hit (moves p) (hist n) /\ hit (moves q) (hist n) /\ is_there (afters w0 (hist n)) p = false
  | Sh p EtOther t None => exists fl, In (DRec p fl) o1 /\ b_known fl = false
  | _ => False
  end.

(** One change at a time: the records of a change name it alone, and are gone through before
    the next change.  This is the most a user can hope for. *)
Definition records (w : tree) (c : change) : list record :=
  match c with
  | CMake p t => [(p, N.lor 0x100 (type_bit t))]
  | CDelete p => [(p, N.lor 0x200 (type_bit (type_at w p)))]
  | CWrite p => [(p, N.lor 0x1000 (type_bit (type_at w p)))]
  | CTouch p => [(p, N.lor 0x400 (type_bit (type_at w p)))]
  | CMove p q => [(p, N.lor 0x800 (type_bit (type_at w p))); (q, N.lor 0x800 (type_bit (type_at w p)))]
  | CAway p => [(p, N.lor 0x800 (type_bit (type_at w p)))]
  | CInto q t => [(q, N.lor 0x800 (type_bit t))]
  end.
Inductive paced : tree -> list change -> list rep -> Prop :=
| Paced_nil w : paced w [] []
| Paced_cons w c cs rs h :
    Forall2 (fun x r => r_path r = fst x /\ r_flags r = snd x /\
                        forall q b, r_asked r = Some (q, b) -> q <> [] -> b = is_there (after w c) q) (records w c) rs ->
    paced (after w c) cs h -> paced w (c :: cs) (rs ++ h).

(** ** What a user wants to hear of each change *)
Definition event_for (w : tree) (c : change) : list shape :=
  match c with
  | CMake p t => [Sh p EtCreate t None]
  | CInto q t => [Sh q EtCreate t None]
  | CDelete p => [Sh p EtDestroy (type_at w p) None]
  | CAway p => [Sh p EtDestroy (type_at w p) None]
  | CWrite p => [Sh p EtModify (type_at w p) None]
  | CTouch p => []
  | CMove p q => [Sh p EtRename (type_at w p) (Some (Sh q EtRename (type_at w p) None))]
  end.
Fixpoint events_for (w : tree) (cs : list change) : list shape :=
  match cs with [] => [] | c :: cs' => event_for w c ++ events_for (after w c) cs' end.

(** The latest creation or deletion of [p] is a creation. *)
Definition made_last (p : text) (cs : list change) : bool :=
  fold_left (fun b c => match c with
                        | CMake q _ => if text_eqb q p then true else b
                        | CDelete q => if text_eqb q p then false else b
                        | _ => b end) cs false.
(** Changes the adapter has no trouble with: nothing leaves or enters the tree; nothing is
    made where something made was moved away from; and what is deleted was made there. *)
Definition easy_change (cs : list change) (c : change) : Prop :=
  match c with
  | CMake p _ => made_last p cs = false
  | CDelete p => made_last p cs = true
  | CAway _ | CInto _ _ => False
  | _ => True
  end.
Definition easy_going (cs : list change) : Prop := forall cs1 c cs2, cs = cs1 ++ c :: cs2 -> easy_change cs1 c.

(** A user's picture of the tree, with the events. *)
Definition seen_event (w : tree) (x : shape) : tree :=
  match x with
  | Sh p EtCreate t _ => put w p (Some t)
  | Sh p EtDestroy _ _ => put w p None
  | Sh p EtRename _ (Some (Sh q _ _ _)) => after w (CMove p q)
  | _ => w
  end.
Definition picture (w : tree) (xs : list shape) : tree := fold_left seen_event xs w.

(** Changes inside the tree. *)
Definition inside_tree (c : change) : Prop := match c with CAway _ | CInto _ _ => False | _ => True end.
(** What is told of a change after [cs]: as wanted, but of what is made where the latest
    creation or deletion was a creation, and of what is deleted where it was not, nothing. *)
Definition told_of (cs : list change) (w : tree) (c : change) : list shape :=
  match c with
  | CMake p _ => if made_last p cs then [] else event_for w c
  | CDelete p => if made_last p cs then event_for w c else []
  | _ => event_for w c
  end.
Fixpoint told_from (cs : list change) (w : tree) (later : list change) : list shape :=
  match later with [] => [] | c :: later' => told_of cs w c ++ told_from (cs ++ [c]) (after w c) later' end.
Definition typed (w : tree) : Prop := forall p, w p <> Some PtWatcher.

(** What the events and watchers of the bindings should be.  Written from
    watcher-c/include/wtr/watcher-c.h:10-24, watcher-nodejs/lib/watcher.ts:4-28 and
    the properties, not from the code that converts. *)
From Verif Require Import Base EventModel EventSpec Utf8Spec BindModel.

(** The codes documented for C. *)
Definition effect_c (e : effect_type) : Z :=
  match e with EtRename => 0 | EtModify => 1 | EtCreate => 2 | EtDestroy => 3 | EtOwner => 4 | EtOther => 5 end%Z.
Definition ptype_c (p : path_type) : Z :=
  match p with PtDir => 0 | PtFile => 1 | PtHardLink => 2 | PtSymLink => 3 | PtWatcher => 4 | PtOther => 5 end%Z.
(** The names documented for TypeScript. *)
Definition effect_ts (e : effect_type) : string :=
  match e with
  | EtRename => "rename" | EtModify => "modify" | EtCreate => "create"
  | EtDestroy => "destroy" | EtOwner => "owner" | EtOther => "other"
  end.
Definition ptype_ts (p : path_type) : string :=
  match p with
  | PtDir => "dir" | PtFile => "file" | PtHardLink => "hardLink"
  | PtSymLink => "symLink" | PtWatcher => "watcher" | PtOther => "other"
  end.

(** The path of the associated event, if there is one. *)
Definition assoc_path (e : event) : option text := match ev_assoc e with Some a => Some (ev_path a) | None => None end.
(** Every path of the event a binding shows satisfies [P]. *)
Definition paths_ok (P : text -> Prop) (e : event) : Prop := P (ev_path e) /\ forall p, assoc_path e = Some p -> P p.
Definition no_nul (t : text) : Prop := ~ In 0%N t.

(** The C view of an event. *)
Definition c_mirrors (v : cview) (e : event) : Prop :=
  v_time v = ev_time e /\ v_path v = ev_path e /\ v_assoc v = assoc_path e /\
  v_effect v = effect_c (ev_effect e) /\ v_ptype v = ptype_c (ev_ptype e).
(** On Windows paths are UTF-16 and the view has UTF-8. *)
Definition is_utf16 (us : text) (cs : list N) : Prop := Forall scalar cs /\ us = utf16 cs.
Definition opt_rel {A B} (R : A -> B -> Prop) (a : option A) (b : option B) : Prop :=
  match a, b with Some x, Some y => R x y | None, None => True | _, _ => False end.
Definition win_text (bs us : text) : Prop := exists cs, is_utf8 bs cs /\ is_utf16 us cs.
Definition c_mirrors_win (v : cview) (e : event) : Prop :=
  v_time v = ev_time e /\ win_text (v_path v) (ev_path e) /\ opt_rel win_text (v_assoc v) (assoc_path e) /\
  v_effect v = effect_c (ev_effect e) /\ v_ptype v = ptype_c (ev_ptype e).
(** A faithful WideCharToMultiByte: the UTF-8 of the text with a NUL, if it fits. *)
Definition faithful (wide : text -> N -> option text) : Prop :=
  forall cs room, Forall scalar cs -> ~ In 0%N cs -> wide (utf16 cs) room =
    if (N.of_nat (length (utf8 cs)) + 1 <=? room)%N then Some (utf8 cs ++ [0%N]) else None.

(** Rust and Python: paths decoded.  JavaScript: UTF-16, a number, names. *)
Definition mirrors (b : bevent) (e : event) : Prop :=
  b_time b = ev_time e /\ is_utf8 (ev_path e) (b_path b) /\
  opt_rel is_utf8 (assoc_path e) (b_assoc b) /\
  b_effect b = ev_effect e /\ b_ptype b = ev_ptype e.
Definition js_mirrors (j : jsevent) (e : event) : Prop :=
  j_time j = ev_time e /\ (exists cs, is_utf8 (ev_path e) cs /\ j_path j = utf16 cs) /\
  opt_rel (fun p u => exists cs, is_utf8 p cs /\ u = utf16 cs) (assoc_path e) (j_assoc j) /\
  j_effect j = Some (effect_ts (ev_effect e)) /\ j_ptype j = Some (ptype_ts (ev_ptype e)).
Definition valid_utf8 (t : text) : Prop := exists cs, is_utf8 t cs.

(** A number a double holds exactly: 53 significant bits. *)
Definition fits_double (z : Z) : Prop := exists m k, (0 <= k)%Z /\ (Z.abs m <= 2 ^ 53)%Z /\ z = (m * 2 ^ k)%Z.

(** Python's JSON: what a reader should get. *)
Definition py_event_as_json (e : bevent) : jv :=
  JObj [ (lit "effect_time", JNum (b_time e));
         (lit "path_name", JStr (b_path e));
         (lit "associated_path_name", match b_assoc e with Some a => JStr a | None => JNull end);
         (lit "effect_type", JStr (lit (effect_doc (b_effect e))));
         (lit "path_type", JStr (lit (ptype_doc (b_ptype e)))) ].

(** How often a call log has the C close of a handle. *)
Definition closes_of (h : nat) (cs : list ccall) : nat :=
  length (filter (fun c => match c with CClose (Some i) _ _ => Nat.eqb i h | _ => false end) cs).

(** A subsequence, in order. *)
Inductive subseq {A} : list A -> list A -> Prop :=
| Sub_nil : subseq [] []
| Sub_take x a b : subseq a b -> subseq (x :: a) (x :: b)
| Sub_skip x a b : subseq a b -> subseq a (x :: b).

(** Handles: the one a call closes; *)
Definition call_handle (c : ccall) : option nat := match c with CClose (Some i) _ _ => Some i | _ => None end.
(** How many watchers were opened. *)
Definition opens (cs : list ccall) : nat := length (filter (fun c => match c with COpen => true | _ => false end) cs).
(** Some close of [i] succeeded. *)
Definition closed_ok (i : nat) (l : list (ccall * bool)) : Prop := exists c, In (c, true) l /\ call_handle c = Some i.
(** Every handle was opened before it is closed. *)
Fixpoint opened_before (n : nat) (cs : list ccall) : Prop :=
  match cs with
  | [] => True
  | COpen :: cs' => opened_before (S n) cs'
  | CClose (Some i) _ _ :: cs' => (i < n)%nat /\ opened_before n cs'
  | CClose None _ _ :: cs' => opened_before n cs'
  end.

(** Model of the event object and its string conversions,
    include/wtr/watcher.hpp:57-351, and of the command line program's JSON,
    src/wtr/watcher/main.cpp:92-105. *)
From Verif Require Import Base PathModel.

(** include/wtr/watcher.hpp:71-78 *)
Inductive effect_type := EtRename | EtModify | EtCreate | EtDestroy | EtOwner | EtOther.

(** include/wtr/watcher.hpp:81-88 *)
Inductive path_type := PtDir | PtFile | PtHardLink | PtSymLink | PtWatcher | PtOther.

(** The integers the enumerators stand for (declaration order, :71-88); C++
    permits any [int] in such an enumeration, so the names below take raw
    integers. *)
Definition effect_code (e : effect_type) : Z :=
  match e with
  | EtRename => 0 | EtModify => 1 | EtCreate => 2
  | EtDestroy => 3 | EtOwner => 4 | EtOther => 5
  end%Z.

Definition path_code (p : path_type) : Z :=
  match p with
  | PtDir => 0 | PtFile => 1 | PtHardLink => 2
  | PtSymLink => 3 | PtWatcher => 4 | PtOther => 5
  end%Z.

(** include/wtr/watcher.hpp:90-100.  [associated] is owned ([unique_ptr]), so
    the object is a finite tree. *)
Inductive event :=
| Ev (path_name : text) (effect : effect_type) (ptype : path_type)
     (effect_time : Z) (associated : option event).

Definition ev_path (e : event) : text := match e with Ev p _ _ _ _ => p end.
Definition ev_effect (e : event) : effect_type := match e with Ev _ f _ _ _ => f end.
Definition ev_ptype (e : event) : path_type := match e with Ev _ _ t _ _ => t end.
Definition ev_time (e : event) : Z := match e with Ev _ _ _ t _ => t end.
Definition ev_assoc (e : event) : option event := match e with Ev _ _ _ _ a => a end.

(** Copy constructor, include/wtr/watcher.hpp:102-109: member-wise, the
    associated event is copied recursively into a new allocation. *)
Fixpoint ev_copy (from : event) : event :=
  match from with
  | Ev p f t tm a =>
      Ev p f t tm (match a with Some b => Some (ev_copy b) | None => None end)
  end.

(** Constructor from fields, :111-117.  The time is the clock's answer. *)
Definition ev_make (now : Z) (p : text) (f : effect_type) (t : path_type) : event :=
  Ev p f t now None.

(** Constructor from a base and an associated event, :119-123.  The time is a
    fresh clock reading, not the base's; [associated] is copied (the class has
    no move constructor). *)
Definition ev_pair (now : Z) (base assoc : event) : event :=
  Ev (ev_path base) (ev_effect base) (ev_ptype base) now (Some (ev_copy assoc)).

(** operator==, :130-136. *)
Fixpoint ev_eqb (l r : event) : bool :=
  match l, r with
  | Ev pl fl tl tml al, Ev pr fr tr tmr ar =>
      path_eqb pl pr && (tml =? tmr)%Z
      && (path_code tl =? path_code tr)%Z && (effect_code fl =? effect_code fr)%Z
      && match al, ar with
         | Some a, Some b => ev_eqb a b
         | None, None => true
         | _, _ => false
         end
  end.

(** operator!=, :138-141. *)
Definition ev_neqb (l r : event) : bool := negb (ev_eqb l r).

(** wtr_effect_type_to_str_lit, :150-159 (on the raw integer). *)
Definition effect_name_raw (z : Z) : text :=
  match z with
  | 0%Z => lit "rename"
  | 1%Z => lit "modify"
  | 2%Z => lit "create"
  | 3%Z => lit "destroy"
  | 4%Z => lit "owner"
  | 5%Z => lit "other"
  | _ => lit "other"
  end.

(** wtr_path_type_to_str_lit, :161-170 (on the raw integer). *)
Definition path_name_raw (z : Z) : text :=
  match z with
  | 0%Z => lit "dir"
  | 1%Z => lit "file"
  | 2%Z => lit "hard_link"
  | 3%Z => lit "sym_link"
  | 4%Z => lit "watcher"
  | 5%Z => lit "other"
  | _ => lit "other"
  end.

(** to<string>(effect_type), to<string>(path_type), :296-308. *)
Definition effect_name (e : effect_type) : text := effect_name_raw (effect_code e).
Definition ptype_name (p : path_type) : text := path_name_raw (path_code p).

(** The digits of a natural number, least significant first. *)
Fixpoint digits_rev (fuel : nat) (n : N) : text :=
  match fuel with
  | O => []
  | S f => (48 + n mod 10)%N :: (if (n / 10 =? 0)%N then [] else digits_rev f (n / 10)%N)
  end.

(** The text [std::to_chars] would write for an integer, given enough room. *)
Definition chars_of_N (n : N) : text := rev (digits_rev (S (N.size_nat n)) n).
Definition chars_of_Z (z : Z) : text :=
  if (z <? 0)%Z then 45%N :: chars_of_N (Z.to_N (- z)) else chars_of_N (Z.to_N z).

(** numeric_limits<long long>::digits10 + 1, :229. *)
Definition num_buflen : nat := 19.

(** num_to_str, :208-244.  [to_chars] fails when the text does not fit the
    buffer; on success the *whole* buffer is returned, zero padding included
    ([{buf.data(), buflen}]).  The wide branch zero-extends each unit, which is
    the identity on our code units. *)
Definition num_to_str (from : Z) : text :=
  let s := chars_of_Z from in
  if Nat.ltb num_buflen (length s) then []
  else s ++ repeat 0%N (num_buflen - length s).

Definition quoted (t : text) : text := lit """" ++ t ++ lit """".

(** wtr_event_to_str_cls_as_json, :172-197, for any character type (on POSIX,
    [path_name.string()] is the path's bytes).  The path is not escaped; only
    one level of association is shown. *)
Definition event_json (from : event) : text :=
  let etm := quoted (num_to_str (ev_time from)) in
  let ety := quoted (effect_name (ev_effect from)) in
  let pnm := quoted (ev_path from) in
  let pty := quoted (ptype_name (ev_ptype from)) in
  etm ++ lit ":{"
  ++ lit """effect_type"":" ++ ety ++ lit ","
  ++ lit """path_name"":" ++ pnm ++ lit ","
  ++ lit """path_type"":" ++ pty
  ++ (match ev_assoc from with
      | None => []
      | Some asc =>
          lit ",""associated""" ++ lit ":{"
          ++ lit """effect_type"":" ++ quoted (effect_name (ev_effect asc)) ++ lit ","
          ++ lit """path_name"":" ++ quoted (ev_path asc) ++ lit ","
          ++ lit """path_type"":" ++ quoted (ptype_name (ev_ptype asc)) ++ lit "}"
      end)
  ++ lit "}".

(** json, src/wtr/watcher/main.cpp:92-105. *)
Fixpoint cli_json (e : event) : text :=
  match e with
  | Ev p f t tm a =>
      let tails := match a with Some b => cli_json b | None => lit "null" end in
      lit "{""path_type"":" ++ quoted (ptype_name t)
      ++ lit ",""path_name"":" ++ quoted p
      ++ lit ",""effect_type"":" ++ quoted (effect_name f)
      ++ lit ",""effect_time"":" ++ num_to_str tm
      ++ lit ",""associated"":" ++ tails
      ++ lit "}"
  end.

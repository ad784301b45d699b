(** Independent specifications for events and their text: what the English
    properties C12-C17 talk about.  Nothing here refers to how the code works. *)
From Verif Require Import Base EventModel.

(** Two path texts name the same path for [std::filesystem] when they agree
    after replacing every run of slashes by one slash. *)
Fixpoint squeeze_from (after_slash : bool) (p : text) : text :=
  match p with
  | [] => []
  | c :: p' =>
      if (c =? 47)%N then
        if after_slash then squeeze_from true p' else c :: squeeze_from true p'
      else c :: squeeze_from false p'
  end.
Definition squeeze (p : text) : text := squeeze_from false p.
Definition same_path (p q : text) : Prop := squeeze p = squeeze q.

(** Two events agree in every component, at every depth. *)
Inductive same_event : event -> event -> Prop :=
| SameLeaf p q f t tm :
    same_path p q -> same_event (Ev p f t tm None) (Ev q f t tm None)
| SameNode p q f t tm a b :
    same_path p q -> same_event a b ->
    same_event (Ev p f t tm (Some a)) (Ev q f t tm (Some b)).

(** Decimal notation: an optional minus sign and digits without a needless
    leading zero, read in base ten. *)
Definition is_digit (c : N) : bool := (48 <=? c)%N && (c <=? 57)%N.
Definition dec_value (ds : text) : N := fold_left (fun acc d => acc * 10 + (d - 48))%N ds 0%N.
Definition is_decimal_N (t : text) (n : N) : Prop :=
  t <> [] /\ forallb is_digit t = true /\ dec_value t = n /\ (hd 0%N t = 48%N -> t = [48%N]).
Definition is_decimal (t : text) (z : Z) : Prop :=
  (0 <= z /\ is_decimal_N t (Z.to_N z))%Z \/
  (z < 0 /\ exists t', t = 45%N :: t' /\ is_decimal_N t' (Z.to_N (- z)))%Z.

(** ** A JSON reader (RFC 8259; numbers restricted to integers) *)

Inductive jv :=
| JNull
| JBool (b : bool)
| JNum (z : Z)
| JStr (t : text)
| JArr (l : list jv)
| JObj (l : list (text * jv)).

Definition is_ws (c : N) : bool := (c =? 32)%N || (c =? 9)%N || (c =? 10)%N || (c =? 13)%N.
Fixpoint skip_ws (t : text) : text :=
  match t with
  | c :: r => if is_ws c then skip_ws r else t
  | [] => []
  end.

Definition hex (c : N) : option N :=
  if (48 <=? c)%N && (c <=? 57)%N then Some (c - 48)%N
  else if (65 <=? c)%N && (c <=? 70)%N then Some (c - 55)%N
  else if (97 <=? c)%N && (c <=? 102)%N then Some (c - 87)%N
  else None.

Definition escape (c : N) : option N :=
  match c with
  | 34 | 92 | 47 => Some c          (* quote, backslash, slash *)
  | 98 => Some 8 | 102 => Some 12   (* b f *)
  | 110 => Some 10 | 114 => Some 13 | 116 => Some 9  (* n r t *)
  | _ => None
  end%N.

(** The rest of a string after the opening quote: contents and remaining text. *)
Fixpoint read_string (t : text) : option (text * text) :=
  match t with
  | [] => None
  | c :: r =>
      if (c =? 34)%N then Some ([], r)
      else if (c =? 92)%N then
        match r with
        | 117%N :: a :: b :: c' :: d :: r' =>
            match hex a, hex b, hex c', hex d, read_string r' with
            | Some x, Some y, Some z, Some w, Some (s, rest) =>
                Some ((x * 4096 + y * 256 + z * 16 + w)%N :: s, rest)
            | _, _, _, _, _ => None
            end
        | e :: r' =>
            match escape e, read_string r' with
            | Some x, Some (s, rest) => Some (x :: s, rest)
            | _, _ => None
            end
        | [] => None
        end
      else if (c <? 32)%N then None
      else match read_string r with
           | Some (s, rest) => Some (c :: s, rest)
           | None => None
           end
  end.

Fixpoint read_digits (t : text) : text * text :=
  match t with
  | c :: r => if is_digit c then let (d, rest) := read_digits r in (c :: d, rest) else ([], t)
  | [] => ([], [])
  end.

Definition read_int (t : text) : option (Z * text) :=
  let neg := match t with c :: _ => (c =? 45)%N | [] => false end in
  match read_digits (if neg then tl t else t) with
  | ([], _) => None
  | (d :: ds, rest) =>
      if (d =? 48)%N && negb (Nat.eqb (length ds) 0) then None   (* leading zero *)
      else let v := Z.of_N (dec_value (d :: ds)) in
           Some (if neg then (- v)%Z else v, rest)
  end.

Fixpoint strip (p t : text) : option text :=
  match p, t with
  | [], _ => Some t
  | a :: p', b :: t' => if (a =? b)%N then strip p' t' else None
  | _ :: _, [] => None
  end.

(** The text after the next token, when that token is the character [c]. *)
Definition eat (c : N) (t : text) : option text :=
  match skip_ws t with
  | d :: r => if (d =? c)%N then Some r else None
  | [] => None
  end.

Definition opt_bind {A B} (o : option A) (f : A -> option B) : option B :=
  match o with Some a => f a | None => None end.
Notation "'let?' p := o 'in' k" := (opt_bind o (fun x => let p := x in k))
  (at level 200, p pattern, o at level 100, k at level 200).

Fixpoint read_value (fuel : nat) (t : text) : option (jv * text) :=
  match fuel with
  | O => None
  | S f =>
      match skip_ws t with
      | [] => None
      | c :: r =>
          if (c =? 123)%N then       (* { *)
            match eat 125 r with     (* } *)
            | Some r' => Some (JObj [], r')
            | None => let? (ms, r') := read_members f r in Some (JObj ms, r')
            end
          else if (c =? 91)%N then   (* [ *)
            match eat 93 r with      (* ] *)
            | Some r' => Some (JArr [], r')
            | None => let? (vs, r') := read_elems f r in Some (JArr vs, r')
            end
          else if (c =? 34)%N then   (* quote *)
            let? (s, r') := read_string r in Some (JStr s, r')
          else if (c =? 110)%N then
            let? r' := strip (lit "ull") r in Some (JNull, r')
          else if (c =? 116)%N then
            let? r' := strip (lit "rue") r in Some (JBool true, r')
          else if (c =? 102)%N then
            let? r' := strip (lit "alse") r in Some (JBool false, r')
          else let? (z, r') := read_int (c :: r) in Some (JNum z, r')
      end
  end
with read_members (fuel : nat) (t : text) : option (list (text * jv) * text) :=
  match fuel with
  | O => None
  | S f =>
      let? r := eat 34 t in            (* quote *)
      let? (k, r1) := read_string r in
      let? r2 := eat 58 r1 in          (* : *)
      let? (v, r3) := read_value f r2 in
      match eat 44 r3 with             (* , *)
      | Some r4 => let? (ms, r5) := read_members f r4 in Some ((k, v) :: ms, r5)
      | None => let? r4 := eat 125 r3 in Some ([(k, v)], r4)
      end
  end
with read_elems (fuel : nat) (t : text) : option (list jv * text) :=
  match fuel with
  | O => None
  | S f =>
      let? (v, r3) := read_value f t in
      match eat 44 r3 with
      | Some r4 => let? (vs, r5) := read_elems f r4 in Some (v :: vs, r5)
      | None => let? r4 := eat 93 r3 in Some ([v], r4)
      end
  end.

(** Reads a complete JSON text. *)
Definition read_json (t : text) : option jv :=
  match read_value (S (length t)) t with
  | Some (v, rest) => match skip_ws rest with [] => Some v | _ => None end
  | None => None
  end.

(** Text a JSON string can hold without escaping. *)
Definition plain (t : text) : bool :=
  forallb (fun c => (32 <=? c)%N && negb (c =? 34)%N && negb (c =? 92)%N) t.

(** The times whose decimal notation has exactly nineteen characters and a
    positive sign: 2001-09-09T01:46:40Z up to the end of 64-bit time (2262). *)
Definition modern_time (z : Z) : Prop := (10 ^ 18 <= z < 2 ^ 63)%Z.

(** Every path in the event can be put in a JSON string unescaped. *)
Inductive plain_event : event -> Prop :=
| PlainLeaf p f t tm : plain p = true -> plain_event (Ev p f t tm None)
| PlainNode p f t tm a :
    plain p = true -> plain_event a -> plain_event (Ev p f t tm (Some a)).

Inductive modern_event : event -> Prop :=
| ModernLeaf p f t tm : modern_time tm -> modern_event (Ev p f t tm None)
| ModernNode p f t tm a :
    modern_time tm -> modern_event a -> modern_event (Ev p f t tm (Some a)).

(** The documented names. *)
Definition effect_doc (e : effect_type) : string :=
  match e with
  | EtRename => "rename" | EtModify => "modify" | EtCreate => "create"
  | EtDestroy => "destroy" | EtOwner => "owner" | EtOther => "other"
  end.
Definition ptype_doc (p : path_type) : string :=
  match p with
  | PtDir => "dir" | PtFile => "file" | PtHardLink => "hard_link"
  | PtSymLink => "sym_link" | PtWatcher => "watcher" | PtOther => "other"
  end.

(** What a reader should get from the text an event streams: the fields of one
    event, and of the associated one when present. *)
Definition fields_json (p : text) (f : effect_type) (t : path_type) : list (text * jv) :=
  [ (lit "effect_type", JStr (lit (effect_doc f)));
    (lit "path_name", JStr p);
    (lit "path_type", JStr (lit (ptype_doc t))) ].

Definition event_as_json (e : event) : list (text * jv) :=
  fields_json (ev_path e) (ev_effect e) (ev_ptype e)
  ++ match ev_assoc e with
     | None => []
     | Some a => [(lit "associated", JObj (fields_json (ev_path a) (ev_effect a) (ev_ptype a)))]
     end.

(** What a reader should get from a line of the command line program. *)
Fixpoint event_as_cli_json (e : event) : jv :=
  match e with
  | Ev p f t tm a =>
      JObj [ (lit "path_type", JStr (lit (ptype_doc t)));
             (lit "path_name", JStr p);
             (lit "effect_type", JStr (lit (effect_doc f)));
             (lit "effect_time", JNum tm);
             (lit "associated", match a with Some b => event_as_cli_json b | None => JNull end) ]
  end.

(** Model of the Rust command line program, watcher-rs/src/main.rs:1-16, and of the JSON the
    attributes in watcher-rs/src/lib.rs:21-53 make serde write.

    From outside the repository: serde's derived [Serialize] (an object with the fields in the
    order of declaration, the names of variants in snake_case, null for [None]) and
    serde_json's compact text.  Not modelled: a standard output that cannot be written to,
    and the time between a poll and the line (a line is written before the next poll). *)
From Verif Require Import Base EventModel BindModel BindLife.

(** serde_json's strings: quote, backslash and control characters are escaped, no others. *)
Definition hex_digit (n : N) : N := (if n <? 10 then 48 + n else 87 + n)%N.
Definition serde_char (c : N) : list N :=
  (if c =? 34 then [92; 34] else if c =? 92 then [92; 92]
   else if c =? 8 then [92; 98] else if c =? 9 then [92; 116] else if c =? 10 then [92; 110]
   else if c =? 12 then [92; 102] else if c =? 13 then [92; 114]
   else if c <? 32 then [92; 117; 48; 48; hex_digit (c / 16); hex_digit (c mod 16)]
   else [c])%N.
Definition serde_str (t : list N) : list N := quoted (flat_map serde_char t).
(** EffectType, PathType, lib.rs:21-42, with rename_all = "snake_case". *)
Definition serde_effect (e : effect_type) : list N :=
  match e with
  | EtRename => serde_str (lit "rename") | EtModify => serde_str (lit "modify") | EtCreate => serde_str (lit "create")
  | EtDestroy => serde_str (lit "destroy") | EtOwner => serde_str (lit "owner") | EtOther => serde_str (lit "other")
  end.
Definition serde_ptype (p : path_type) : list N :=
  match p with
  | PtDir => serde_str (lit "dir") | PtFile => serde_str (lit "file") | PtHardLink => serde_str (lit "hard_link")
  | PtSymLink => serde_str (lit "sym_link") | PtWatcher => serde_str (lit "watcher") | PtOther => serde_str (lit "other")
  end.
(** Event, lib.rs:44-53. *)
Definition rust_json (b : bevent) : list N :=
  lit "{" ++ serde_str (lit "effect_time") ++ lit ":" ++ chars_of_Z (b_time b)
  ++ lit "," ++ serde_str (lit "path_name") ++ lit ":" ++ serde_str (b_path b)
  ++ lit "," ++ serde_str (lit "associated_path_name") ++ lit ":" ++ (match b_assoc b with Some a => serde_str a | None => lit "null" end)
  ++ lit "," ++ serde_str (lit "effect_type") ++ lit ":" ++ serde_effect (b_effect b)
  ++ lit "," ++ serde_str (lit "path_type") ++ lit ":" ++ serde_ptype (b_ptype b) ++ lit "}".
(** show, main.rs:5-7, for each event the stream gives (for_each, :13). *)
Definition rust_shown (answers : list polled) : list N :=
  flat_map (fun a => match a with PItem b => rust_json b ++ [10%N] | _ => [] end) answers.

(** main, main.rs:10-15: the path, as the C side gets it.  std::env::args panics at an
    argument that is not UTF-8 when it comes to it; the first two are looked at. *)
Definition rust_main_path (argv : list text) : out text :=
  match argv with
  | prog :: a :: _ =>
      match decode prog, decode a with Some _, Some cs => rust_open cs | _, _ => Crash end
  | [prog] => match decode prog with Some _ => rust_open (lit ".") | None => Crash end
  | [] => rust_open (lit ".")
  end.

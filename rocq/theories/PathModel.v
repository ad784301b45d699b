(** Model of the parts of [std::filesystem::path] (POSIX) the code relies on. *)
From Verif Require Import Base.

Definition slash : N := 47.

(** The maximal runs between slashes; n slashes give n+1 segments. *)
Fixpoint segments (p : text) : list text :=
  match p with
  | [] => [[]]
  | c :: p' =>
      if (c =? slash)%N then [] :: segments p'
      else match segments p' with
           | s :: ss => (c :: s) :: ss
           | [] => [[c]] (* unreachable: [segments] is never empty *)
           end
  end.

Definition is_nil (t : text) : bool := match t with [] => true | _ => false end.

(** [path::is_absolute] / [has_root_directory] (POSIX). *)
Definition is_absolute (p : text) : bool :=
  match p with c :: _ => (c =? slash)%N | [] => false end.

(** The elements a [path] iterates over (ISO C++ [fs.path.itr]): the root
    directory, the file names, and an empty name after a trailing slash. *)
Definition path_elems (p : text) : list text :=
  let names := filter (fun s => negb (is_nil s)) (segments p) in
  (if is_absolute p then [[slash]] else [])
  ++ names
  ++ (match names with
      | [] => []
      | _ => if is_nil (last (segments p) []) then [[]] else []
      end).

Fixpoint texts_eqb (a b : list text) : bool :=
  match a, b with
  | [], [] => true
  | x :: a', y :: b' => text_eqb x y && texts_eqb a' b'
  | _, _ => false
  end.

(** [operator==(path const&, path const&)]: lexicographical comparison of the
    elements, used at include/wtr/watcher.hpp:132 and 606. *)
Definition path_eqb (p q : text) : bool := texts_eqb (path_elems p) (path_elems q).

(** [path::has_filename]: the path does not end in a slash and is not empty. *)
Definition has_filename (p : text) : bool :=
  match p with
  | [] => false
  | _ => negb (last p 0 =? slash)%N
  end.

(** [path::operator/] (POSIX, ISO C++ [fs.path.append]), used at
    include/wtr/watcher.hpp:1468. *)
Definition path_append (p q : text) : text :=
  if is_absolute q then q
  else if has_filename p then p ++ [slash] ++ q
  else p ++ q.

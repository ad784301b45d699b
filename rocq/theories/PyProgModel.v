(** Model of the Python program, watcher-py/watcher/watcher.py:205-213.  Texts on the standard
    output are lists of characters (scalar values); how print encodes them is not modelled.

    From outside the repository: an argument that is not UTF-8 becomes a string with lone
    surrogates (PEP 383), which [path.encode("utf-8")] (:178) refuses; an exception in a
    ctypes callback is written to the standard error and dropped.  Not modelled: when input()
    (:213) ends. *)
From Verif Require Import Base EventModel BindModel.

(** :206 and Watch.__init__, :177-179: the path as the C side gets it; [None]: the program is ended by an exception. *)
Definition py_main_path (argv : list text) : option text :=
  match argv with
  | _ :: a :: _ => match decode a with Some cs => py_open cs | None => None end
  | _ => py_open (lit ".")
  end.
(** callback_bridge, :173-175, and show, :208-210: what is written for these events. *)
Definition py_shown (evs : list event) : list N :=
  flat_map (fun e => match py_event (view_of e) with Some b => py_json b ++ [10%N] | None => [] end) evs.

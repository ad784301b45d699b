(** What rename(2), link(2) and unlink(2) promise, for names of files.  A system is three
    functions; a state says which file each name names, and each name lies on one mounted
    filesystem.  From outside of the repository (POSIX); directories as a whole, and other
    processes between two calls, are not described. *)
From Verif Require Import Base.

Definition files := text -> option N.
(** What a call does: its error, if any, and the files after it. *)
Record fsys := {
  f_mount : text -> N;
  f_rename : files -> text -> text -> option N * files;
  f_link : files -> text -> text -> option N * files;
  f_unlink : files -> text -> option N * files;
}.
Definition exdev : N := 18.

(** [s'] is [s] but for the names [a] and [b], which are as said. *)
Definition renamed (s : files) (a b : text) (s' : files) : Prop :=
  exists i, s a = Some i /\
  ((s b = Some i /\ forall p, s' p = s p) \/
   (s b <> Some i /\ s' b = Some i /\ s' a = None /\ forall p, p <> a -> p <> b -> s' p = s p)).
Definition moved (s : files) (a b : text) (s' : files) : Prop :=
  s' b = s a /\ s a <> None /\ s' a = None /\ forall p, p <> a -> p <> b -> s' p = s p.

Record posix (f : fsys) : Prop := {
  (* there is no file of the empty name *)
  px_rename_ok : forall s a b s', s [] = None -> f_rename f s a b = (None, s') ->
    f_mount f a = f_mount f b /\ b <> [] /\ renamed s a b s';
  px_rename_no : forall s a b e s', f_rename f s a b = (Some e, s') ->
    (forall p, s' p = s p) /\ (e = exdev -> f_mount f a <> f_mount f b);
  px_link_ok : forall s a b s', f_link f s a b = (None, s') ->
    f_mount f a = f_mount f b /\ s b = None /\ s' b = s a /\ s a <> None /\ forall p, p <> b -> s' p = s p;
  px_link_no : forall s a b e s', f_link f s a b = (Some e, s') -> forall p, s' p = s p;
  px_unlink_ok : forall s a s', f_unlink f s a = (None, s') -> s' a = None /\ forall p, p <> a -> s' p = s p;
  px_unlink_no : forall s a e s', f_unlink f s a = (Some e, s') -> forall p, s' p = s p;
}.

(** Model of devel/src/portable-destructive-rename/main.c:29-50.  [argv] are the arguments
    with the program's name.  Not modelled: the help's text (phelp, :7-27) but for where it is
    written, and perror's words but for the name given to it. *)
From Verif Require Import Base RenameSpec.

Inductive told := Help | Perror (call : text).
Record ended := { x_exit : N; x_told : list told; x_files : files }.

Definition rename_main (f : fsys) (argv : list text) (s : files) : ended :=
  let a := nth 1 argv [] in
  let b := nth 2 argv [] in
  if text_eqb a (lit "--help") then {| x_exit := 0; x_told := [Help]; x_files := s |}       (* :34-35 *)
  else match f_rename f s a b with                                                       (* :37 *)
  | (None, s1) => {| x_exit := 0; x_told := []; x_files := s1 |}
  | (Some e, s1) =>
      if (e =? exdev)%N                                                                    (* :40 *)
      then match f_link f s1 a b with                                                      (* :41 *)
           | (Some _, s2) => {| x_exit := 1; x_told := [Perror (lit "link")]; x_files := s2 |}
           | (None, s2) => match f_unlink f s2 a with                                      (* :43 *)
                           | (Some _, s3) => {| x_exit := 1; x_told := [Perror (lit "unlink")]; x_files := s3 |}
                           | (None, s3) => {| x_exit := 0; x_told := []; x_files := s3 |}
                           end
           end
      else {| x_exit := 1; x_told := [Perror (lit "rename")]; x_files := s1 |}             (* :48-49 *)
  end.

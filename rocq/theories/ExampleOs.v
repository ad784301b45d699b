(** A scripted system, for concrete cases and for refutations. *)
From Verif Require Import Base EventModel Sys InotifySpec.

Definition count (f : obs -> bool) (tr : trace) : nat := length (filter f tr).
Definition is_wait (x : obs) : bool := match x with OEpollWait _ _ => true | _ => false end.
Definition is_read (x : obs) : bool := match x with ORead _ _ => true | _ => false end.
Definition is_add (x : obs) : bool := match x with OAddWatch _ _ _ _ => true | _ => false end.

Definition again : rd := {| rd_len := -1; rd_bytes := []; rd_errno := 11 |}.
Definition gives (bs : text) : rd := {| rd_len := Z.of_nat (length bs); rd_bytes := bs; rd_errno := 0 |}.

(** The directories: a path and its entries. *)
Definition fs := list (text * list dirent).
Fixpoint fs_find (f : fs) (p : text) : option (list dirent) :=
  match f with
  | [] => None
  | (q, es) :: f' => if text_eqb p q then Some es else fs_find f' p
  end.
Definition sub (n : string) : dirent := {| de_name := lit n; de_type := 4 |}.
Definition file (n : string) : dirent := {| de_name := lit n; de_type := 8 |}.

(** [scripted uid f waits reads]: user [uid]; the directories [f], every path its
    own real path; descriptors 3 (events), 4 (epoll), 9 (handles); the stop
    descriptor is 5 by convention; the n-th wait and the n-th read answer as
    scripted, after that the stop is ready and reads would block; watch
    descriptors count up from 1. *)
Definition scripted (uid : Z) (f : fs) (waits : list (option (list Z))) (rds : list rd) : os := {|
  os_now := fun tr => Z.of_nat (length tr);
  os_geteuid := fun _ => uid;
  os_realpath := fun _ p => Some p;
  os_is_dir := fun _ _ => true;
  os_opendir := fun _ p => fs_find f p;
  os_inotify_init := fun _ => 3%Z;
  os_add_watch := fun tr _ _ _ => Z.of_nat (S (count is_add tr));
  os_fan_init := fun _ => 3%Z;
  os_fan_mark := fun _ _ _ _ => 0%Z;
  os_epoll_create := fun _ => 4%Z;
  os_epoll_ctl := fun _ _ _ => 0%Z;
  os_epoll_wait := fun tr _ => nth (count is_wait tr) waits (Some [5%Z]);
  os_read := fun tr _ _ => nth (count is_read tr) rds again;
  os_open_handle := fun _ _ => (9, 0)%Z;
  os_readlink := fun _ _ => Some (lit "/w");
|}.

(** A record, with [k_pad] such that the name is padded to a multiple of 16. *)
Definition kr (wd : Z) (k : kind) (dir : bool) (cookie : N) (name : string) : krec :=
  {| k_wd := wd; k_kind := k; k_dir := dir; k_cookie := cookie; k_name := lit name;
     k_pad := match name with EmptyString => 0 | _ => 16 - Nat.modulo (String.length name) 16 end |}.

Definition tree_w : fs := [(lit "/w", [sub "."; sub ".."; sub "d"; file "f"]); (lit "/w/d", [sub "."; sub ".."])].

(** Independent specification of the start of the Linux adapters (C33): a
    directory tree as the system shows it, and the directories to be marked. *)
From Verif Require Import Base EventModel Sys InotifySpec.

(** A readable directory (its real path) with its readable subdirectories. *)
Inductive tree := Tree (dir : text) (subs : list tree).
Definition root_dir (t : tree) : text := match t with Tree d _ => d end.

(** Parents before children. *)
Fixpoint preorder (t : tree) : list text :=
  match t with Tree d subs => d :: flat_map preorder subs end.

Fixpoint depth (t : tree) : nat :=
  match t with Tree _ subs => S (fold_right (fun t m => Nat.max (depth t) m) 0%nat subs) end.

(** A directory entry that is a subdirectory (DT_DIR = 4, not "." or ".."). *)
Definition is_sub (e : dirent) : Prop :=
  de_type e = 4%N /\ de_name e <> lit "." /\ de_name e <> lit "..".
Definition good_name (n : text) : Prop := n <> [] /\ Forall (fun b => b <> 0 /\ b <> 47)%N n.

(** [on_disk s p t]: the system shows the tree [t] at the path [p], and goes on
    doing so.  [lists s p d ents subs]: of the entries [ents] of the directory at
    [p] (really [d]), the readable subdirectories are [subs], in that order. *)
Inductive on_disk (s : os) : text -> tree -> Prop :=
| OnDisk p d ents subs :
    (forall tr, os_opendir s tr p = Some ents) ->
    (forall tr, os_realpath s tr p = Some d) -> (forall tr, os_is_dir s tr d = true) ->
    d <> [] -> lists s p d ents subs -> on_disk s p (Tree d subs)
with lists (s : os) : text -> text -> list dirent -> list tree -> Prop :=
| LNil p d : lists s p d [] []
| LOther p d e es subs : ~ is_sub e -> lists s p d es subs -> lists s p d (e :: es) subs
  (* vanished *)
| LGone p d e es subs :
    (length (p ++ lit "/" ++ de_name e) <= N.to_nat 4095)%nat ->
    (forall tr, os_realpath s tr (p ++ lit "/" ++ de_name e) = None) ->
    lists s p d es subs -> lists s p d (e :: es) subs
  (* not readable *)
| LDenied p d e es subs q :
    (length (p ++ lit "/" ++ de_name e) <= N.to_nat 4095)%nat ->
    (forall tr, os_realpath s tr (p ++ lit "/" ++ de_name e) = Some q) ->
    (forall tr, os_opendir s tr q = None) ->
    lists s p d es subs -> lists s p d (e :: es) subs
  (* a readable subdirectory *)
| LSub p d e es subs sub :
    is_sub e -> good_name (de_name e) ->
    (length (p ++ lit "/" ++ de_name e) <= N.to_nat 4095)%nat ->
    (forall tr, os_realpath s tr (p ++ lit "/" ++ de_name e) = Some (root_dir sub)) ->
    root_dir sub = entry d (de_name e) -> ~ In (root_dir sub) (map root_dir subs) ->
    on_disk s (root_dir sub) sub ->
    lists s p d es subs -> lists s p d (e :: es) (sub :: subs).

(** The directories a run offers to the kernel before it first waits. *)
Fixpoint offered (o : trace) : list text :=
  match o with
  | [] => []
  | OEpollWait _ _ :: _ => []
  | OAddWatch _ p _ _ :: o' | OFanMark _ p _ _ :: o' => p :: offered o'
  | _ :: o' => offered o'
  end.

(** An adapter could be opened. *)
Definition opened (o : trace) : Prop :=
  (exists fd, In (OFanInit fd) o /\ (0 < fd)%Z) \/ (exists fd, In (OInotifyInit fd) o /\ (0 <= fd)%Z).

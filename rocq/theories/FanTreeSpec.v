(** Which directories the fanotify adapter covers, in the environment of [FanWorldSpec]:
    what C111 and C112 say. *)
From Verif Require Import Base EventModel Sys InotifySpec FanotifySpec FanWorldSpec.

(** [path] leads to the directory [root], whose subdirectories are listed; no path is longer
    than PATH_MAX - 1. *)
Record fleads (w : fworld) (b : os) (path root : text) : Prop := {
  fl_real : forall tr, os_realpath b tr path = Some root;
  fl_opens : forall tr, exists ents, os_opendir b tr path = Some ents /\
    forall n, sound_name root n = true -> In (at_path root n) (fw_dirs w) -> In {| de_name := n; de_type := 4 |} ents;
  fl_join : forall tr n, In (at_path root n) (fw_dirs w) ->
    (length (path ++ lit "/" ++ n) <= N.to_nat 4095)%nat /\ os_realpath b tr (path ++ lit "/" ++ n) = Some (at_path root n) }.
(** The other answers show the directories as they are. *)
Record fshows (w : fworld) (b : os) : Prop := {
  fs_leads : forall p, In p (fw_dirs w) -> fleads w b p p;
  fs_isdir : forall tr p, In p (fw_dirs w) -> os_is_dir b tr p = true }.
(** They do so at every call, and [path] leads to [root]. *)
Definition watches_tree (e : fenv) (path root : text) : Prop :=
  forall tr, let w := at_call e tr in fshows w (fe_base e w) /\ fleads w (fe_base e w) path root.
(** The directories below [p]. *)
Inductive funder (dirs : list text) (p : text) : text -> Prop :=
| FUnderHere : In p dirs -> funder dirs p p
| FUnderSub n q : In p dirs -> sound_name p n = true -> funder dirs (at_path p n) q -> funder dirs p q.

(** The change [o] is made after the calls [tr] and before the next one. *)
Definition made (e : fenv) (tr : trace) (o : fop) : Prop :=
  exists before after, fe_ops e tr = before ++ o :: after /\ may (happens (state e tr) before) o = true.
(** In the run [o], each change of an entry of [p] made after the calls [a] is among those C107 is about. *)
Definition covered (e : fenv) (o a : trace) (p : text) : Prop :=
  forall b c x n k d, o = a ++ b ++ c -> c <> [] -> made e (a ++ b) x -> In (p, n, k, d) (touches x) ->
    In (at_path p n, k, d) (fw_log (state e o)).
Definition not_watched (o : trace) (p : text) : Prop := In (warning "w/sys/not_watched@" p) (shown o).

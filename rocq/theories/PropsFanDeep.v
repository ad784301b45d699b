(** C145, C146: the fanotify adapter while files and directories change, are moved and removed.
    The environment is [FanDeepSpec]; the adapter is that of [LinuxWatch], unchanged. *)
From Verif Require Import Base PathModel EventModel Sys SysFacts LinuxWatch InotifySpec InotifyRun FanotifySpec FanotifyFacts
  ExampleOs FanWorldSpec FanWorldRun PropsFanWorld FanDeepSpec FanDeepFacts FanDeepRun.

(** ** Concrete systems *)
Definition deep_base (waits : list (option (list Z))) (w : gworld) : os :=
  fan_base waits (FWorld (map fst (filter (fun d => snd d) (gw_dirs w))) (gw_files w) [] [] [] []).
(** Changes after the n-th wait, and after a directory was opened. *)
Definition deep_script (max : nat) (F : list text) (changes : list (list gop)) (opened : list gop) : genv := {|
  ge_fd := 3; ge_max := max; ge_start := gworld_start w_dirs F;
  ge_ops := fun tr => match count is_wait tr, rev tr with S i, OEpollWait _ _ :: _ => nth i changes [] | _, OOpenHandle _ _ _ :: _ => opened | _, _ => [] end;
  ge_deny := fun _ => false; ge_want := fun _ => 100%nat;
  ge_base := deep_base (repeat (Some [3%Z]) (length changes)) |}.
Lemma deep_script_ok max F c l : genv_ok (deep_script max F c l).
Proof.
  split; [cbn; lia|]. exists w_dirs, F. split; [reflexivity|]. split; [|cbn; lia].
  repeat (constructor; [split; discriminate|]). constructor.
Qed.
Definition deep_run (e : genv) (fuel : nat) (path : text) (il : Z) : trace := fst (linux_watch (gsystem e) fuel path il []).
Lemma deep_run_out e fuel path il : exists r, linux_watch (gsystem e) fuel path il [] = (deep_run e fuel path il, r).
Proof. unfold deep_run. destruct (linux_watch (gsystem e) fuel path il []) as [o r]. exists r. reflexivity. Qed.

(** ** C145 *)
(** Whatever becomes of the directories: an event about files tells of a change that happened to
    an entry of that name, of the kind it says and with the right type, in a directory that had
    that path since the records were last read (or that was removed just then and is shown with
    its last path and " (deleted)"). *)
Theorem C145_fanotify_paths_are_present e fuel path il : genv_ok e -> let o := deep_run e fuel path il in
  forall x ev y, o = x ++ OCallback ev :: y -> about_fs (shape_of ev) = true -> truly e x (shape_of ev).
Proof. intros He o. destruct (deep_run_out e fuel path il) as (r & E). exact (all_truly e He fuel path il o r E). Qed.
Print Assumptions C145_fanotify_paths_are_present.

(** A file is written and its directory renamed; then a file in another directory is written, and
    the directory renamed away as soon as it is opened; then a directory is removed then. *)
Definition moved_env : genv := deep_script 100 [lit "/w/d/f"] [[GWrite 7 (lit "/w/d") (lit "f"); GMove 7 true (lit "/w") (lit "d") (lit "/w") (lit "e")]] [].
Definition raced_env : genv := deep_script 100 [lit "/w/d/f"] [[GRemove 7 (lit "/w/d") (lit "f")]] [GRmdir 8 (lit "/w") (lit "d")].
Example C145_example : genv_ok moved_env /\ genv_ok raced_env /\
  shown (deep_run moved_env 20 (lit "/w") 5) =
    [Sh (lit "/w/e/f") EtModify PtFile None; Sh (lit "/w/d") EtRename PtDir (Some (Sh (lit "/w/e") EtRename PtDir None))] /\
  shown (deep_run raced_env 20 (lit "/w") 5) = [Sh (lit "/w/d (deleted)/f") EtDestroy PtFile None].
Proof. split; [apply deep_script_ok|]. split; [apply deep_script_ok|]. split; vm_compute; reflexivity. Qed.

(** ** C146 *)
(** The claim: every change of an entry of a watched directory is told by an event about it, or waits to be
    read, or its loss is announced.  What is proved: a change whose record was kept is told, or waits to be read,
    or was cut: its record was in a batch behind an overflow record, or behind (or in) an end of a move
    directly before a beginning, or behind a record whose directory was gone when the
    batch was handled (or its own directory was, or that of the record handled together with it). *)
Theorem C146_what_becomes_of_a_change_partial e fuel path il : genv_ok e -> let o := deep_run e fuel path il in
  forall i n k d, In (Did i n k d true) (gw_log (gstate e o)) ->
    mentioned e [] o i n \/ still_pending (gstate e o) i n k d \/ cut e o i n k d.
Proof. intros He o. destruct (deep_run_out e fuel path il) as (r & E). exact (all_accounted e He fuel path il o r E). Qed.
Print Assumptions C146_what_becomes_of_a_change_partial.
(** So a change whose record was kept is told or waits if in no batch something
    follows an overflow record or an end of a move is directly before a beginning, and as long as a batch is handled
    the directories of its records are there. *)
Theorem C146_fanotify_every_change_is_told_partial e fuel path il : genv_ok e -> let o := deep_run e fuel path il in
  steady e [] o -> Forall tidy (gw_batches (gstate e o)) ->
  forall i n k d, In (Did i n k d true) (gw_log (gstate e o)) -> mentioned e [] o i n \/ still_pending (gstate e o) i n k d.
Proof. intros He o. destruct (deep_run_out e fuel path il) as (r & E). exact (all_kept_told e He fuel path il o r E). Qed.
Print Assumptions C146_fanotify_every_change_is_told_partial.

Definition lively : list (list gop) :=
  [[GWrite 7 (lit "/w/d") (lit "f"); GMove 7 true (lit "/w") (lit "d") (lit "/w") (lit "e")];
   [GMake 7 false (lit "/w/e") (lit "x"); GMove 8 false (lit "/w") (lit "g") (lit "/w/e") (lit "h")];
   [GMove 7 true (lit "/w") (lit "e") (lit "/o") (lit "e"); GRemove 7 (lit "/o/e") (lit "x")]].
Definition lively_env : genv := deep_script 100 [lit "/w/d/f"; lit "/w/g"] lively [].
Example C146_example : genv_ok lively_env /\ let o := deep_run lively_env 20 (lit "/w") 5 in
  steady lively_env [] o /\ Forall tidy (gw_batches (gstate lively_env o)) /\
  gw_log (gstate lively_env o) = [Did 1 (lit "f") FModify false true; Did 0 (lit "d") FFrom true true; Did 0 (lit "e") FTo true true;
    Did 1 (lit "x") FCreate false true; Did 0 (lit "g") FFrom false true; Did 1 (lit "h") FTo false true;
    Did 0 (lit "e") FFrom true true; Did 1 (lit "x") FDelete false true] /\ gw_queue (gstate lively_env o) = [] /\
  fs_events o = [Sh (lit "/w/e/f") EtModify PtFile None; Sh (lit "/w/d") EtRename PtDir (Some (Sh (lit "/w/e") EtRename PtDir None));
    Sh (lit "/w/e/x") EtCreate PtFile None; Sh (lit "/w/g") EtRename PtFile (Some (Sh (lit "/w/e/h") EtRename PtFile None));
    Sh (lit "/w/e") EtRename PtDir None; Sh (lit "/o/e/x") EtDestroy PtFile None].
Proof.
  split; [apply deep_script_ok|]. cbv zeta. split; [|split; [|split; [|split]]]; [| |vm_compute; reflexivity..].
  - apply (steady_all_there _ (deep_script_ok _ _ _ _)). vm_compute. reflexivity.
  - set (b := gw_batches _). assert (Eb : exists l, b = map (map Chg) l /\ Forall uncrossed l).
    { set (l := map (flat_map (fun x => match x with Chg r => [r] | Ovf => [] end)) b). exists l. split; [vm_compute; reflexivity|].
      vm_compute in l. subst l. repeat constructor; unfold crossed; cbn; intros (H1 & H2 & H3 & H4); discriminate. }
    destruct Eb as (l & -> & Hl). apply Forall_map. eapply Forall_impl; [|exact Hl]. intros r Hr. exists r, []. rewrite app_nil_r. auto.
Qed.

(** A directory is removed with the file in it, and another file is written: of all three nothing is told,
    not even that something was lost, and the watcher goes on.  And a full queue: the last of three
    writes is lost, and nothing tells so. *)
Definition gone_env : genv :=
  deep_script 100 [lit "/w/d/f"; lit "/w/g"] [[GRemove 7 (lit "/w/d") (lit "f"); GRmdir 7 (lit "/w") (lit "d"); GWrite 8 (lit "/w") (lit "g")]] [].
Definition full_env : genv :=
  deep_script 2 [lit "/w/d/f"; lit "/w/g"; lit "/w/h"] [[GWrite 7 (lit "/w/d") (lit "f"); GWrite 7 (lit "/w") (lit "g"); GWrite 7 (lit "/w") (lit "h")]] [].
Theorem C146_fanotify_every_change_is_told_refuted :
  (exists e, genv_ok e /\ let o := deep_run e 20 (lit "/w") 5 in
     snd (linux_watch (gsystem e) 20 (lit "/w") 5 []) = Ok true /\ gw_queue (gstate e o) = [] /\ Forall tidy (gw_batches (gstate e o)) /\
     gw_log (gstate e o) = [Did 1 (lit "f") FDelete false true; Did 0 (lit "d") FDelete true true; Did 0 (lit "g") FModify false true] /\
     shown o = []) /\
  (exists e, genv_ok e /\ let o := deep_run e 20 (lit "/w") 5 in
     snd (linux_watch (gsystem e) 20 (lit "/w") 5 []) = Ok true /\ gw_queue (gstate e o) = [] /\
     gw_log (gstate e o) = [Did 1 (lit "f") FModify false true; Did 0 (lit "g") FModify false true; Did 0 (lit "h") FModify false false] /\
     shown o = [Sh (lit "/w/d/f") EtModify PtFile None; Sh (lit "/w/g") EtModify PtFile None]).
Proof.
  split.
  - exists gone_env. split; [apply deep_script_ok|]. cbv zeta. split; [vm_compute; reflexivity|]. split; [vm_compute; reflexivity|]. split; [|split; vm_compute; reflexivity].
    set (b := gw_batches _). assert (Eb : exists l, b = map (map Chg) l /\ Forall uncrossed l).
    { set (l := map (flat_map (fun x => match x with Chg r => [r] | Ovf => [] end)) b). exists l. split; [vm_compute; reflexivity|].
      vm_compute in l. subst l. repeat constructor; unfold crossed; cbn; intros (H1 & H2 & H3 & H4); discriminate. }
    destruct Eb as (l & -> & Hl). apply Forall_map. eapply Forall_impl; [|exact Hl]. intros r Hr. exists r, []. rewrite app_nil_r. auto.
  - exists full_env. split; [apply deep_script_ok|]. vm_compute. auto.
Qed.
Print Assumptions C146_fanotify_every_change_is_told_refuted.
(** The changes that were not told were cut: the records of the file and of its directory's removal and of the other
    file came in one batch, the first of them of a directory that was gone when it was read. *)
Example C146_cut_example : let o := deep_run gone_env 20 (lit "/w") 5 in
  cut gone_env o 0 (lit "g") FModify false /\ cut gone_env o 0 (lit "d") FDelete true /\ cut gone_env o 1 (lit "f") FDelete false.
Proof.
  cbv zeta. set (o := deep_run gone_env 20 (lit "/w") 5).
  assert (X : exists rd r1 r2 r3, o = firstn 17 o ++ ORead 3 rd :: [] ++ skipn 18 o /\ (0 < rd_len rd)%Z /\
    last (gw_batches (gstate gone_env ([] ++ firstn 17 o ++ [ORead 3 rd]))) [] = [Chg r1; Chg r2; Chg r3] /\
    nth_error (gw_dirs (gat_call gone_env ([] ++ firstn 17 o ++ [ORead 3 rd]))) 1 = Some (lit "/w/d", false) /\
    (rec_dir r1 = 1%N /\ f_name r1 = lit "f" /\ has FDelete r1 = true /\ f_dir r1 = false) /\ (rec_dir r2 = 0%N /\ f_name r2 = lit "d" /\ has FDelete r2 = true /\ f_dir r2 = true) /\
    (rec_dir r3 = 0%N /\ f_name r3 = lit "g" /\ has FModify r3 = true /\ f_dir r3 = false)).
  { unfold o. eexists. eexists. eexists. eexists. split; [vm_compute; reflexivity|]. split; [vm_compute; reflexivity|]. split; [vm_compute; reflexivity|].
    split; [vm_compute; reflexivity|]. split; [|split]; vm_compute; auto. }
  destruct X as (rd & r1 & r2 & r3 & Eo & Hl & El & Hd & R1 & R2 & R3). clearbody o.
  assert (C : forall b r b', [Chg r1; Chg r2; Chg r3] = b ++ Chg r :: b' -> cut_in gone_env [] o b r b').
  { intros b r b' Eb. exists (firstn 17 o), 3%Z, rd, [], (skipn 18 o). split; [exact Eo|]. split; [exact Hl|]. split; [constructor|]. split; [now rewrite El|].
    right. right. exists r1. split; [left; destruct b as [|z b]; cbn [app] in Eb; injection Eb as -> _; now left|].
    intros (p & Hp). destruct R1 as [R1 _]. unfold gdir in Hp. rewrite R1 in Hp. change (N.to_nat 1) with 1%nat in Hp. rewrite Hd in Hp. discriminate Hp. }
  split; [|split].
  - exists [Chg r1; Chg r2], r3, []. split; [now apply C|exact R3].
  - exists [Chg r1], r2, [Chg r3]. split; [now apply C|exact R2].
  - exists [], r1, [Chg r2; Chg r3]. split; [now apply C|exact R1].
Qed.

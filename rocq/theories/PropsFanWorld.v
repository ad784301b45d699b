(** C107-C110: the fanotify adapter while files change.  The environment ([FanWorldSpec]) is a
    filesystem that changes at every call of the watcher, and a kernel that joins and queues
    records, gives them out, and opens directory handles.  The adapter is that of [LinuxWatch],
    unchanged. *)
From Verif Require Import Base PathModel EventModel Sys SysFacts LinuxWatch InotifySpec InotifyRun FanotifySpec FanotifyFacts
  ExampleOs FanWorldSpec FanWorldFacts FanWorldRun FanWorldLast.

(** ** Concrete systems *)
(** The other answers: the directories of the world; descriptors 3 (fanotify) and 4 (epoll), 5 for
    the stop; the waits as scripted. *)
Definition below (p q : text) : list dirent :=
  let d := p ++ lit "/" in
  let n := skipn (length d) q in
  if text_eqb d (firstn (length d) q) && negb (text_eqb n []) && forallb (fun b => negb (b =? 47)%N) n then [{| de_name := n; de_type := 4 |}] else [].
Definition fan_base (waits : list (option (list Z))) (w : fworld) : os := {|
  os_now := fun tr => Z.of_nat (length tr);
  os_geteuid := fun _ => 0%Z;
  os_realpath := fun _ p => if mem p (fw_dirs w) || mem p (fw_files w) then Some p else None;
  os_is_dir := fun _ p => mem p (fw_dirs w);
  os_opendir := fun _ p => if mem p (fw_dirs w) then Some (sub "." :: sub ".." :: flat_map (below p) (fw_dirs w)) else None;
  os_inotify_init := fun _ => (-1)%Z;
  os_add_watch := fun _ _ _ _ => (-1)%Z;
  os_fan_init := fun _ => (-1)%Z;
  os_fan_mark := fun _ _ _ _ => (-1)%Z;
  os_epoll_create := fun _ => 4%Z;
  os_epoll_ctl := fun _ _ _ => 0%Z;
  os_epoll_wait := fun tr _ => nth (count is_wait tr) waits (Some [5%Z]);
  os_read := fun _ _ _ => again;
  os_open_handle := fun _ _ => (-1, 0)%Z;
  os_readlink := fun _ _ => None |}.
(** Changes after the n-th wait. *)
Definition fan_script (D F : list text) (changes : list (list fop)) : fenv := {|
  fe_fd := 3; fe_start := fworld_start D F;
  fe_ops := fun tr => match count is_wait tr, rev tr with S i, OEpollWait _ _ :: _ => nth i changes [] | _, _ => [] end;
  fe_deny := fun _ => false; fe_want := fun _ => 100%nat;
  fe_base := fan_base (repeat (Some [3%Z]) (length changes)) |}.
Definition w_dirs : list text := [lit "/w"; lit "/w/d"; lit "/o"].
Lemma fan_script_ok F c : (forall p, In p w_dirs -> ~ In p F) -> fenv_ok (fan_script w_dirs F c).
Proof.
  intros H. split; [cbn; lia|]. exists w_dirs, F. split; [reflexivity|]. split; [|split; [cbn; lia|exact H]].
  repeat (constructor; [split; discriminate|]). constructor.
Qed.
Definition fan_run (e : fenv) (fuel : nat) (path : text) (il : Z) : trace := fst (linux_watch (system e) fuel path il []).
Lemma fan_run_out e fuel path il : exists r, linux_watch (system e) fuel path il [] = (fan_run e fuel path il, r).
Proof. unfold fan_run. destruct (linux_watch (system e) fuel path il []) as [o r]. exists r. reflexivity. Qed.

(** ** C107 *)
(** The claim: every change of an entry of a watched directory is told by an event about it,
    or waits to be read.  What is proved: it is told, or waits to be read, or its record was read in one
    batch after an end of a move that was directly before a beginning, or as that beginning. *)
Theorem C107_what_becomes_of_a_change_partial e fuel path il : fenv_ok e -> let o := fan_run e fuel path il in
  forall p k d, In (p, k, d) (fw_log (state e o)) ->
    (exists x, In x (fs_events o) /\ mentions p x) \/ pending_for (state e o) p k d \/ behind_crossing (state e o) p k d.
Proof. intros He o. destruct (fan_run_out e fuel path il) as (r & E). exact (all_accounted e He fuel path il o r E). Qed.
Print Assumptions C107_what_becomes_of_a_change_partial.
(** So the claim holds when no batch has an end of a move directly before a beginning. *)
Theorem C107_fanotify_every_change_is_told_partial e fuel path il : fenv_ok e -> let o := fan_run e fuel path il in
  Forall uncrossed (fw_batches (state e o)) ->
  forall p k d, In (p, k, d) (fw_log (state e o)) ->
    (exists x, In x (fs_events o) /\ mentions p x) \/ pending_for (state e o) p k d.
Proof. intros He o Hu. destruct (fan_run_out e fuel path il) as (r & E). exact (all_mentioned e He fuel path il o r E Hu). Qed.
Print Assumptions C107_fanotify_every_change_is_told_partial.

(** Two files are saved by one process the careful way: written under another name and
    renamed.  The second of them is never told of, and the first is said to come from the second's
    temporary name. *)
Definition saves : list fop :=
  [FMake 7 false (lit "/w/d") (lit "t1"); FWrite 7 (lit "/w/d") (lit "t1"); FRename 7 (lit "/w/d") (lit "t1") (lit "/w/d") (lit "x1");
   FMake 7 false (lit "/w/d") (lit "t2"); FWrite 7 (lit "/w/d") (lit "t2"); FRename 7 (lit "/w/d") (lit "t2") (lit "/w/d") (lit "x2")].
Definition saves_env : fenv := fan_script w_dirs [lit "/w/d/x1"; lit "/w/d/x2"] [saves].
Theorem C107_fanotify_every_change_is_told_refuted :
  exists e, fenv_ok e /\ let o := fan_run e 20 (lit "/w") 5 in
    snd (linux_watch (system e) 20 (lit "/w") 5 []) = Ok true /\ fw_queue (state e o) = [] /\
    In (lit "/w/d/x2", FTo, false) (fw_log (state e o)) /\ (forall x, In x (shown o) -> ~ mentions (lit "/w/d/x2") x) /\
    In (Sh (lit "/w/d/t2") EtRename PtFile (Some (Sh (lit "/w/d/x1") EtRename PtFile None))) (shown o).
Proof.
  exists saves_env. split; [apply fan_script_ok; intros p [<-|[<-|[<-|[]]]] [?|[?|[]]]; discriminate|]. cbv zeta.
  split; [vm_compute; reflexivity|]. split; [vm_compute; reflexivity|]. split; [vm_compute; tauto|].
  set (l := shown _). assert (El : l = [Sh (lit "/w/d/t1") EtCreate PtFile None;
    Sh (lit "/w/d/t2") EtRename PtFile (Some (Sh (lit "/w/d/x1") EtRename PtFile None)); Sh (lit "/w/d/t2") EtCreate PtFile None]) by (vm_compute; reflexivity).
  rewrite El. clear. split; [|right; now left].
  intros x [<-|[<-|[<-|[]]]] [H|(q & f & t & a & H & Hq)]; try discriminate. injection H as <- _ _ _. discriminate Hq.
Qed.
Print Assumptions C107_fanotify_every_change_is_told_refuted.
(** It is as the theorem says: the end of the first save's move is directly before the beginning of the second's. *)
Example C107_crossed : behind_crossing (state saves_env (fan_run saves_env 20 (lit "/w") 5)) (lit "/w/d/x2") FTo false.
Proof.
  set (w := state _ _). assert (X : exists b r, fw_batches w = [b ++ [r]] /\ rec_path w r = lit "/w/d/x2" /\ has FTo r = true /\ f_dir r = false /\
    exists b1 r1 r2 b2, b ++ [r] = b1 ++ r1 :: r2 :: b2 /\ f_moves r1 = true /\ has FTo r1 = true /\ has FFrom r2 = true /\ has FFrom r1 = false).
  { assert (Y : exists r1 r2 r3 r4, fw_batches w = [[r1; r2; r3; r4]] /\ rec_path w r4 = lit "/w/d/x2" /\ has FTo r4 = true /\ f_dir r4 = false /\
      f_moves r2 = true /\ has FTo r2 = true /\ has FFrom r3 = true /\ has FFrom r2 = false).
    { do 4 eexists. split; [vm_compute; reflexivity|]. vm_compute. auto 10. }
    destruct Y as (r1 & r2 & r3 & r4 & E & A & B & C & D & F & G & H). exists [r1; r2; r3], r4. split; [exact E|]. split; [exact A|]. split; [exact B|]. split; [exact C|].
    exists [r1], r2, r3, [r4]. auto 10. }
  destruct X as (b & r & E & A & B & C & b1 & r1 & r2 & b2 & Eb & D & F & G & H). exists b, r, []. split; [rewrite E; now left|]. split; [exact A|]. split; [exact B|]. split; [exact C|].
  exists b1, r1, r2, b2. split; [exact Eb|]. split; [exact D|]. split; [exact F|]. split; [exact G|]. rewrite H. intros [? _]. discriminate.
Qed.

(** Files made, written and removed by two processes, one moved; a directory made and used. *)
Definition busy : list (list fop) :=
  [[FMake 7 false (lit "/w/d") (lit "f"); FWrite 7 (lit "/w/d") (lit "f"); FWrite 8 (lit "/w/d") (lit "f");
    FRename 8 (lit "/w") (lit "g") (lit "/w/d") (lit "g")];
   [FMake 7 true (lit "/w") (lit "n")];
   [FMake 7 false (lit "/w/n") (lit "x"); FMake 7 false (lit "/o") (lit "y"); FRemove 7 (lit "/w/d") (lit "f")]].
Definition busy_env : fenv := fan_script w_dirs [lit "/w/g"] busy.
Lemma busy_ok : fenv_ok busy_env.
Proof. apply fan_script_ok. intros p [<-|[<-|[<-|[]]]] [?|[]]; discriminate. Qed.
Example C107_example : fenv_ok busy_env /\ let o := fan_run busy_env 20 (lit "/w") 5 in
  Forall uncrossed (fw_batches (state busy_env o)) /\ length (fw_log (state busy_env o)) = 8%nat /\ fw_queue (state busy_env o) = [] /\
  fs_events o = [Sh (lit "/w/d/f") EtCreate PtFile None; Sh (lit "/w/d/f") EtModify PtFile None;
    Sh (lit "/w/g") EtRename PtFile (Some (Sh (lit "/w/d/g") EtRename PtFile None));
    Sh (lit "/w/n") EtCreate PtDir None; Sh (lit "/w/n/x") EtCreate PtFile None; Sh (lit "/w/d/f") EtDestroy PtFile None].
Proof.
  split; [exact busy_ok|]. cbv zeta. split; [|split; [|split]]; [|vm_compute; reflexivity..].
  set (b := fw_batches _). vm_compute in b. subst b. repeat constructor; unfold crossed; cbn; intros (H1 & H2 & H3 & H4); discriminate.
Qed.

(** ** C108 *)
(** Every event about a file tells of something that happened to it: of the kind it says, and the
    type is right; a rename from [p] to [q] only if [p] was moved away and something was moved to [q]. *)
Theorem C108_fanotify_events_happened e fuel path il : fenv_ok e -> let o := fan_run e fuel path il in
  forall x, In x (fs_events o) -> happened (fw_log (state e o)) x.
Proof. intros He o. destruct (fan_run_out e fuel path il) as (r & E). exact (all_happened e He fuel path il o r E). Qed.
Print Assumptions C108_fanotify_events_happened.
Example C108_example : let o := fan_run saves_env 20 (lit "/w") 5 in
  length (fs_events o) = 3%nat /\ happened (fw_log (state saves_env o)) (Sh (lit "/w/d/t2") EtRename PtFile (Some (Sh (lit "/w/d/x1") EtRename PtFile None))) /\
  ~ happened (fw_log (state saves_env o)) (Sh (lit "/w/d/x2") EtModify PtFile None).
Proof.
  cbv zeta. split; [vm_compute; reflexivity|]. set (l := fw_log _).
  assert (El : l = [(lit "/w/d/t1", FCreate, false); (lit "/w/d/t1", FModify, false); (lit "/w/d/t1", FFrom, false); (lit "/w/d/x1", FTo, false);
    (lit "/w/d/t2", FCreate, false); (lit "/w/d/t2", FModify, false); (lit "/w/d/t2", FFrom, false); (lit "/w/d/x2", FTo, false)]) by (vm_compute; reflexivity).
  rewrite El. clear. split; [cbn; tauto|]. intros (d & H & _). cbn in H. repeat destruct H as [H|H]; try discriminate. exact H.
Qed.

(** ** C109 *)
(** Without renames: one event for each record the kernel gives out, in order; so every change is
    told as what it is, or as a change of the same file the kernel joined it with. *)
Theorem C109_fanotify_without_renames e fuel path il : fenv_ok e -> no_renames e -> let o := fan_run e fuel path il in
  fs_events o = map (rec_event (state e o)) (concat (fw_batches (state e o))) /\
  forall p k d, In (p, k, d) (fw_log (state e o)) ->
    (exists x, In x (fs_events o) /\ told_as p k d x) \/ pending_for (state e o) p k d.
Proof.
  intros He Hn o. destruct (fan_run_out e fuel path il) as (r & E). split.
  - exact (all_exact e He Hn fuel path il o r E).
  - exact (all_told e He Hn fuel path il o r E).
Qed.
Print Assumptions C109_fanotify_without_renames.
Definition plain : list (list fop) :=
  [[FMake 7 false (lit "/w/d") (lit "f"); FWrite 7 (lit "/w/d") (lit "f"); FMake 7 false (lit "/w") (lit "h"); FWrite 7 (lit "/w") (lit "g")];
   [FRemove 7 (lit "/w/d") (lit "f"); FWrite 7 (lit "/w") (lit "h")]].
Definition plain_env : fenv := fan_script w_dirs [lit "/w/g"] plain.
Lemma plain_ok : fenv_ok plain_env.
Proof. apply fan_script_ok. intros p [<-|[<-|[<-|[]]]] [?|[]]; discriminate. Qed.
Lemma script_ops D F c (P : fop -> Prop) : Forall (Forall P) c -> forall tr, Forall P (fe_ops (fan_script D F c) tr).
Proof.
  intros H tr. cbn. destruct (count is_wait tr) as [|i]; [constructor|]. destruct (rev tr) as [|[] t]; try constructor.
  destruct (Nat.lt_ge_cases i (length c)) as [Hl|Hl]; [|rewrite nth_overflow by exact Hl; constructor]. rewrite Forall_forall in H. apply H, nth_In, Hl.
Qed.
Lemma plain_no_renames : no_renames plain_env.
Proof. unfold no_renames. apply script_ops. repeat constructor. Qed.
Example C109_example : fenv_ok plain_env /\ no_renames plain_env /\ let o := fan_run plain_env 20 (lit "/w") 5 in
  length (fw_log (state plain_env o)) = 6%nat /\
  fs_events o = [Sh (lit "/w/d/f") EtCreate PtFile None; Sh (lit "/w/h") EtCreate PtFile None; Sh (lit "/w/g") EtModify PtFile None;
    Sh (lit "/w/d/f") EtDestroy PtFile None; Sh (lit "/w/h") EtModify PtFile None].
Proof. split; [exact plain_ok|]. split; [exact plain_no_renames|]. vm_compute. split; reflexivity. Qed.

(** ** C110 *)
(** The claim: when nothing about a file waits to be read, the last event about it tells whether it
    is there.  It holds (without renames) when one process makes all changes and no record joins the
    making and the removing of a file. *)
Theorem C110_fanotify_last_event_tells_partial e fuel path il : fenv_ok e -> no_renames e -> one_process e -> let o := fan_run e fuel path il in
  unmixed (state e o) ->
  forall p f, last_about p (fs_events o) (Sh p f PtFile None) -> (forall k d, ~ pending_for (state e o) p k d) ->
    (f = EtDestroy <-> ~ In p (fw_files (state e o))).
Proof.
  intros He Hn (pid & Hpid) o Hmix p f (a & b & Ea & _ & Hb) Hpend. destruct (fan_run_out e fuel path il) as (r & E).
  rewrite (all_exact e He Hn fuel path il o r E) in Ea. set (w := state e o) in *.
  apply map_eq_app in Ea as (la & lr & El & <- & Er). destruct lr as [|x lb]; [discriminate|]. cbn [map] in Er. unfold rec_event at 1 in Er. injection Er as Ep Ef Et Elb.
  assert (Hin : In x (all_recs w)) by (unfold all_recs; rewrite El; apply in_or_app; left; apply in_or_app; right; now left).
  assert (Hd : f_dir x = false) by (unfold f_ptype in Et; destruct (f_dir x); [discriminate|reflexivity]).
  assert (Hl : last_rec w (all_recs w) p x).
  { exists la, (lb ++ fw_queue w). split; [unfold all_recs; rewrite El, <- app_assoc; reflexivity|]. split; [exact Ep|]. intros y Hy Eyp. apply in_app_or in Hy as [Hy|Hy].
    - apply (Hb (rec_event w y)); [rewrite <- Elb; now apply in_map|]. left. exact Eyp.
    - destruct (f_kinds y) as [|k ks] eqn:Ek.
      + destruct (fi_recs w (state_fine e He o) y) as (i & Hi); [apply in_or_app; now right|]. now apply (ri_kinds _ _ _ Hi).
      + apply (Hpend k (f_dir y)). exists y. split; [exact Hy|]. split; [exact Eyp|]. split; [|reflexivity]. rewrite has_like, Ek. destruct k; reflexivity. }
  pose proof (Hmix x Hin) as Hm. rewrite <- (tk_last pid w (state_tracked e pid o He Hn Hpid) p x Hl Hd Hm). subst f. unfold f_effect.
  destruct (has FCreate x) eqn:Ec; [split; [discriminate|intros H; exfalso; now apply Hm]|]. destruct (has FDelete x) eqn:Edl; [tauto|].
  destruct (has FModify x); split; discriminate.
Qed.
Print Assumptions C110_fanotify_last_event_tells_partial.
Example C110_example : fenv_ok plain_env /\ no_renames plain_env /\ one_process plain_env /\ let o := fan_run plain_env 20 (lit "/w") 5 in
  unmixed (state plain_env o) /\ last_about (lit "/w/d/f") (fs_events o) (Sh (lit "/w/d/f") EtDestroy PtFile None) /\
  last_about (lit "/w/h") (fs_events o) (Sh (lit "/w/h") EtModify PtFile None) /\ In (lit "/w/h") (fw_files (state plain_env o)).
Proof.
  split; [exact plain_ok|]. split; [exact plain_no_renames|]. split; [exists 7%N; apply script_ops; repeat constructor|]. cbv zeta.
  assert (El : fs_events (fan_run plain_env 20 (lit "/w") 5) = [Sh (lit "/w/d/f") EtCreate PtFile None; Sh (lit "/w/h") EtCreate PtFile None; Sh (lit "/w/g") EtModify PtFile None;
    Sh (lit "/w/d/f") EtDestroy PtFile None; Sh (lit "/w/h") EtModify PtFile None]) by (vm_compute; reflexivity).
  rewrite El. split; [|split; [|split]].
  - unfold unmixed. set (l := concat _ ++ _). assert (Hl : forallb (fun r => negb (has FCreate r && has FDelete r)) l = true) by (vm_compute; reflexivity).
    rewrite forallb_forall in Hl. intros r Hr [H1 H2]. specialize (Hl r Hr). rewrite H1, H2 in Hl. discriminate Hl.
  - exists [Sh (lit "/w/d/f") EtCreate PtFile None; Sh (lit "/w/h") EtCreate PtFile None; Sh (lit "/w/g") EtModify PtFile None], [Sh (lit "/w/h") EtModify PtFile None].
    split; [reflexivity|]. split; [now left|]. clear. intros x [<-|[]] [H|(q & f & t & y & H & _)]; discriminate H.
  - exists [Sh (lit "/w/d/f") EtCreate PtFile None; Sh (lit "/w/h") EtCreate PtFile None; Sh (lit "/w/g") EtModify PtFile None; Sh (lit "/w/d/f") EtDestroy PtFile None], [].
    split; [reflexivity|]. split; [now left|]. intros x [].
  - vm_compute. tauto.
Qed.
(** A temporary file, made and removed at once: all that is told is that it was made.  And two
    processes: the file is told to be gone and is there. *)
Definition temp_env : fenv := fan_script w_dirs [] [[FMake 7 false (lit "/w/d") (lit "tmp"); FRemove 7 (lit "/w/d") (lit "tmp")]].
Definition race_env : fenv := fan_script w_dirs [] [[FMake 7 false (lit "/w/d") (lit "f"); FRemove 8 (lit "/w/d") (lit "f"); FMake 7 false (lit "/w/d") (lit "f")]].
Theorem C110_fanotify_last_event_tells_refuted :
  (exists e, fenv_ok e /\ no_renames e /\ one_process e /\ let o := fan_run e 20 (lit "/w") 5 in
     fw_queue (state e o) = [] /\ fs_events o = [Sh (lit "/w/d/tmp") EtCreate PtFile None] /\ ~ In (lit "/w/d/tmp") (fw_files (state e o))) /\
  (exists e, fenv_ok e /\ no_renames e /\ let o := fan_run e 20 (lit "/w") 5 in
     unmixed (state e o) /\ fw_queue (state e o) = [] /\
     fs_events o = [Sh (lit "/w/d/f") EtCreate PtFile None; Sh (lit "/w/d/f") EtDestroy PtFile None] /\ In (lit "/w/d/f") (fw_files (state e o))).
Proof.
  split.
  - exists temp_env. split; [apply fan_script_ok; intros p _ []|]. split; [unfold no_renames; apply script_ops; repeat constructor|].
    split; [exists 7%N; apply script_ops; repeat constructor|]. vm_compute. repeat split; try reflexivity. intros [].
  - exists race_env. split; [apply fan_script_ok; intros p _ []|]. split; [unfold no_renames; apply script_ops; repeat constructor|]. cbv zeta. split; [|vm_compute; tauto].
    unfold unmixed. set (l := concat _ ++ _). assert (Hl : forallb (fun r => negb (has FCreate r && has FDelete r)) l = true) by (vm_compute; reflexivity).
    rewrite forallb_forall in Hl. intros r Hr [H1 H2]. specialize (Hl r Hr). rewrite H1, H2 in Hl. discriminate Hl.
Qed.
Print Assumptions C110_fanotify_last_event_tells_refuted.

(** C111, C112: which directories the fanotify adapter covers, in the environment of [FanWorldSpec]. *)
From Verif Require Import Base PathModel EventModel Sys SysFacts LinuxWatch InotifySpec InotifyRun FanotifySpec FanotifyFacts
  ExampleOs FanWorldSpec FanWorldFacts FanWorldRun FanTreeSpec FanTree FanNew PropsFanWorld.

(** ** C111 *)
(** From its first wait on, a watcher covers every directory that was below its path at the start
    and told the user of those it could not mark. *)
Theorem C111_fanotify_covers_the_tree e D F fuel path root il : fenv_ok e -> fe_start e = fworld_start D F -> watches_tree e path root ->
  let o := fan_run e fuel path il in
  forall a ep r b, o = a ++ OEpollWait ep r :: b -> forall q, funder D root q ->
    covered e o a q \/ not_watched o q \/ (q = root /\ not_watched o path).
Proof. intros He Hs Ht o a ep r b E q U. exact (tree_covered e D F Hs path root Ht (fv_fd e He) fuel il a ep r b E q U). Qed.
Print Assumptions C111_fanotify_covers_the_tree.

(** The other answers of the concrete systems show the directories. *)
Definition short (w : fworld) : Prop := Forall (fun p => (length p <= 4095)%nat) (fw_dirs w).
Lemma below_at p n : sound_name p n = true -> In {| de_name := n; de_type := 4 |} (below p (at_path p n)).
Proof.
  intros H. apply sound_name_facts in H as H'. destruct H' as (Hne & _). unfold sound_name in H. rewrite !andb_true_iff in H. destruct H as (((((_ & _) & H) & _) & _) & _).
  unfold below, at_path. rewrite (app_assoc p). set (d := p ++ lit "/"). rewrite skipn_app, Nat.sub_diag, skipn_all, firstn_app, Nat.sub_diag, firstn_all. cbn [skipn firstn app].
  rewrite app_nil_r, text_eqb_refl. destruct (text_eqb n []) eqn:E; [apply text_eqb_eq in E; congruence|].
  replace (forallb (fun b => negb (b =? 47)%N) n) with true; [now left|]. symmetry. apply forallb_forall. rewrite forallb_forall in H. intros b Hb. specialize (H b Hb). now apply andb_true_iff in H.
Qed.
Lemma fan_base_leads c w p : short w -> In p (fw_dirs w) -> fleads w (fan_base c w) p p.
Proof.
  intros Hs Hp. pose proof (proj2 (mem_in p (fw_dirs w)) Hp) as Hm. split.
  - intros tr. cbn. now rewrite Hm.
  - intros tr. cbn. rewrite Hm. eexists. split; [reflexivity|]. intros n Hn Hin. right. right. apply in_flat_map. exists (at_path p n). split; [exact Hin|]. now apply below_at.
  - intros tr n Hin. unfold short in Hs. rewrite Forall_forall in Hs. specialize (Hs _ Hin). fold (at_path p n). split; [lia|]. cbn.
    now rewrite (proj2 (mem_in _ _) Hin).
Qed.
Lemma happen_short w o : short w -> short (happen w o).
Proof.
  intros H. unfold happen. destruct (may w o) eqn:M; [|exact H]. destruct o as [i [|] p n|i p n|i p n|i p n q m]; try exact H.
  unfold short. cbn [fw_dirs dirs_then]. apply Forall_app. split; [exact H|]. constructor; [|constructor].
  cbn in M. rewrite !andb_true_iff in M. destruct M as ((((_ & M) & _) & _) & _). apply sound_name_facts in M. apply M.
Qed.
Lemma state_short e D F tr : fe_start e = fworld_start D F -> Forall (fun p => (length p <= 4095)%nat) D -> short (state e tr) /\ short (at_call e tr).
Proof.
  intros Hs HD. assert (Hh : forall os w, short w -> short (happens w os)).
  { unfold happens. induction os as [|o os IH]; intros w H; [exact H|]. cbn [fold_left]. apply IH. now apply happen_short. }
  enough (short (state e tr)) by (split; [assumption|now apply Hh]). induction tr as [|x tr IH] using rev_ind.
  - unfold state. cbn. now rewrite Hs.
  - rewrite state_snoc. apply Hh with (os := fe_ops e tr) in IH. unfold short in *. destruct x; try exact IH.
    + unfold marking. destruct (_ || _); [exact IH|]. cbn [snd]. destruct (asks mask); exact IH.
    + unfold reading. destruct (_ =? _)%Z; [|exact IH]. destruct (fw_queue _); exact IH.
Qed.
Lemma script_tree F c : watches_tree (fan_script w_dirs F c) (lit "/w") (lit "/w").
Proof.
  intros tr. cbv zeta. destruct (state_short (fan_script w_dirs F c) w_dirs F tr eq_refl) as [_ Hs]; [repeat (apply Forall_cons; [apply Nat.leb_le; vm_compute; reflexivity|]); apply Forall_nil|].
  set (w := at_call _ tr) in *. assert (Hw : In (lit "/w") (fw_dirs w)). { apply (dirs_stay (fan_script w_dirs F c) w_dirs F eq_refl). now left. }
  change (fe_base (fan_script w_dirs F c) w) with (fan_base (repeat (Some [3%Z]) (length c)) w). split; [split|].
  - intros p Hp. now apply fan_base_leads.
  - intros t p Hp. cbn. now apply mem_in.
  - now apply fan_base_leads.
Qed.
Lemma w_under F q : In q [lit "/w"; lit "/w/d"] -> funder w_dirs (lit "/w") q /\ In q (w_dirs ++ F).
Proof.
  intros H. split; [|cbn in *; tauto]. destruct H as [<-|[<-|[]]]; [constructor; now left|].
  apply FUnderSub with (n := lit "d"); [now left|vm_compute; reflexivity|]. constructor. right. now left.
Qed.
(** A denied mark is told, an undenied one holds. *)
Definition deny_env : fenv :=
  let e := busy_env in {| fe_fd := 3; fe_start := fe_start e; fe_ops := fe_ops e; fe_want := fe_want e; fe_base := fe_base e;
    fe_deny := fun tr => Nat.eqb (count (fun x => match x with OFanMark _ _ _ _ => true | _ => false end) tr) 1 |}.
Definition gets_marked (o : trace) (p : text) : bool := existsb (fun x => match x with OFanMark _ q _ 0 => text_eqb p q | _ => false end) o.
Example C111_example : fenv_ok busy_env /\ watches_tree busy_env (lit "/w") (lit "/w") /\ funder w_dirs (lit "/w") (lit "/w/d") /\
  let o := fan_run busy_env 20 (lit "/w") 5 in
  (exists a ep r b, o = a ++ OEpollWait ep r :: b) /\ ~ not_watched o (lit "/w/d") /\ ~ not_watched o (lit "/w") /\
  In (lit "/w/d/f", FCreate, false) (fw_log (state busy_env o)) /\ not_watched (fan_run deny_env 20 (lit "/w") 5) (lit "/w/d").
Proof.
  split; [exact busy_ok|]. split; [apply script_tree|]. split; [apply (w_under []); cbn; tauto|]. cbv zeta.
  assert (E : shown (fan_run busy_env 20 (lit "/w") 5) = [Sh (lit "/w/d/f") EtCreate PtFile None; Sh (lit "/w/d/f") EtModify PtFile None;
    Sh (lit "/w/g") EtRename PtFile (Some (Sh (lit "/w/d/g") EtRename PtFile None));
    Sh (lit "/w/n") EtCreate PtDir None; Sh (lit "/w/n/x") EtCreate PtFile None; Sh (lit "/w/d/f") EtDestroy PtFile None]) by (vm_compute; reflexivity).
  split; [|split; [|split; [|split]]].
  - assert (H : existsb is_wait (fan_run busy_env 20 (lit "/w") 5) = true) by (vm_compute; reflexivity). apply existsb_exists in H as (x & Hx & Hw).
    apply in_split in Hx as (a & b & Hx). destruct x; try discriminate Hw. eexists a, _, _, b. exact Hx.
  - unfold not_watched. rewrite E. intros H. cbn in H. repeat destruct H as [H|H]; try discriminate H; exact H.
  - unfold not_watched. rewrite E. intros H. cbn in H. repeat destruct H as [H|H]; try discriminate H; exact H.
  - vm_compute. tauto.
  - unfold not_watched. set (l := shown _). vm_compute in l. subst l. now left.
Qed.

(** ** C112 *)
(** The claim: every change below the watched path is told, also in directories made while the
    watcher runs.  What holds: a directory made in a marked one is marked once its record was
    read, and changes in it are covered from then on, or there was a warning about it; unless the
    record was read behind an end of a move that was directly before a beginning (C107). *)
Theorem C112_fanotify_new_trees_are_watched_partial e fuel path il : fenv_ok e -> let o := fan_run e fuel path il in
  forall q, In (q, FCreate, true) (fw_log (state e o)) -> ~ pending_for (state e o) q FCreate true -> ~ behind_crossing (state e o) q FCreate true ->
    (* no links *)
    (forall w t r, os_realpath (fe_base e w) t q = Some r -> r = q) ->
    not_watched o q \/ exists a m b, o = a ++ OFanMark (fe_fd e) q m 0 :: b /\ covered e o (a ++ [OFanMark (fe_fd e) q m 0]) q.
Proof.
  intros He o q Hq Hp Hu Hr. destruct (fan_run_out e fuel path il) as (r & E). apply (newdir_covered e He fuel path il o r E q Hq Hp Hu).
  intros t p' H. apply (Hr _ _ _ H).
Qed.
Print Assumptions C112_fanotify_new_trees_are_watched_partial.
Lemma base_no_links c w t q r : os_realpath (fan_base c w) t q = Some r -> r = q.
Proof. cbn. destruct (_ || _); congruence. Qed.
Example C112_example : fenv_ok busy_env /\ let o := fan_run busy_env 20 (lit "/w") 5 in
  In (lit "/w/n", FCreate, true) (fw_log (state busy_env o)) /\ fw_queue (state busy_env o) = [] /\ gets_marked o (lit "/w/n") = true /\ ~ behind_crossing (state busy_env o) (lit "/w/n") FCreate true /\
  (forall w t r, os_realpath (fe_base busy_env w) t (lit "/w/n") = Some r -> r = lit "/w/n") /\
  In (lit "/w/n/x", FCreate, false) (fw_log (state busy_env o)).
Proof.
  split; [exact busy_ok|]. pose proof (proj1 (proj2 C107_example)) as Hu. cbv zeta in *. split; [vm_compute; tauto|]. split; [vm_compute; reflexivity|]. split; [vm_compute; reflexivity|].
  split; [exact (uncrossed_not_behind _ _ _ _ Hu)|]. split; [|vm_compute; tauto]. intros w t r. apply base_no_links.
Qed.
(** `mkdir -p a/b`: when a is marked, b is already there; it is never marked, and nobody is told.  And
    a directory made right after two files were saved (C107) is lost with all that happens in it. *)
Definition deep_env : fenv := fan_script w_dirs []
  [[FMake 7 true (lit "/w") (lit "a"); FMake 7 true (lit "/w/a") (lit "b")]; [FMake 7 false (lit "/w/a/b") (lit "f"); FMake 7 false (lit "/w") (lit "g")]].
Definition lost_env : fenv := fan_script w_dirs [lit "/w/d/x1"; lit "/w/d/x2"]
  [saves ++ [FMake 7 true (lit "/w") (lit "n")]; [FMake 7 false (lit "/w/n") (lit "f"); FMake 7 false (lit "/w") (lit "g")]].
Theorem C112_fanotify_new_trees_are_watched_refuted :
  (exists e, fenv_ok e /\ watches_tree e (lit "/w") (lit "/w") /\ (forall tr, fe_deny e tr = false) /\ let o := fan_run e 20 (lit "/w") 5 in
     snd (linux_watch (system e) 20 (lit "/w") 5 []) = Ok true /\ fw_queue (state e o) = [] /\ Forall uncrossed (fw_batches (state e o)) /\
     In (lit "/w/a/b") (fw_dirs (state e o)) /\ In (lit "/w/a/b/f") (fw_files (state e o)) /\
     shown o = [Sh (lit "/w/a") EtCreate PtDir None; Sh (lit "/w/g") EtCreate PtFile None]) /\
  (exists e, fenv_ok e /\ watches_tree e (lit "/w") (lit "/w") /\ (forall tr, fe_deny e tr = false) /\ let o := fan_run e 20 (lit "/w") 5 in
     snd (linux_watch (system e) 20 (lit "/w") 5 []) = Ok true /\ fw_queue (state e o) = [] /\
     In (lit "/w/n", FCreate, true) (fw_log (state e o)) /\ In (lit "/w/n/f") (fw_files (state e o)) /\
     forall x, In x (shown o) -> ~ mentions (lit "/w/n") x /\ ~ mentions (lit "/w/n/f") x /\ about_fs x = true).
Proof.
  split.
  - exists deep_env. split; [apply fan_script_ok; intros p _ []|]. split; [apply script_tree|]. split; [reflexivity|]. cbv zeta.
    split; [vm_compute; reflexivity|]. split; [vm_compute; reflexivity|]. split; [|split; [vm_compute; tauto|split; [vm_compute; tauto|vm_compute; reflexivity]]].
    set (b := fw_batches _). vm_compute in b. subst b. repeat constructor; unfold crossed; cbn; intros (H1 & H2 & H3 & H4); discriminate.
  - exists lost_env. split; [apply fan_script_ok; intros p [<-|[<-|[<-|[]]]] [?|[?|[]]]; discriminate|]. split; [apply script_tree|]. split; [reflexivity|]. cbv zeta.
    split; [vm_compute; reflexivity|]. split; [vm_compute; reflexivity|]. split; [vm_compute; tauto|]. split; [vm_compute; tauto|].
    set (l := shown _). assert (El : l = [Sh (lit "/w/d/t1") EtCreate PtFile None;
      Sh (lit "/w/d/t2") EtRename PtFile (Some (Sh (lit "/w/d/x1") EtRename PtFile None)); Sh (lit "/w/d/t2") EtCreate PtFile None;
      Sh (lit "/w/d/x2") EtRename PtFile None; Sh (lit "/w/g") EtCreate PtFile None]) by (vm_compute; reflexivity).
    rewrite El. clear. intros x Hx. repeat destruct Hx as [<-|Hx]; try (destruct Hx); (split; [|split; [|reflexivity]]);
      (intros [H|(q & f & t & a & H & Hq)]; [discriminate H|try discriminate H; injection H as <- _ _ _; discriminate Hq]).
Qed.
Print Assumptions C112_fanotify_new_trees_are_watched_refuted.

(** Theorems C122-C126: the inotify adapter (include/wtr/watcher.hpp:1299-1726) on the
    filesystem and kernel of [DeepSpec], where directories are moved and the kernel's queue
    is limited.  The adapter is that of [LinuxWatch], unchanged. *)
From Verif Require Import Base PathModel EventModel Sys SysFacts LinuxModel LinuxWatch InotifySpec InotifyFacts InotifyRun
  ExampleOs KernelSpec KernelFacts KernelRun DeepSpec DeepFacts DeepRun DeepLog DeepWatch.

(** What an unprivileged watcher on [path] does on the system [e]; [il] is the stop descriptor. *)
Definition drun (e : denv) (fuel : nat) (path : text) (il : Z) : trace := fst (linux_watch (dsystem e) fuel path il []).

Section Facts.
  Variables (e : denv) (D F : list text) (fuel : nat) (path : text) (il : Z).
  Hypothesis start : de_start e = dk_start D F.
  Hypothesis unpriv : dunprivileged e.
  Notation o := (drun e fuel path il).
  Lemma dstarted : exists d f, de_start e = dk_start d f. Proof. eauto. Qed.
  Lemma deep_invariant : exists known, di e o known.
  Proof. apply deep_watch; [exact dstarted|]. intros tr. apply unpriv. Qed.
  Lemma log_ok_at tr : log_ok (dat_call e tr).
  Proof. apply always_at; [rewrite start; apply log_ok_start|intros; now apply log_ok_happen|intros; now apply log_ok_mark|intros; now apply log_ok_read]. Qed.
  Lemma log_ok_state tr : log_ok (dstate e tr).
  Proof. apply always_state; [rewrite start; apply log_ok_start|intros; now apply log_ok_happen|intros; now apply log_ok_mark|intros; now apply log_ok_read]. Qed.
  Lemma deep_told a b : o = a ++ b -> exists rest, told_of (due (dstate e a)) (news a ++ rest).
  Proof.
    intros E. destruct deep_invariant as (known & A). destruct (dv_told _ _ _ A a b E) as (l2 & l3 & mid & _ & T & _).
    destruct (told_each (map snd (dk_queue (dstate e a)))) as (lq & Tq). exists (l2 ++ lq). rewrite <- (kg_due _ (lo_good _ (log_ok_state a))). unfold everything. rewrite map_app, app_assoc.
    now apply told_app.
  Qed.
  Lemma deep_end : dk_queue (dstate e o) = [] -> told_of (due (dstate e o)) (news o).
  Proof.
    intros Q. destruct deep_invariant as (known & A). pose proof (told_here _ _ _ A) as T.
    rewrite <- (kg_due _ (lo_good _ (log_ok_state o))). unfold everything. rewrite Q, app_nil_r. exact T.
  Qed.
End Facts.

(** ** C122: an exact account *)
Theorem C122_exact_account_of_all_changes :
  forall e D F fuel path il, de_start e = dk_start D F -> dunprivileged e ->
    let o := drun e fuel path il in
    (forall a b, o = a ++ b -> exists rest, told_of (due (dstate e a)) (news a ++ rest)) /\
    (dk_queue (dstate e o) = [] -> told_of (due (dstate e o)) (news o)).
Proof.
  intros e D F fuel path il S U. cbv zeta. split; [intros a b; now apply (deep_told e D F)|now apply (deep_end e D F)].
Qed.
Print Assumptions C122_exact_account_of_all_changes.

(** ** C123: events and what happened *)
(** Where an event came from. *)
Lemma told_from_one ns l : told_of ns l -> forall ev, In ev l ->
  ev = lost_warning \/
  (exists mv o a dir, In (About mv o a dir) ns /\ ev = alone o a dir) \/
  (exists mv d p n p' n' dir dir', In (About mv (DMove d p n p' n') false dir) ns /\ In (About mv (DMove d p n p' n') true dir') ns /\
     ev = Sh (entry dir n) EtRename (type d) (Some (Sh (entry dir n') EtRename (type d) None))).
Proof.
  assert (More : forall x ns ev, 
    ev = lost_warning \/ (exists mv o a dir, In (About mv o a dir) ns /\ ev = alone o a dir) \/
    (exists mv d p n p' n' dir dir', In (About mv (DMove d p n p' n') false dir) ns /\ In (About mv (DMove d p n p' n') true dir') ns /\
     ev = Sh (entry dir n) EtRename (type d) (Some (Sh (entry dir n') EtRename (type d) None))) ->
    ev = lost_warning \/ (exists mv o a dir, In (About mv o a dir) (x :: ns) /\ ev = alone o a dir) \/
    (exists mv d p n p' n' dir dir', In (About mv (DMove d p n p' n') false dir) (x :: ns) /\ In (About mv (DMove d p n p' n') true dir') (x :: ns) /\
     ev = Sh (entry dir n) EtRename (type d) (Some (Sh (entry dir n') EtRename (type d) None)))).
  { intros x ns0 ev [H|[(mv & o & a & dir & H & H')|(mv & d & p & n & p' & n' & dir & dir' & H & H1 & H2)]]; [now left|right; left|right; right].
    - exists mv, o, a, dir. split; [now right|exact H'].
    - exists mv, d, p, n, p', n', dir, dir'. split; [now right|]. split; [now right|exact H2]. }
  induction 1 as [|mv o a dir ns l _ IH|mv d p n p' n' dir dir' ns l _ IH|ns l _ IH|ns l _ IH|ns l _ IH]; intros ev Hin.
  - destruct Hin.
  - destruct Hin as [<-|Hin]; [|now apply More, IH]. right. left. exists mv, o, a, dir. split; [now left|reflexivity].
  - destruct Hin as [<-|Hin]; [|now apply More, More, IH]. right. right. exists mv, d, p, n, p', n', dir, dir'. split; [now left|]. split; [right; now left|reflexivity].
  - destruct Hin as [<-|Hin]; [now left|now apply More, IH].
  - now apply More, IH.
  - destruct Hin as [<-|Hin]; [now left|now apply More, IH].
Qed.
Lemma due_logged k n : In n (due k) -> exists x o ns y f, dk_log k = x ++ (o, ns) :: y /\ In (n, f) ns.
Proof.
  unfold due, recorded. intros H. apply in_map_iff in H as ([n0 f] & <- & H). apply filter_In in H as [H _]. apply in_flat_map in H as ([o ns] & H & H').
  apply in_split in H as (x & y & H). exists x, o, ns, y, f. auto.
Qed.
Lemma moved_any x y P : moved_away x P -> moved_away (x ++ y) P.
Proof. apply moved_more. Qed.
Lemma alone_right o a dir : dir = place_of o a -> right_about (alone o a dir) o.
Proof. intros ->. destruct o as [d p n|p n|p n|p n f|d p n p' n']; destruct a; cbn; unfold right_about, alone; cbn; auto. Qed.

(** For every filesystem event there is a change.  If no directory at or above the
    directory in the event's path was moved before, the event tells the change as it was,
    or one half of it; or it tells a move from one watched directory to another, with the
    new name in the old directory. *)
Theorem C123_events_tell_what_happened_partial :
  forall e D F fuel path il, de_start e = dk_start D F -> dunprivileged e ->
    forall a ev b, drun e fuel path il = a ++ OCallback ev :: b -> ev_ptype ev <> PtWatcher ->
    let log := dk_log (dat_call e a) in
    exists c ns dir name, In (c, ns) log /\ ev_path ev = entry dir name /\
      (moved_away log dir \/
       right_about (shape_of ev) c \/
       exists d p n p' n', c = DMove d p n p' n' /\ p <> p' /\
         shape_of ev = Sh (entry p n) EtRename (type d) (Some (Sh (entry p n') EtRename (type d) None))).
Proof.
  intros e D F fuel path il S U a ev b E Hp. cbv zeta.
  replace (a ++ OCallback ev :: b) with ((a ++ [OCallback ev]) ++ b) in E by (rewrite <- app_assoc; reflexivity).
  destruct (deep_told e D F fuel path il S U _ _ E) as (rest & T).
  assert (Hin : In (shape_of ev) (news (a ++ [OCallback ev]) ++ rest)).
  { apply in_app_iff. left. rewrite news_app. apply in_app_iff. right. unfold news. cbn.
    destruct ev as [p et pt t asc]. cbn in Hp. destruct pt; cbn; auto; congruence. }
  rewrite dstate_snoc in T. cbn [deffect] in T.
  pose proof (log_ok_at e D F S a) as [K _ L].
  assert (Ep : exists f t s, shape_of ev = Sh (ev_path ev) f t s) by (destruct ev as [p et pt t [[]|]]; cbn; eauto). destruct Ep as (ef & et & es & Ep).
  destruct (told_from_one _ _ T _ Hin) as [Hw|[(mv & o & ar & dir & H & H')|(mv & d & p & n & p' & n' & dir & dir' & H & H1 & H2)]].
  - exfalso. destruct ev as [p et0 pt t asc]. cbn in Hw, Hp. unfold lost_warning, warning in Hw. congruence.
  - apply due_logged in H as (x & o' & ns & y & f & El & Hn). destruct (L _ _ _ _ El _ _ _ _ _ Hn) as (<- & Hd & _).
    exists o, ns, dir, (name_of o ar). split; [rewrite El; apply in_elt|]. split; [unfold alone in H'; congruence|].
    destruct Hd as [Hd|Hd]; [|left; rewrite El; now apply moved_more]. right. left. rewrite H'. now apply alone_right.
  - apply due_logged in H as (x & o' & ns & y & f & El & Hn). destruct (L _ _ _ _ El _ _ _ _ _ Hn) as (<- & Hd & _).
    exists (DMove d p n p' n'), ns, dir, n. split; [rewrite El; apply in_elt|]. split; [congruence|].
    destruct Hd as [Hd|Hd]; [|left; rewrite El; now apply moved_more]. right. cbn in Hd. subst dir.
    destruct (list_eq_dec N.eq_dec p p') as [->|Hne]; [left; left; exact H2|]. right. exists d, p, n, p', n'. auto.
Qed.
Print Assumptions C123_events_tell_what_happened_partial.

(** ** C124: lost records *)
(** If records are lost while the watcher is at [a], and it reads everything in the end, the
    user is warned thereafter. *)
Theorem C124_lost_records_are_announced_partial :
  forall e D F fuel path il, de_start e = dk_start D F -> dunprivileged e ->
    let o := drun e fuel path il in
    dk_queue (dstate e o) = [] ->
    forall a b, o = a ++ b -> b <> [] -> losses (dat_call e a) <> losses (dstate e a) ->
    exists ev, In (OCallback ev) b /\ shape_of ev = lost_warning.
Proof.
  intros e D F fuel path il S U. cbv zeta. intros Q a b E Hb Hl.
  destruct (deep_invariant e D F fuel path il S U) as (known & A). destruct (dv_told _ _ _ A a b E) as (l2 & l3 & mid & E2 & _ & T & Em).
  destruct b as [|x b]; [congruence|].
  assert (Hd : exists l, due (dstate e (drun e fuel path il)) = due (dat_call e a) ++ l) by (rewrite E; apply due_more, more_at). destruct Hd as (l & Hd).
  pose proof (log_ok_at e D F S a) as [K _ _]. pose proof (log_ok_state e D F S (drun e fuel path il)) as [Ko _ _].
  rewrite <- (kg_due _ Ko), <- (kg_due _ K) in Hd. unfold everything in Hd. rewrite Q, app_nil_r in Hd.
  rewrite (dat_read e a) in Hd. rewrite map_app in Hd.
  assert (Hm : mid = map snd (dk_queue (dat_call e a)) ++ l).
  { apply (app_inv_head (map snd (dk_read (dstate e a)))). etransitivity; [symmetry; exact Em|]. rewrite app_assoc. exact Hd. }
  unfold dat_call in Hl. apply losses_flood in Hl. fold (dat_call e a) in Hl. apply (flooded_gap _ K) in Hl.
  assert (Hg : In Gap mid) by (rewrite Hm; apply in_app_iff; now left).
  apply (told_gap _ _ T) in Hg. assert (Hn : In lost_warning (news (x :: b))) by (rewrite E2; apply in_app_iff; now right).
  unfold news in Hn. apply filter_In in Hn as [Hn _]. apply in_map_iff in Hn as (ev & Ev & Hn). exists ev. split; [|exact Ev].
  clear -Hn. revert Hn. generalize (x :: b). intros l Hn. induction l as [|z l IH]; [destruct Hn|].
  destruct z; cbn in Hn; try (right; now apply IH). destruct Hn as [->|Hn]; [now left|right; now apply IH].
Qed.
Print Assumptions C124_lost_records_are_announced_partial.

(** ** Concrete systems *)
(** As in [PropsKernel]: what the directories of [k] look like; descriptors 3 (inotify)
    and 4 (epoll), and 5 for the stop; the waits as scripted. *)
Definition dsub (p q : text) : list dirent :=
  let d := entry p [] in
  if text_eqb d (firstn (length d) q) && good_name (skipn (length d) q) then [{| de_name := skipn (length d) q; de_type := 4 |}] else [].
Definition dfs_base (waits : list (option (list Z))) (k : dkern) : os := {|
  os_now := fun tr => Z.of_nat (length tr);
  os_geteuid := fun _ => 1000%Z;
  os_realpath := fun _ p => if dir_at k p || has p (dk_files k) then Some p else None;
  os_is_dir := fun _ p => dir_at k p;
  os_opendir := fun _ p => if dir_at k p then Some (sub "." :: sub ".." :: flat_map (fun w => dsub p (fst w)) (dk_dirs k)) else None;
  os_inotify_init := fun _ => 3%Z;
  os_add_watch := fun _ _ _ _ => (-1)%Z;
  os_fan_init := fun _ => (-1)%Z;
  os_fan_mark := fun _ _ _ _ => (-1)%Z;
  os_epoll_create := fun _ => 4%Z;
  os_epoll_ctl := fun _ _ _ => 0%Z;
  os_epoll_wait := fun tr _ => nth (count is_wait tr) waits (Some [5%Z]);
  os_read := fun _ _ _ => again;
  os_open_handle := fun _ _ => (-1, 0)%Z;
  os_readlink := fun _ _ => None |}.
Definition dscripted (max want : nat) (D F : list text) (waits : list (option (list Z))) (ws : list (list dop)) : denv := {|
  de_fd := 3; de_max := max; de_start := dk_start D F;
  de_ops := fun tr => match count is_wait tr with
                      | O => []
                      | S i => match rev tr with OEpollWait _ _ :: _ => nth i ws [] | _ => [] end
                      end;
  de_deny := fun _ => false; de_want := fun _ => want; de_base := dfs_base waits |}.
Definition now_ready : option (list Z) := Some [3%Z].
Definition tree : list text := [lit "/w"; lit "/w/d"; lit "/w/e"; lit "/x"].

(** A directory is renamed, then used; a file moves from one directory to another. *)
Definition moving : denv := dscripted 1000 256 tree [lit "/w/d/old"] [now_ready; now_ready; now_ready]
  [[DMove true (lit "/w") (lit "d") (lit "/w") (lit "D")]; [DMake false (lit "/w/D") (lit "f")];
   [DMake false (lit "/w/e") (lit "g"); DMove false (lit "/w/e") (lit "g") (lit "/w") (lit "h"); DRemove (lit "/w") (lit "h")]].

Example C122_example : let o := drun moving 20 (lit "/w") 5 in
  de_start moving = dk_start tree [lit "/w/d/old"] /\ dunprivileged moving /\ dk_queue (dstate moving o) = [] /\
  snd (linux_watch (dsystem moving) 20 (lit "/w") 5 []) = Ok true /\
  length (due (dstate moving o)) = 8%nat /\
  news o =
    [Sh (lit "/w/d") EtRename PtDir (Some (Sh (lit "/w/D") EtRename PtDir None));
     Sh (lit "/w/d/f") EtCreate PtFile None;
     Sh (lit "/w/e/g") EtCreate PtFile None;
     Sh (lit "/w/e/g") EtRename PtFile (Some (Sh (lit "/w/e/h") EtRename PtFile None));
     Sh (lit "/w/h") EtDestroy PtFile None].
Proof. cbv zeta. split; [reflexivity|]. split; [intros k tr; discriminate|]. vm_compute. repeat split; reflexivity. Qed.

(** The full claim of C123: an event tells a change as it was, or one half of it.  It fails
    twice here: a file made in a renamed directory is told under the directory's old name,
    and a file moved to another directory is told with its new name in the old directory. *)
Definition right_aboutb (ev : shape) (o : dop) : bool :=
  let eqb a b := match a, b with Sh p f t s, Sh p' f' t' s' =>
    text_eqb p p' && match s, s' with Some (Sh q _ _ _), Some (Sh q' _ _ _) => text_eqb q q' | None, None => true | _, _ => false end end in
  eqb ev (truth o) || match o with DMove d p n p' n' => eqb ev (Sh (entry p n) EtRename (type d) None) || eqb ev (Sh (entry p' n') EtRename (type d) None) | _ => false end.
Lemma right_aboutb_ok ev o : right_about ev o -> right_aboutb ev o = true.
Proof.
  unfold right_about, right_aboutb. intros [->|H].
  - apply orb_true_iff. left. destruct o; cbn; rewrite ?text_eqb_refl; reflexivity.
  - destruct o; try contradiction. apply orb_true_iff. right. apply orb_true_iff. destruct H as [->| ->]; [left|right]; rewrite text_eqb_refl; reflexivity.
Qed.
Lemma never_right k ev : forallb (fun c => negb (right_aboutb ev (fst c))) (dk_log k) = true -> forall c ns, In (c, ns) (dk_log k) -> ~ right_about ev c.
Proof.
  intros H c ns Hin Hr. apply right_aboutb_ok in Hr. rewrite forallb_forall in H. specialize (H _ Hin). cbn in H. rewrite Hr in H. discriminate.
Qed.
Theorem C123_events_tell_what_happened_refuted :
  exists e, de_start e = dk_start tree [lit "/w/d/old"] /\ dunprivileged e /\
    let o := drun e 20 (lit "/w") 5 in
    dk_queue (dstate e o) = [] /\ snd (linux_watch (dsystem e) 20 (lit "/w") 5 []) = Ok true /\ losses (dstate e o) = 0%nat /\
    exists ev1 ev2, In ev1 (news o) /\ In ev2 (news o) /\
      ev1 = Sh (lit "/w/d/f") EtCreate PtFile None /\
      ev2 = Sh (lit "/w/e/g") EtRename PtFile (Some (Sh (lit "/w/e/h") EtRename PtFile None)) /\
      forall c ns, In (c, ns) (dk_log (dstate e o)) -> ~ right_about ev1 c /\ ~ right_about ev2 c.
Proof.
  exists moving. split; [reflexivity|]. split; [intros k tr; discriminate|]. cbv zeta. split; [vm_compute; reflexivity|]. split; [vm_compute; reflexivity|]. split; [vm_compute; reflexivity|].
  do 2 eexists. split; [|split; [|split; [reflexivity|split; [reflexivity|]]]]; [vm_compute; tauto..|].
  intros c ns H. split; revert c ns H; apply never_right; vm_compute; reflexivity.
Qed.
Print Assumptions C123_events_tell_what_happened_refuted.
Example C123_example : exists a ev b, drun moving 20 (lit "/w") 5 = a ++ OCallback ev :: b /\ ev_ptype ev = PtFile /\ ev_path ev = lit "/w/h" /\
  ~ moved_away (dk_log (dat_call moving a)) (lit "/w").
Proof.
  set (o := drun moving 20 (lit "/w") 5).
  assert (H : exists i ev, nth_error o i = Some (OCallback ev) /\ ev_ptype ev = PtFile /\ ev_path ev = lit "/w/h" /\
    forallb (fun c => match fst c with DMove true q n _ _ => negb (at_or_below (entry q n) (lit "/w")) | _ => true end) (dk_log (dat_call moving (firstn i o))) = true).
  { exists 41%nat. vm_compute. eexists. repeat split; reflexivity. }
  destruct H as (i & ev & H & H1 & H2 & H3). apply nth_error_split in H as (a & b & E & L). exists a, ev, b. split; [exact E|]. split; [exact H1|]. split; [exact H2|].
  replace (firstn i o) with a in H3 by (rewrite E, <- L, firstn_app, Nat.sub_diag, firstn_all; cbn; now rewrite app_nil_r).
  intros (q & n & q' & n' & ns & Hin & Hb). rewrite forallb_forall in H3. specialize (H3 _ Hin). cbn [fst] in H3. rewrite Hb in H3. discriminate.
Qed.

(** *** Overflow *)
(** The queue has room for two records.  Three files are made at once. *)
Definition flood : denv := dscripted 2 256 tree [] [now_ready; now_ready; now_ready]
  [[DMake false (lit "/w") (lit "a"); DMake false (lit "/w/d") (lit "b"); DMake true (lit "/w") (lit "n")];
   [DMake false (lit "/w/n") (lit "c")]; [DRemove (lit "/w") (lit "a")]].
(** Nothing is lost: a directory is removed, and its watch with it. *)
Definition tidy : denv := dscripted 1000 0 tree [] [now_ready; now_ready; now_ready; now_ready; now_ready]
  [[DMake false (lit "/w") (lit "a"); DRmdir (lit "/w") (lit "d") false]].
(** Much is lost. *)
Definition flood2 : denv := dscripted 2 256 tree [] [now_ready; now_ready]
  [[DMake false (lit "/w") (lit "a"); DRmdir (lit "/w") (lit "d") false; DRemove (lit "/w") (lit "a")]].

(** The full claim of C124: a user who is told of an overflow knows of it.  No overflow is
    told as such on any system; and what is told is also told when nothing was lost. *)
Lemma no_overflow_news ns l : told_of ns l -> forall ev, In ev l -> match ev with Sh p _ PtWatcher _ => warns_of (lit "w/sys/q_overflow@") p = false | _ => True end.
Proof.
  intros T ev Hin. destruct (told_from_one _ _ T _ Hin) as [->|[(mv & o & a & dir & _ & ->)|(mv & d & p & n & p' & n' & dir & dir' & _ & _ & ->)]].
  - reflexivity.
  - unfold alone, type_told, type. destruct o as [[]| | | |[]]; exact Coq.Init.Logic.I.
  - unfold type. destruct d; exact Coq.Init.Logic.I.
Qed.
Theorem C124_lost_records_are_announced_refuted :
  (forall e D F fuel path il, de_start e = dk_start D F -> dunprivileged e ->
     forall ev, In ev (callbacks (drun e fuel path il)) -> ev_ptype ev = PtWatcher -> warns_of (lit "w/sys/q_overflow@") (ev_path ev) = false) /\
  exists e1 e2,
    de_start e1 = dk_start tree [] /\ de_start e2 = dk_start tree [] /\ dunprivileged e1 /\ dunprivileged e2 /\
    let o1 := drun e1 20 (lit "/w") 5 in let o2 := drun e2 20 (lit "/w") 5 in
    dk_queue (dstate e1 o1) = [] /\ dk_queue (dstate e2 o2) = [] /\
    snd (linux_watch (dsystem e1) 20 (lit "/w") 5 []) = Ok true /\ snd (linux_watch (dsystem e2) 20 (lit "/w") 5 []) = Ok true /\
    losses (dstate e1 o1) = 0%nat /\ (0 < losses (dstate e2 o2))%nat /\
    In (lit "/w/a") (dk_files (dstate e1 o1)) /\ ~ In (lit "/w/a") (dk_files (dstate e2 o2)) /\
    map shape_of (callbacks o1) = map shape_of (callbacks o2).
Proof.
  split.
  - intros e D F fuel path il S U ev Hin Hp. destruct (deep_told e D F fuel path il S U _ [] (eq_sym (app_nil_r _))) as (rest & T).
    destruct (warns_of (lit "w/sys/q_overflow@") (ev_path ev)) eqn:W; [|reflexivity]. exfalso.
    assert (Hn : In (shape_of ev) (news (drun e fuel path il) ++ rest)).
    { apply in_app_iff. left. unfold news. apply filter_In. split; [now apply in_map|]. destruct ev as [p et pt t asc]. cbn [ev_path ev_ptype] in *. subst pt. destruct asc as [[]|]; cbn [shape_of is_news]; rewrite W; apply orb_true_r. }
    pose proof (no_overflow_news _ _ T _ Hn) as H. destruct ev as [p et pt t asc]. cbn [ev_path ev_ptype] in *. subst pt. destruct asc as [[]|]; cbn [shape_of] in H; congruence.
  - exists tidy, flood2. do 2 (split; [reflexivity|]). do 2 (split; [intros k tr; discriminate|]). cbv zeta.
    vm_compute. repeat apply conj; try reflexivity; try tauto; lia.
Qed.
Print Assumptions C124_lost_records_are_announced_refuted.
Example C124_example : let o := drun flood 20 (lit "/w") 5 in
  dunprivileged flood /\ dk_queue (dstate flood o) = [] /\
  exists i, (i < length o)%nat /\ losses (dat_call flood (firstn i o)) = 1%nat /\ losses (dstate flood (firstn i o)) = 0%nat.
Proof. cbv zeta. split; [intros k tr; discriminate|]. split; [vm_compute; reflexivity|]. exists 23%nat. vm_compute. repeat split. lia. Qed.

(** ** C127: directories that are moved *)
Lemma told_mentions ns l : told_of ns l -> forall mv o a d, In (About mv o a d) ns -> exists ev, In ev l /\ mentions ev o a d.
Proof.
  assert (More : forall x l o a d, (exists ev, In ev l /\ mentions ev o a d) -> exists ev, In ev (x :: l) /\ mentions ev o a d).
  { intros x l0 o a d (ev & H & H'). exists ev. split; [now right|exact H']. }
  induction 1 as [|mv o a dir ns l _ IH|mv dd p n p' n' dir dir' ns l _ IH|ns l _ IH|ns l _ IH|ns l _ IH]; intros mv0 o0 a0 d0 Hin.
  - destruct Hin.
  - destruct Hin as [[= <- <- <- <-]|Hin]; [eexists; split; [now left|now left]|eauto].
  - destruct Hin as [[= <- <- <- <-]|[[= <- <- <- <-]|Hin]]; [eexists; split; [now left|]; right; eauto|eexists; split; [now left|]; right; exists dir; split; [reflexivity|discriminate]|eauto].
  - destruct Hin as [Hin|Hin]; [discriminate|eauto].
  - destruct Hin as [Hin|Hin]; [discriminate|eauto].
  - destruct Hin as [Hin|Hin]; [discriminate|eauto].
Qed.
Lemma news_shown o ev : In ev (news o) -> In ev (map shape_of (callbacks o)).
Proof. unfold news. intros H. now apply filter_In in H as [H _]. Qed.
(** A directory that was there at the start is watched wherever it is moved, as long as it
    is not removed: every change in it is told, under the directory's path at the start, or
    the user is warned. *)
Theorem C127_moved_directories_stay_watched :
  forall e D F fuel path root il, de_start e = dk_start D F -> dunprivileged e -> dstill_start e ->
    (forall k, map fst (dk_dirs k) = D -> shows (kern_start D []) (de_base e k)) ->
    (forall k, map fst (dk_dirs k) = D -> leads (kern_start D []) (de_base e k) path root) -> (Z.of_nat (length D) < 2147483647)%Z ->
    let o := drun e fuel path il in
    dk_queue (dstate e o) = [] ->
    forall x c ns y p arrival, dk_log (dstate e o) = x ++ (c, ns) :: y -> under D root p -> has_place c arrival ->
    now_at p x = Some (place_of c arrival) ->
    exists ev, In ev (map shape_of (callbacks o)) /\
      (mentions ev c arrival p \/ ev = lost_warning /\ (0 < losses (dstate e o))%nat).
Proof.
  intros e D F fuel path root il S U St Sh Ld Few. cbv zeta. intros Q x c ns y p a El Un Hp Hn.
  assert (Hu : forall tr, os_geteuid (dsystem e) tr <> 0%Z) by (intros tr; apply U).
  destruct (watch_at_start e D F S St Sh Few path root Ld fuel il Hu p Un x c ns y a El Hp Hn) as (mv & f & Hin).
  pose proof (deep_end e D F fuel path il S U Q) as T.
  assert (Fo : fates_ok (dstate e (drun e fuel path il))).
  { apply always_state; [rewrite S; apply fates_start|intros; now apply fates_happen|intros; now apply fates_mark|intros; now apply fates_read]. }
  destruct Fo as [_ Fo]. assert (Hr : In (About mv c a p, f) (recorded (dstate e (drun e fuel path il)))).
  { unfold recorded. apply in_flat_map. exists (c, ns). split; [rewrite El; apply in_elt|exact Hin]. }
  pose proof (Fo _ _ Hr) as H. destruct f; cbn [fate_ok] in H.
  - destruct (told_mentions _ _ T _ _ _ _ H) as (ev & H1 & H2). exists ev. split; [now apply news_shown|now left].
  - destruct H as (mv' & o' & a' & H & Ea & Em). destruct (told_mentions _ _ T _ _ _ _ H) as (ev & H1 & H2). exists ev. split; [now apply news_shown|]. left.
    destruct H2 as [->|H2]; [left; congruence|]. destruct o'; try contradiction. discriminate Em.
  - exists lost_warning. split; [apply news_shown; now apply (told_gap _ _ T)|right]. split; [reflexivity|].
    unfold losses. assert (X : In (About mv c a p, Lost) (filter is_lost (recorded (dstate e (drun e fuel path il))))) by (apply filter_In; split; [exact Hr|reflexivity]).
    destruct (filter is_lost (recorded _)); [destruct X|cbn; lia].
Qed.
Print Assumptions C127_moved_directories_stay_watched.
Lemma tree_shows w k : map fst (dk_dirs k) = tree -> shows (kern_start tree []) (dfs_base w k).
Proof.
  intros E. assert (Dr : forall p, dir_at k p = has p tree).
  { intros p. unfold dir_at, has. rewrite <- E. clear E. induction (dk_dirs k) as [|[q v] l IH]; [reflexivity|]. cbn [map existsb fst]. rewrite IH. f_equal.
    destruct (text_eqb q p) eqn:X, (text_eqb p q) eqn:Y; auto; [apply text_eqb_eq in X; subst; rewrite text_eqb_refl in Y; discriminate|apply text_eqb_eq in Y; subst; rewrite text_eqb_refl in X; discriminate]. }
  constructor; cbn [kn_dirs kern_start].
  - intros p Hp. assert (Eh : has p tree = true) by (destruct Hp as [<-|[<-|[<-|[<-|[]]]]]; reflexivity).
    constructor; cbn [os_opendir os_realpath os_is_dir dfs_base kn_dirs kern_start]; rewrite ?Dr, ?Eh; [reflexivity| |].
    + intros tr. eexists. split; [reflexivity|].
      intros n Hn Hin. right. right. rewrite <- E in Hin. apply in_map_iff in Hin as (v & Ev & Hin). apply in_flat_map. exists v. split; [exact Hin|]. rewrite Ev. unfold dsub.
      assert (En : entry p n = entry p [] ++ n) by (destruct Hp as [<-|[<-|[<-|[<-|[]]]]]; reflexivity).
      rewrite En, firstn_app, Nat.sub_diag, firstn_all, skipn_app, Nat.sub_diag, skipn_all. cbn [firstn skipn app]. rewrite app_nil_r, text_eqb_refl, Hn. now left.
    + intros tr n Hin. assert (En : p ++ lit "/" ++ n = entry p n) by (destruct Hp as [<-|[<-|[<-|[<-|[]]]]]; reflexivity). rewrite En.
      assert (Eh' : has (entry p n) tree = true). { apply existsb_exists. exists (entry p n). split; [exact Hin|apply text_eqb_refl]. } rewrite Dr, Eh'. split; [|reflexivity].
      destruct Hin as [<-|[<-|[<-|[<-|[]]]]]; apply Nat.leb_le; vm_compute; reflexivity.
  - cbn [os_is_dir dfs_base]. intros tr p Hp. rewrite Dr. destruct Hp as [<-|[<-|[<-|[<-|[]]]]]; reflexivity.
Qed.
Lemma tree_leads w k : map fst (dk_dirs k) = tree -> leads (kern_start tree []) (dfs_base w k) (lit "/w") (lit "/w").
Proof. intros E. apply (sh_leads _ _ (tree_shows w k E)). now left. Qed.
Lemma dscripted_still m v D F w ws : dstill_start (dscripted m v D F w ws).
Proof.
  intros tr H. cbn. split; [|reflexivity]. replace (count is_wait tr) with 0%nat; [reflexivity|]. unfold count. symmetry. induction H as [|x tr H _ IH]; [reflexivity|]. cbn. destruct x; cbn; auto; contradiction.
Qed.
Example C127_example :
  de_start moving = dk_start tree [lit "/w/d/old"] /\ dunprivileged moving /\ dstill_start moving /\
  (forall k, map fst (dk_dirs k) = tree -> shows (kern_start tree []) (de_base moving k)) /\
  (forall k, map fst (dk_dirs k) = tree -> leads (kern_start tree []) (de_base moving k) (lit "/w") (lit "/w")) /\ (Z.of_nat (length tree) < 2147483647)%Z /\
  under tree (lit "/w") (lit "/w/d") /\
  exists x ns y, dk_log (dstate moving (drun moving 20 (lit "/w") 5)) = x ++ (DMake false (lit "/w/D") (lit "f"), ns) :: y /\ now_at (lit "/w/d") x = Some (lit "/w/D").
Proof.
  split; [reflexivity|]. split; [intros k tr; discriminate|]. split; [apply dscripted_still|]. split; [intros; now apply tree_shows|]. split; [intros; now apply tree_leads|]. split; [reflexivity|].
  split; [apply (UnderSub _ _ (lit "d")); [now left|reflexivity|]; apply UnderHere; right; now left|].
  set (l := dk_log _). exists (firstn 1 l), (snd (nth 1 l (DWrite [] [], []))), (skipn 2 l). split; vm_compute; reflexivity.
Qed.

(** ** C125: after an overflow *)
(** What was watched is still watched: see C127.  The full claim: once the overflow is
    announced and all is read, every directory of the tree is watched, or the user is
    warned of it.  A directory made while records were lost is never watched. *)
Theorem C125_watching_goes_on_after_an_overflow_partial :
  forall e D F fuel path root il, de_start e = dk_start D F -> dunprivileged e -> dstill_start e ->
    (forall k, map fst (dk_dirs k) = D -> shows (kern_start D []) (de_base e k)) ->
    (forall k, map fst (dk_dirs k) = D -> leads (kern_start D []) (de_base e k) path root) -> (Z.of_nat (length D) < 2147483647)%Z ->
    let o := drun e fuel path il in
    dk_queue (dstate e o) = [] ->
    forall x c ns y p arrival, dk_log (dstate e o) = x ++ (c, ns) :: y -> under D root p -> has_place c arrival ->
    now_at p x = Some (place_of c arrival) ->
    (* nothing of this change was lost, whatever was before *)
    (forall n f, In (n, f) ns -> f <> Lost) ->
    exists ev, In ev (map shape_of (callbacks o)) /\ mentions ev c arrival p.
Proof.
  intros e D F fuel path root il S U St Sh Ld Few. cbv zeta. intros Q x c ns y p a El Un Hp Hn Nl.
  assert (Hu : forall tr, os_geteuid (dsystem e) tr <> 0%Z) by (intros tr; apply U).
  destruct (watch_at_start e D F S St Sh Few path root Ld fuel il Hu p Un x c ns y a El Hp Hn) as (mv & f & Hin).
  pose proof (deep_end e D F fuel path il S U Q) as T.
  assert (Fo : fates_ok (dstate e (drun e fuel path il))).
  { apply always_state; [rewrite S; apply fates_start|intros; now apply fates_happen|intros; now apply fates_mark|intros; now apply fates_read]. }
  destruct Fo as [_ Fo]. assert (Hr : In (About mv c a p, f) (recorded (dstate e (drun e fuel path il)))).
  { unfold recorded. apply in_flat_map. exists (c, ns). split; [rewrite El; apply in_elt|exact Hin]. }
  pose proof (Fo _ _ Hr) as H. destruct f; cbn [fate_ok] in H.
  - destruct (told_mentions _ _ T _ _ _ _ H) as (ev & H1 & H2). exists ev. split; [now apply news_shown|exact H2].
  - destruct H as (mv' & o' & a' & H & Ea & Em). destruct (told_mentions _ _ T _ _ _ _ H) as (ev & H1 & H2). exists ev. split; [now apply news_shown|].
    destruct H2 as [->|H2]; [left; congruence|]. destruct o'; try contradiction. discriminate Em.
  - now destruct (Nl _ _ Hin).
Qed.
Print Assumptions C125_watching_goes_on_after_an_overflow_partial.
Theorem C125_watching_goes_on_after_an_overflow_refuted :
  exists e, de_start e = dk_start tree [] /\ dunprivileged e /\ dstill_start e /\
    (forall k, map fst (dk_dirs k) = tree -> shows (kern_start tree []) (de_base e k)) /\ (forall tr, de_deny e tr = false) /\
    let o := drun e 20 (lit "/w") 5 in
    dk_queue (dstate e o) = [] /\ snd (linux_watch (dsystem e) 20 (lit "/w") 5 []) = Ok true /\
    map fst (dk_log (dstate e o)) =
      [DMake false (lit "/w") (lit "a"); DMake false (lit "/w/d") (lit "b"); DMake true (lit "/w") (lit "n");
       DMake false (lit "/w/n") (lit "c"); DRemove (lit "/w") (lit "a")] /\
    (* the last two changes are after the warning; only the one in /w is told *)
    map shape_of (callbacks o) =
      [Sh (lit "/w/a") EtCreate PtFile None; Sh (lit "/w/d/b") EtCreate PtFile None; lost_warning; Sh (lit "/w/a") EtDestroy PtFile None] /\
    wd_at (dstate e o) (lit "/w/n") = None.
Proof.
  exists flood. split; [reflexivity|]. split; [intros k tr; discriminate|]. split; [apply dscripted_still|]. split; [intros; now apply tree_shows|]. split; [reflexivity|].
  vm_compute. repeat split; reflexivity.
Qed.
Print Assumptions C125_watching_goes_on_after_an_overflow_refuted.
Example C125_example : let k := dstate flood (drun flood 20 (lit "/w") 5) in
  losses k = 1%nat /\ exists x ns y, dk_log k = x ++ (DRemove (lit "/w") (lit "a"), ns) :: y /\ length x = 4%nat /\ now_at (lit "/w") x = Some (lit "/w") /\ map snd ns = [Queued].
Proof.
  cbv zeta. split; [vm_compute; reflexivity|]. set (l := dk_log _). exists (firstn 4 l), (snd (nth 4 l (DWrite [] [], []))), (skipn 5 l). vm_compute. repeat split; reflexivity.
Qed.

(** ** C126: only what is in the tree *)
Lemma given_asked e tr : danswers e [] tr -> (exists d f, de_start e = dk_start d f) -> forall wd P, In (wd, P) (dk_given (dstate e tr)) -> exists fd m, In (OAddWatch fd P m wd) tr /\ (0 < wd)%Z.
Proof.
  intros A (D & F & S). induction tr as [|x tr IH] using rev_ind; intros wd P H.
  - unfold dstate in H. cbn in H. rewrite S in H. destruct H.
  - apply danswers_app in A as [A [Ax _]]. rewrite dstate_snoc in H. specialize (IH A wd P).
    assert (Old : In (wd, P) (dk_given (dstate e tr)) -> exists fd m, In (OAddWatch fd P m wd) (tr ++ [x]) /\ (0 < wd)%Z).
    { intros Ho. destruct (IH Ho) as (fd & m & H1 & H2). exists fd, m. split; [apply in_app_iff; now left|exact H2]. }
    destruct x; cbn [deffect] in H; rewrite ?dat_given in H; auto.
    + cbn [dagree app] in Ax. destruct Ax as (-> & -> & Ew). rewrite dadding_ours in H. unfold dmarking in *.
      destruct (negb _ && _); [|cbn in H; rewrite dat_given in H; auto]. destruct (wd_at _ _) eqn:W; [cbn in H; rewrite dat_given in H; auto|].
      destruct (_ <? _)%Z; [|cbn in H; rewrite dat_given in H; auto]. cbn [snd fst dk_given] in *. apply in_app_iff in H as [H|[[= <- <-]|[]]]; [rewrite dat_given in H; auto|].
      rewrite <- Ew. do 2 eexists. split; [apply in_app_iff; right; now left|]. pose proof (di_next _ _ _ _ _ (kg_inv _ (kgood_at e (ex_intro _ D (ex_intro _ F S)) tr))); lia.
    + unfold dreading in H. destruct (dk_queue _); [cbn in H; rewrite dat_given in H; auto|]. destruct (negb _); cbn in H; rewrite dat_given in H; auto.
Qed.
(** Every event is in a directory that the watcher asked for before. *)
Theorem C126_events_concern_the_tree_partial :
  forall e D F fuel path il, de_start e = dk_start D F -> dunprivileged e ->
    forall a ev b, drun e fuel path il = a ++ OCallback ev :: b -> ev_ptype ev <> PtWatcher ->
    exists dir name fd m wd, ev_path ev = entry dir name /\ In (OAddWatch fd dir m wd) a /\ (0 < wd)%Z.
Proof.
  intros e D F fuel path il S U a ev b E Hp.
  destruct (deep_invariant e D F fuel path il S U) as (known & A). pose proof (dv_answers _ _ _ A) as An. rewrite E in An. apply danswers_app in An as [An _].
  replace (a ++ OCallback ev :: b) with ((a ++ [OCallback ev]) ++ b) in E by (rewrite <- app_assoc; reflexivity).
  destruct (deep_told e D F fuel path il S U _ _ E) as (rest & T).
  assert (Hin : In (shape_of ev) (news (a ++ [OCallback ev]) ++ rest)).
  { apply in_app_iff. left. rewrite news_app. apply in_app_iff. right. unfold news. cbn.
    destruct ev as [p et pt t asc]. cbn in Hp. destruct pt; cbn; auto; congruence. }
  rewrite dstate_snoc in T. cbn [deffect] in T.
  pose proof (log_ok_at e D F S a) as [K _ L].
  assert (Ep : exists f t s, shape_of ev = Sh (ev_path ev) f t s) by (destruct ev as [p et pt t [[]|]]; cbn; eauto). destruct Ep as (ef & et & es & Ep).
  assert (G : forall mv o ar dir, In (About mv o ar dir) (due (dat_call e a)) -> exists fd m wd, In (OAddWatch fd dir m wd) a /\ (0 < wd)%Z).
  { intros mv o ar dir H. apply due_logged in H as (x & o' & ns & y & f & El & Hn). destruct (L _ _ _ _ El _ _ _ _ _ Hn) as (_ & _ & wd & HG). rewrite dat_given in HG.
    destruct (given_asked e a An (dstarted e D F S) wd dir HG) as (fd & m & H1 & H2). eauto. }
  destruct (told_from_one _ _ T _ Hin) as [Hw|[(mv & o & ar & dir & H & H')|(mv & d & p & n & p' & n' & dir & dir' & H & H1 & H2)]].
  - exfalso. destruct ev as [p et0 pt t asc]. cbn in Hw, Hp. unfold lost_warning, warning in Hw. congruence.
  - destruct (G _ _ _ _ H) as (fd & m & wd & X). exists dir, (name_of o ar), fd, m, wd. split; [unfold alone in H'; congruence|exact X].
  - destruct (G _ _ _ _ H) as (fd & m & wd & X). exists dir, n, fd, m, wd. split; [congruence|exact X].
Qed.
Print Assumptions C126_events_concern_the_tree_partial.
(** The full claim: no event concerns anything outside the tree.  A directory moved out of
    it is told of for ever, under its old path, where there is nothing. *)
Definition leaving : denv := dscripted 1000 256 tree [] [now_ready; now_ready]
  [[DMove true (lit "/w") (lit "d") (lit "/x") (lit "d")]; [DMake false (lit "/x/d") (lit "f"); DMake false (lit "/x") (lit "g")]].
Theorem C126_events_concern_the_tree_refuted :
  exists e, de_start e = dk_start tree [] /\ dunprivileged e /\
    let o := drun e 20 (lit "/w") 5 in
    snd (linux_watch (dsystem e) 20 (lit "/w") 5 []) = Ok true /\
    map fst (dk_log (dstate e o)) = [DMove true (lit "/w") (lit "d") (lit "/x") (lit "d"); DMake false (lit "/x/d") (lit "f"); DMake false (lit "/x") (lit "g")] /\
    map shape_of (callbacks o) = [Sh (lit "/w/d") EtRename PtDir None; Sh (lit "/w/d/f") EtCreate PtFile None] /\
    map fst (dk_dirs (dstate e o)) = [lit "/w"; lit "/x/d"; lit "/w/e"; lit "/x"] /\ dk_files (dstate e o) = [lit "/x/d/f"; lit "/x/g"].
Proof. exists leaving. split; [reflexivity|]. split; [intros k tr; discriminate|]. vm_compute. repeat split; reflexivity. Qed.
Print Assumptions C126_events_concern_the_tree_refuted.
Example C126_example : exists a ev b, drun leaving 20 (lit "/w") 5 = a ++ OCallback ev :: b /\ ev_ptype ev = PtFile /\ ev_path ev = entry (lit "/w/d") (lit "f").
Proof.
  assert (H : exists i ev, nth_error (drun leaving 20 (lit "/w") 5) i = Some (OCallback ev) /\ ev_ptype ev = PtFile /\ ev_path ev = entry (lit "/w/d") (lit "f")).
  { exists 29%nat. vm_compute. eexists. repeat split; reflexivity. }
  destruct H as (i & ev & H & H'). apply nth_error_split in H as (a & b & E & _). eauto.
Qed.

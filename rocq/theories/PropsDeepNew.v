(** Theorem C134: new directories on the filesystem of [DeepSpec], where directories are
    moved and the kernel's queue is limited.  The adapter (include/wtr/watcher.hpp:1299-1726)
    is that of [LinuxWatch], unchanged. *)
From Verif Require Import Base PathModel EventModel Sys SysFacts LinuxModel LinuxWatch LinuxSpec InotifySpec InotifyFacts InotifyRun
  ExampleOs KernelSpec KernelFacts KernelRun KernelWatch DeepSpec DeepFacts DeepRun DeepLog DeepWatch PropsDeep.
From Verif Require Answers PropsLinux.

(** ** The read that takes a record *)
Lemma read_grows e tr x : exists l, dk_read (dstate e (tr ++ [x])) = dk_read (dstate e tr) ++ l /\
  (l <> [] -> exists fd r, x = ORead fd r) /\ exists l', everything (dat_call e tr) = (dk_read (dstate e tr) ++ l) ++ l'.
Proof.
  rewrite dstate_snoc. unfold everything. rewrite dat_read.
  assert (None_ : forall k, dk_read k = dk_read (dstate e tr) -> exists l, dk_read k = dk_read (dstate e tr) ++ l /\
    (l <> [] -> exists fd r, x = ORead fd r) /\ exists l', dk_read (dstate e tr) ++ dk_queue (dat_call e tr) = (dk_read (dstate e tr) ++ l) ++ l').
  { intros k E. exists []. rewrite !app_nil_r. split; [exact E|]. split; [intros H; now destruct H|]. eexists. reflexivity. }
  destruct x; cbn [deffect]; try (apply None_; apply dat_read).
  - apply None_. unfold dadding. destruct (negb _); [apply dat_read|]. destruct (dasks_all _); [|apply dat_read]. unfold dmarking.
    destruct (_ && _); [|apply dat_read]. destruct (wd_at _ _); [apply dat_read|]. destruct (_ <? _)%Z; apply dat_read.
  - unfold dreading. destruct (dk_queue (dat_call e tr)) as [|s q] eqn:Q.
    { exists []. cbn [snd]. rewrite !app_nil_r, dat_read. split; [reflexivity|]. split; [intros H; now destruct H|]. exists []. now rewrite app_nil_r. }
    destruct (negb _).
    { exists []. cbn [snd]. rewrite !app_nil_r, dat_read. split; [reflexivity|]. split; [intros H; now destruct H|]. exists (s :: q). reflexivity. }
    cbn [snd dk_read]. rewrite dat_read. set (c := fitting _ _ _). exists (firstn c (s :: q)). split; [reflexivity|]. split; [eauto|].
    exists (skipn c (s :: q)). rewrite <- app_assoc. now rewrite firstn_skipn.
Qed.
Lemma read_call e i : forall tr, (length (dk_read (dstate e [])) <= i < length (dk_read (dstate e tr)))%nat ->
  exists a fd r b, tr = a ++ ORead fd r :: b /\ (length (dk_read (dstate e a)) <= i < length (everything (dat_call e a)))%nat.
Proof.
  induction tr as [|x tr IH] using rev_ind; intros H; [lia|].
  destruct (read_grows e tr x) as (l & E & Hl & l' & E'). rewrite E, app_length in H.
  destruct (Nat.lt_ge_cases i (length (dk_read (dstate e tr)))) as [Lt|Ge].
  - destruct IH as (a & fd & r & b & -> & H'); [lia|]. exists a, fd, r, (b ++ [x]). split; [rewrite <- app_assoc; reflexivity|exact H'].
  - destruct l as [|s l]; [cbn in H; lia|]. destruct Hl as (fd & r & ->); [discriminate|]. exists tr, fd, r, []. split; [reflexivity|].
    rewrite E', !app_length. cbn in H |- *. lia.
Qed.

Lemma callbacks_in o ev : In ev (callbacks o) -> In (OCallback ev) o.
Proof. induction o as [|x o IH]; [intros []|]. intros H. destruct x; try (right; now apply IH). destruct H as [<-|H]; [now left|right; now apply IH]. Qed.

(** ** What is recorded is told *)
Section Facts.
  Variables (e : denv) (D F : list text) (fuel : nat) (path : text) (il : Z).
  Hypothesis start : de_start e = dk_start D F.
  Hypothesis unpriv : dunprivileged e.
  Notation o := (drun e fuel path il).
  Hypothesis quiet : dk_queue (dstate e o) = [].
  Lemma recorded_told mv c ar P f : In (About mv c ar P, f) (recorded (dstate e o)) ->
    exists ev, In ev (map shape_of (callbacks o)) /\ (mentions ev c ar P \/ ev = lost_warning /\ (0 < losses (dstate e o))%nat).
  Proof.
    intros Hr. pose proof (deep_end e D F fuel path il start unpriv quiet) as T.
    assert (Fo : fates_ok (dstate e o)).
    { apply always_state; [rewrite start; apply fates_start|intros; now apply fates_happen|intros; now apply fates_mark|intros; now apply fates_read]. }
    destruct Fo as [_ Fo]. pose proof (Fo _ _ Hr) as H. destruct f; cbn [fate_ok] in H.
    - destruct (told_mentions _ _ T _ _ _ _ H) as (ev & H1 & H2). exists ev. split; [now apply news_shown|now left].
    - destruct H as (mv' & o' & a' & H & Ea & Em). destruct (told_mentions _ _ T _ _ _ _ H) as (ev & H1 & H2). exists ev. split; [now apply news_shown|]. left.
      destruct H2 as [->|H2]; [left; congruence|]. destruct o'; try contradiction. discriminate Em.
    - exists lost_warning. split; [apply news_shown; now apply (told_gap _ _ T)|right]. split; [reflexivity|].
      unfold losses. assert (X : In (About mv c ar P, Lost) (filter is_lost (recorded (dstate e o)))) by (apply filter_In; split; [exact Hr|reflexivity]).
      destruct (filter is_lost (recorded _)); [destruct X|cbn; lia].
  Qed.
  Definition due_in (l : list (dop * list (notice * fate))) : list notice := map fst (filter is_queued (flat_map snd l)).
  Lemma due_in_app l l' : due_in (l ++ l') = due_in l ++ due_in l'.
  Proof. unfold due_in. now rewrite flat_map_app, filter_app, map_app. Qed.

  (** The record of a new directory is read, and told after that. *)
  Lemma new_dir_told x p n ns y mv dir : dk_log (dstate e o) = x ++ (DMake true p n, ns) :: y ->
    In (About mv (DMake true p n) false dir, Queued) ns ->
    exists a fd r b1 ev b2 y1, o = (a ++ ORead fd r :: b1) ++ OCallback ev :: b2 /\ shape_of ev = alone (DMake true p n) false dir /\
      dk_log (dat_call e a) = x ++ (DMake true p n, ns) :: y1.
  Proof.
    intros El Hn. destruct (deep_invariant e D F fuel path il start unpriv) as (known & A).
    apply in_split in Hn as (n1 & n2 & En). set (nt := About mv (DMake true p n) false dir) in *.
    set (i := (length (due_in x) + length (map fst (filter is_queued n1)))%nat).
    pose proof (kg_due _ (lo_good _ (log_ok_state e D F start o))) as Du. unfold everything in Du. rewrite quiet, app_nil_r in Du.
    assert (Ed : due (dstate e o) = (due_in x ++ map fst (filter is_queued n1)) ++ nt :: map fst (filter is_queued n2) ++ due_in y).
    { unfold due, recorded. rewrite El. change (due_in (x ++ (DMake true p n, ns) :: y) = (due_in x ++ map fst (filter is_queued n1)) ++ nt :: map fst (filter is_queued n2) ++ due_in y).
      rewrite due_in_app. unfold due_in at 2. cbn [flat_map snd]. rewrite En, !filter_app, !map_app. cbn [filter is_queued snd map fst]. rewrite <- !app_assoc. reflexivity. }
    assert (Li : i = length (due_in x ++ map fst (filter is_queued n1))) by (unfold i; now rewrite app_length).
    destruct (read_call e i o) as (a & fd & r & b & Eo & Ha1 & Ha2).
    { split; [unfold dstate; cbn; rewrite start; cbn; lia|]. assert (HL : length (dk_read (dstate e o)) = length (due (dstate e o))) by (rewrite <- Du; symmetry; apply map_length).
      rewrite HL, Ed, app_length, <- Li. cbn [length]. lia. }
    destruct (dv_told _ _ _ A a (ORead fd r :: b) Eo) as (l2 & l3 & mid & E1 & _ & T3 & E4). rewrite Du, Ed in E4.
    assert (Hmid : In nt mid).
    { apply app_split in E4 as [(z & Ez & Em)|(z & Ez & Em)]; [rewrite Em; apply in_elt|].
      destruct z as [|w z]; [cbn in Em; rewrite <- Em; now left|]. exfalso. pose proof (map_length snd (dk_read (dstate e a))) as ML. rewrite Ez, app_length, <- Li in ML. cbn [length] in ML. unfold sent in *. lia. }
    destruct (told_mentions _ _ T3 _ _ _ _ Hmid) as (s & Hs & [Es|[]]).
    assert (Hb : In s (map shape_of (callbacks (ORead fd r :: b)))) by (apply news_shown; rewrite E1; apply in_app_iff; now right).
    apply in_map_iff in Hb as (ev & Ev & Hev). apply callbacks_in in Hev. destruct Hev as [Hev|Hev]; [discriminate|].
    apply in_split in Hev as (b1 & b2 & ->).
    assert (Ly : exists y1, dk_log (dat_call e a) = x ++ (DMake true p n, ns) :: y1).
    { destruct (more_at e a (ORead fd r) (b1 ++ OCallback ev :: b2)) as (l & Em). rewrite <- Eo, El in Em. symmetry in Em.
      apply app_cons_split in Em as [(y' & -> & _)|(x' & Ex & _)]; [eauto|]. exfalso.
      pose proof (kg_due _ (lo_good _ (log_ok_at e D F start a))) as Da. unfold due, recorded in Da. change (map snd (everything (dat_call e a)) = due_in (dk_log (dat_call e a))) in Da.
      pose proof (map_length snd (everything (dat_call e a))) as ML. rewrite Da in ML. unfold i in Ha2. rewrite Ex, due_in_app, app_length in Ha2. unfold sent in *. lia. }
    destruct Ly as (y1 & Ly). exists a, fd, r, b1, ev, b2, y1. split; [rewrite Eo, <- app_assoc; reflexivity|]. split; [congruence|exact Ly].
  Qed.
End Facts.

(** ** C134 *)
(** The record of a new directory [n] in [p], which was watched as [dir], was put into the
    queue.  Then the user is warned, or the directory that was at [dir]/[n] when the record
    was handled has a watch; and if that was the new directory, every change in it from then
    on is told, wherever it is moved, or the user is warned that something was lost. *)
Theorem C134_new_directories_are_watched_or_warned_partial :
  forall e D F fuel path il, de_start e = dk_start D F -> dunprivileged e ->
    (* no links *)
    (forall k tr q r, os_realpath (de_base e k) tr q = Some r -> r = q) ->
    let o := drun e fuel path il in
    dk_queue (dstate e o) = [] ->
    forall x p n ns y mv dir, dk_log (dstate e o) = x ++ (DMake true p n, ns) :: y ->
    In (About mv (DMake true p n) false dir, Queued) ns ->
    (dir = p \/ moved_away x dir) /\
    ((exists ev, In (OCallback ev) o /\ shape_of ev = warning "w/sys/not_watched@" (entry dir n)) \/
     (exists a fd m wd b y1 y2, o = a ++ OAddWatch fd (entry dir n) m wd :: b /\ (0 < wd)%Z /\ y = y1 ++ y2 /\
        dk_log (dat_call e a) = x ++ (DMake true p n, ns) :: y1 /\
        (now_at (entry p n) y1 = Some (entry dir n) ->
         exists P, (P = entry dir n \/ moved_away (dk_log (dat_call e a)) P) /\
           forall z c ns' z' arrival, y2 = z ++ (c, ns') :: z' -> has_place c arrival ->
           now_at (entry p n) (y1 ++ z) = Some (place_of c arrival) ->
           exists ev, In ev (map shape_of (callbacks o)) /\
             (mentions ev c arrival P \/ ev = lost_warning /\ (0 < losses (dstate e o))%nat)))).
Proof.
  intros e D F fuel path il S U NoL. cbv zeta. intros Q x p n ns y mv dir El Hn.
  split. { pose proof (lo_log _ (log_ok_state e D F S (drun e fuel path il)) _ _ _ _ El _ _ _ _ _ Hn) as (_ & H & _). exact H. }
  destruct (new_dir_told e D F fuel path il S U Q x p n ns y mv dir El Hn) as (a & fd & r & b1 & ev & b2 & y1 & Eo & Esh & Ly).
  assert (Hd : is_new_dir ev /\ ev_path ev = entry dir n).
  { unfold alone in Esh. destruct ev as [q et pt t asc]. destruct asc as [[]|]; cbn in Esh; [discriminate|]. injection Esh as -> -> ->. repeat split. }
  destruct Hd as [Hd Hp]. unfold drun in Eo.
  destruct (PropsLinux.C26_new_directories_marked_before_announced (dsystem e) fuel path il [] _ _ _ Eo Hd) as (o0 & m & Em & At). rewrite Hp in At.
  destruct (deep_invariant e D F fuel path il S U) as (known & A). pose proof (dv_answers _ _ _ A) as An. unfold drun in An. rewrite Eo in An.
  destruct At as [real fdm mask wd Hwd Hm|real fdm mask Hm|m t].
  3:{ left. fold (drun e fuel path il) in Eo. rewrite Eo. exists (Ev (lit "w/sys/not_watched@" ++ entry dir n) EtOther PtWatcher t None). split; [|reflexivity].
      apply in_app_iff. left. rewrite Em. apply in_app_iff. right. apply in_app_iff. right. right. now left. }
  2:{ exfalso. rewrite Em in An. apply danswers_app in An as [An _]. apply danswers_app in An as [_ An]. cbn in An. tauto. }
  right.
  assert (Hreal : real = entry dir n).
  { pose proof (Answers.watch_answers (dsystem e) (fun _ => True) (fun _ _ => Coq.Init.Logic.I) (fun _ _ _ _ => Coq.Init.Logic.I) fuel path il []) as W. rewrite Eo, Em in W.
    apply Answers.answers_app in W as [W _]. apply Answers.answers_app in W as [_ [W _]]. destruct W as [W _]. cbn [Answers.answer os_realpath dsystem] in W. symmetry in W. now apply NoL in W. }
  subst real. set (w := OAddWatch fdm (entry dir n) mask wd) in *.
  (* the mark is after the read *)
  assert (Hb : exists b1', a ++ ORead fd r :: b1 = (a ++ ORead fd r :: b1') ++ [w]).
  { destruct (@exists_last _ (ORead fd r :: b1)) as (b1' & w' & Eb); [discriminate|].
    replace (o0 ++ [ORealpath (entry dir n) (Some (entry dir n)); OStatDir (entry dir n) true; w]) with ((o0 ++ [ORealpath (entry dir n) (Some (entry dir n)); OStatDir (entry dir n) true]) ++ [w]) in Em by (rewrite <- app_assoc; reflexivity).
    rewrite Eb, app_assoc in Em. apply app_inj_tail in Em as [_ ->].
    destruct b1' as [|w1 b1']; [discriminate Eb|]. injection Eb as <- Eb. exists b1'. rewrite Eb, <- app_assoc. reflexivity. }
  destruct Hb as (b1' & Eb). rewrite Eb in Eo, An. set (a' := a ++ ORead fd r :: b1') in *. fold (drun e fuel path il) in Eo.
  destruct (more_at e a (ORead fd r) b1') as (l & E1). fold a' in E1.
  destruct (more_happens (de_max e) (de_ops e a') (dstate e a')) as (l' & E2). fold (dat_call e a') in E2. rewrite E1, Ly in E2.
  exists a', fdm, mask, wd, (OCallback ev :: b2), (y1 ++ l ++ l').
  apply danswers_app in An as [An _]. apply danswers_app in An as [_ [An _]]. cbn [app] in An.
  pose proof (dmarked_watched e a' fdm (entry dir n) mask wd An Hwd) as (wd' & W). fold w in W.
  assert (Gd : kgood (dstate e (a' ++ [w]))) by (apply kgood_state; eauto).
  assert (Uq : uniq (dstate e (a' ++ [w]))) by (apply always_state; [rewrite S; apply uniq_start|intros; now apply uniq_happen|intros; now apply uniq_mark|intros; now apply uniq_read]).
  destruct (di_watch _ _ _ _ _ (kg_inv _ Gd) _ _ W) as (P & HP).
  destruct (stays_state wd' P e (OCallback ev :: b2) (a' ++ [w]) (conj Uq (conj Gd HP))) as (_ & y2 & E3 & K). destruct (K _ W) as [T _].
  replace (dstate e ((a' ++ [w]) ++ OCallback ev :: b2)) with (dstate e (drun e fuel path il)) in E3 by (now rewrite Eo).
  assert (E4 : dk_log (dstate e (a' ++ [w])) = dk_log (dat_call e a')) by (rewrite dstate_snoc; apply same_log_effect).
  rewrite E4, E2, El in E3. rewrite <- !app_assoc in E3. apply app_inv_head in E3. cbn [app] in E3. injection E3 as E3.
  exists y2. split; [rewrite Eo, <- app_assoc; reflexivity|]. split; [exact Hwd|]. split; [rewrite E3, <- !app_assoc; reflexivity|]. split; [rewrite E2, <- !app_assoc; reflexivity|].
  intros Now. exists P. split.
  { destruct (lo_place _ (log_ok_state e D F S (a' ++ [w])) _ _ _ W HP) as [->|M]; [now left|right; now rewrite E4 in M]. }
  intros z c ns' z' ar Ez Hpl Hz. rewrite now_at_app, Now in Hz.
  destruct (T z c ns' z' ar Ez Hpl Hz) as (mv' & f & Hin).
  apply (recorded_told e D F fuel path il S U Q mv' c ar P f). unfold recorded. apply in_flat_map. exists (c, ns'). split; [|exact Hin].
  rewrite El, E3, Ez. apply in_app_iff. right. right. apply in_app_iff. right. apply in_app_iff. right. apply in_app_iff. right. apply in_app_iff. right. now left.
Qed.
Print Assumptions C134_new_directories_are_watched_or_warned_partial.
(** A new directory is moved out of the tree after it is watched: what happens in it is told,
    under the path it was made at. *)
Definition new_one : denv := dscripted 1000 256 tree [] [now_ready; now_ready]
  [[DMake true (lit "/w/d") (lit "n")]; [DMove true (lit "/w/d") (lit "n") (lit "/x") (lit "m"); DMake false (lit "/x/m") (lit "f")]].
Lemma no_links w k (tr : trace) q r : os_realpath (dfs_base w k) tr q = Some r -> r = q.
Proof. cbn. destruct (_ || _); congruence. Qed.
Example C134_example : let o := drun new_one 20 (lit "/w") 5 in let log := dk_log (dstate new_one o) in
  de_start new_one = dk_start tree [] /\ dunprivileged new_one /\ dk_queue (dstate new_one o) = [] /\
  (forall k tr q r, os_realpath (de_base new_one k) tr q = Some r -> r = q) /\
  log = [] ++ (DMake true (lit "/w/d") (lit "n"), [(About 0 (DMake true (lit "/w/d") (lit "n")) false (lit "/w/d"), Queued)]) :: skipn 1 log /\
  map fst (skipn 1 log) = [DMove true (lit "/w/d") (lit "n") (lit "/x") (lit "m"); DMake false (lit "/x/m") (lit "f")] /\
  now_at (lit "/w/d/n") (firstn 1 (skipn 1 log)) = Some (lit "/x/m") /\
  In (Sh (lit "/w/d/n/f") EtCreate PtFile None) (map shape_of (callbacks o)).
Proof.
  cbv zeta. split; [reflexivity|]. split; [intros k tr; discriminate|]. split; [vm_compute; reflexivity|]. split; [intros k tr q r; apply no_links|].
  vm_compute. repeat split; tauto.
Qed.
(** The full claim: every new directory in a watched one is watched, or the user is warned.
    A directory made and renamed before its record is handled is not, if another was made
    in its place; nor is one made in a directory that was renamed, if there is another at the
    old path.  In both runs nothing is lost, no watch is denied, and no warning is given. *)
Definition replaced : denv := dscripted 1000 256 tree [] [now_ready; now_ready]
  [[DMake true (lit "/w") (lit "n"); DMove true (lit "/w") (lit "n") (lit "/w") (lit "m"); DMake true (lit "/w") (lit "n")];
   [DMake false (lit "/w/m") (lit "f")]].
Definition doubled : denv := dscripted 1000 256 tree [] [now_ready; now_ready; now_ready]
  [[DMove true (lit "/w") (lit "d") (lit "/w") (lit "D"); DMake true (lit "/w") (lit "d"); DMake true (lit "/w/d") (lit "n")];
   [DMake true (lit "/w/D") (lit "n")]; [DMake false (lit "/w/D/n") (lit "f")]].
Theorem C134_new_directories_are_watched_or_warned_refuted :
  exists e1 e2, de_start e1 = dk_start tree [] /\ de_start e2 = dk_start tree [] /\ dunprivileged e1 /\ dunprivileged e2 /\
    (forall tr, de_deny e1 tr = false) /\ (forall tr, de_deny e2 tr = false) /\
    let o1 := drun e1 20 (lit "/w") 5 in let o2 := drun e2 20 (lit "/w") 5 in
    dk_queue (dstate e1 o1) = [] /\ losses (dstate e1 o1) = 0%nat /\ dk_queue (dstate e2 o2) = [] /\ losses (dstate e2 o2) = 0%nat /\
    map fst (dk_log (dstate e1 o1)) =
      [DMake true (lit "/w") (lit "n"); DMove true (lit "/w") (lit "n") (lit "/w") (lit "m"); DMake true (lit "/w") (lit "n");
       DMake false (lit "/w/m") (lit "f")] /\
    map shape_of (callbacks o1) =
      [Sh (lit "/w/n") EtCreate PtDir None; Sh (lit "/w/n") EtRename PtDir (Some (Sh (lit "/w/m") EtRename PtDir None));
       Sh (lit "/w/n") EtCreate PtDir None] /\
    wd_at (dstate e1 o1) (lit "/w/m") = None /\ wd_at (dstate e2 o2) (lit "/w/D/n") = None /\
    map fst (dk_log (dstate e2 o2)) =
      [DMove true (lit "/w") (lit "d") (lit "/w") (lit "D"); DMake true (lit "/w") (lit "d"); DMake true (lit "/w/d") (lit "n");
       DMake true (lit "/w/D") (lit "n"); DMake false (lit "/w/D/n") (lit "f")] /\
    map shape_of (callbacks o2) =
      [Sh (lit "/w/d") EtRename PtDir (Some (Sh (lit "/w/D") EtRename PtDir None)); Sh (lit "/w/d") EtCreate PtDir None;
       Sh (lit "/w/d/n") EtCreate PtDir None].
Proof.
  exists replaced, doubled. do 2 (split; [reflexivity|]). do 2 (split; [intros k tr; discriminate|]). do 2 (split; [reflexivity|]).
  vm_compute. repeat split.
Qed.
Print Assumptions C134_new_directories_are_watched_or_warned_refuted.

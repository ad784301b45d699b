(** Theorems C98 and C99: files and directories moved between the watched tree and other
    places, as seen through the inotify adapter (include/wtr/watcher.hpp:1299-1726) on
    the filesystem of [KernelSpec]. *)
From Verif Require Import Base EventModel Sys InotifySpec LinuxWatch KernelSpec KernelFacts KernelRun PropsKernel.

(** ** C98: arrivals and departures *)
Lemma told_single cs l : told cs l -> forall p t, In (Sh p EtRename t None) cs -> In (Sh p EtRename t None) l.
Proof.
  induction 1 as [|c cs l _ IH|p q t cs l _ IH|p t cs l _ IH]; intros p' t' Hin.
  - destruct Hin.
  - destruct Hin as [->|Hin]; [now left|right; auto].
  - destruct Hin as [Hin|Hin]; [discriminate|right; right; auto].
  - destruct Hin as [Hin|Hin]; [discriminate|auto].
Qed.
(** A file or directory that enters or leaves a watched directory is reported under
    its path there, as a rename without a counterpart. *)
Theorem C98_arrivals_and_departures_are_reported_partial :
  forall e D F fuel path il, e_start e = kern_start D F -> unprivileged e ->
    let o := run e fuel path il in
    kn_queue (state e o) = [] ->
    (forall d p n, In (MoveIn d p n, true) (kn_log (state e o)) ->
       exists ev, In (OCallback ev) o /\ shape_of ev = Sh (entry p n) EtRename (if d then PtDir else PtFile) None) /\
    (forall p n, In (MoveOut p n, true) (kn_log (state e o)) ->
       exists ev, In (OCallback ev) o /\ shape_of ev = Sh (entry p n) EtRename PtFile None).
Proof.
  intros e D F fuel path il S U. cbv zeta. intros Q. pose proof (told_end e D F fuel path il S U Q) as T.
  set (o := run e fuel path il) in *.
  assert (G : forall c p t, In (c, true) (kn_log (state e o)) -> change c = Sh p EtRename t None -> exists ev, In (OCallback ev) o /\ shape_of ev = Sh p EtRename t None).
  { intros c p t Hin Ec. assert (Ho : In (Sh p EtRename t None) (owed (state e o))).
    { unfold owed. apply in_map_iff. exists (c, true). split; [exact Ec|]. now apply filter_In. }
    apply (told_single _ _ T) in Ho. unfold fs_shapes in Ho. apply filter_In in Ho as [Ho _]. apply in_map_iff in Ho as (ev & E & Hev).
    exists ev. split; [|exact E]. clear -Hev. induction o as [|x o IH]; [destruct Hev|].
    destruct x; cbn in Hev; try (right; now apply IH). destruct Hev as [->|Hev]; [now left|right; now apply IH]. }
  split; [intros d p n Hin|intros p n Hin]; exact (G _ _ _ Hin eq_refl).
Qed.
Print Assumptions C98_arrivals_and_departures_are_reported_partial.

(** The full claim: a directory that enters the tree is watched like one made in it, or
    the user is warned.  It is not: a file made in it is never reported. *)
Definition moves_env : env := scripted_env w_dirs [lit "/w/d/old"] [ready; ready; ready]
  [[MoveOut (lit "/w/d") (lit "old"); MoveIn false (lit "/w") (lit "new")];
   [MoveIn true (lit "/w") (lit "m")];
   [Make false (lit "/w/m") (lit "f"); Write (lit "/w/m") (lit "f"); Remove (lit "/w") (lit "new")]] [].
Example C98_example : let o := run moves_env 20 (lit "/w") 5 in
  unprivileged moves_env /\ kn_queue (state moves_env o) = [] /\
  In (MoveIn true (lit "/w") (lit "m"), true) (kn_log (state moves_env o)) /\ In (MoveOut (lit "/w/d") (lit "old"), true) (kn_log (state moves_env o)) /\
  fs_shapes o =
    [Sh (lit "/w/d/old") EtRename PtFile None; Sh (lit "/w/new") EtRename PtFile None; Sh (lit "/w/m") EtRename PtDir None; Sh (lit "/w/new") EtDestroy PtFile None].
Proof. cbv zeta. split; [intros k tr; discriminate|]. vm_compute. repeat split; auto. Qed.
Theorem C98_directories_moved_in_are_watched_refuted :
  exists e, e_start e = kern_start w_dirs [lit "/w/d/old"] /\ unprivileged e /\ still_start e /\ (forall k, kn_dirs k = w_dirs -> shows k (e_base e k)) /\
    (forall tr, e_deny e tr = false) /\ (forall k tr p, os_realpath (e_base e k) tr p = None \/ os_realpath (e_base e k) tr p = Some p) /\
    let o := run e 20 (lit "/w") 5 in
    kn_queue (state e o) = [] /\ snd (linux_watch (system e) 20 (lit "/w") 5 []) = Ok true /\
    (* a directory came in, and a file was made in it *)
    map fst (kn_log (state e o)) =
      [MoveOut (lit "/w/d") (lit "old"); MoveIn false (lit "/w") (lit "new"); MoveIn true (lit "/w") (lit "m");
       Make false (lit "/w/m") (lit "f"); Write (lit "/w/m") (lit "f"); Remove (lit "/w") (lit "new")] /\
    (* the user hears of the directory only, and is not warned *)
    map shape_of (callbacks o) =
      [Sh (lit "/w/d/old") EtRename PtFile None; Sh (lit "/w/new") EtRename PtFile None; Sh (lit "/w/m") EtRename PtDir None; Sh (lit "/w/new") EtDestroy PtFile None] /\
    is_watched (state e o) (lit "/w/m") = false.
Proof.
  exists moves_env. split; [reflexivity|]. split; [intros k tr; discriminate|]. split; [apply scripted_still|]. split; [intros; now apply w_shows|].
  split; [reflexivity|]. split; [|vm_compute; repeat split; reflexivity].
  intros k tr p. cbn [e_base moves_env scripted_env os_realpath fs_base]. destruct (_ || _); auto.
Qed.
Print Assumptions C98_directories_moved_in_are_watched_refuted.

(** ** C99: a mirror of the tree *)
(** A user who keeps a list of the files and directories, and brings it up to date
    with each event. *)
Definition pt_eqb (a b : path_type) : bool := match a, b with PtFile, PtFile | PtDir, PtDir => true | _, _ => false end.
Definition mirror_step (t : path_type) (l : list text) (ev : shape) : list text :=
  match ev with
  | Sh p EtCreate t' None => if pt_eqb t t' then p :: l else l
  | Sh p EtDestroy t' None => if pt_eqb t t' then without p l else l
  | Sh p EtRename t' (Some (Sh q _ _ _)) => if pt_eqb t t' then q :: without p l else l
  | _ => l
  end.
Definition mirror (t : path_type) (l : list text) (evs : list shape) : list text := fold_left (mirror_step t) evs l.
Definition lone_rename (ev : shape) : Prop := exists p t, ev = Sh p EtRename t None.

Definition like (a b : list text) : Prop := forall p, In p a <-> In p b.
Lemma like_refl a : like a a. Proof. intros p. reflexivity. Qed.
Lemma like_trans a b c : like a b -> like b c -> like a c.
Proof. intros H H' p. now rewrite (H p). Qed.
Lemma in_without p q l : In p (without q l) <-> In p l /\ p <> q.
Proof.
  unfold without. rewrite filter_In, negb_true_iff. split; intros [H1 H2]; (split; [exact H1|]).
  - intros ->. rewrite text_eqb_refl in H2. discriminate.
  - destruct (text_eqb q p) eqn:E; [|reflexivity]. apply text_eqb_eq in E. congruence.
Qed.
Lemma like_without p a b : like a b -> like (without p a) (without p b).
Proof. intros H q. rewrite !in_without, (H q). reflexivity. Qed.
Lemma like_cons p a b : like a b -> like (p :: a) (p :: b).
Proof. intros H q. cbn. rewrite (H q). reflexivity. Qed.
Lemma like_step t ev a b : like a b -> like (mirror_step t a ev) (mirror_step t b ev).
Proof.
  intros H. destruct ev as [p [] t' [[q ? ? ?]|]]; cbn; try exact H; destruct (pt_eqb t t'); auto using like_without, like_cons.
Qed.
Lemma like_mirror t evs : forall a b, like a b -> like (mirror t a evs) (mirror t b evs).
Proof. induction evs as [|ev evs IH]; intros a b H; [exact H|]. apply IH, like_step, H. Qed.

(** The files and directories are those of the start after all changes. *)
Lemma like_change k c : (match c with MoveIn _ _ _ | MoveOut _ _ => False | _ => True end) ->
  like (files_after k c) (mirror_step PtFile (kn_files k) (change c)) /\ like (dirs_after k c) (mirror_step PtDir (kn_dirs k) (change c)).
Proof.
  intros H. destruct c as [[|] p n|p n|p n|p n f|p n n'|p n|d p n]; try contradiction; cbn; split; try apply like_refl; intros q; cbn; rewrite ?in_app_iff; cbn; try tauto.
  - rewrite !in_without. destruct (list_eq_dec N.eq_dec q (entry p n')) as [->|Hne]; [tauto|]. split; [intros [[[A B] C]|[C|[]]]|intros [C|[A B]]]; auto; try congruence.
Qed.
Lemma log_replay k os : (forall c w, In (c, w) (kn_log (happens k os)) -> match c with MoveIn _ _ _ | MoveOut _ _ => False | _ => True end) ->
  exists l, kn_log (happens k os) = kn_log k ++ l /\
    like (kn_files (happens k os)) (mirror PtFile (kn_files k) (map (fun c => change (fst c)) l)) /\
    like (kn_dirs (happens k os)) (mirror PtDir (kn_dirs k) (map (fun c => change (fst c)) l)).
Proof.
  revert k. induction os as [|o os IH]; intros k H; [exists []; rewrite app_nil_r; split; [reflexivity|split; apply like_refl]|].
  change (happens k (o :: os)) with (happens (happen k o) os) in *. destruct (IH _ H) as (l & E & H1 & H2).
  unfold happen in *. destruct (legal k o) eqn:L; [|exists l; auto]. cbn [kn_log kn_files kn_dirs] in *.
  exists ((o, is_watched k (place o)) :: l). rewrite E, <- app_assoc. split; [reflexivity|].
  assert (Ho : match o with MoveIn _ _ _ | MoveOut _ _ => False | _ => True end). { apply (H o (is_watched k (place o))). rewrite E, <- app_assoc. apply in_elt. }
  destruct (like_change k o Ho) as [C1 C2]. cbn [map fst]. unfold mirror in *. cbn [fold_left]. split.
  - eapply like_trans; [exact H1|]. now apply like_mirror.
  - eapply like_trans; [exact H2|]. now apply like_mirror.
Qed.
Lemma state_replay e tr : e_start e = kern_start (kn_dirs (e_start e)) (kn_files (e_start e)) ->
  (forall c w, In (c, w) (kn_log (state e tr)) -> match c with MoveIn _ _ _ | MoveOut _ _ => False | _ => True end) ->
  like (kn_files (state e tr)) (mirror PtFile (kn_files (e_start e)) (map (fun c => change (fst c)) (kn_log (state e tr)))) /\
  like (kn_dirs (state e tr)) (mirror PtDir (kn_dirs (e_start e)) (map (fun c => change (fst c)) (kn_log (state e tr)))).
Proof.
  intros S. induction tr as [|x tr IH] using rev_ind.
  - intros _. unfold state. cbn [rev state_rev]. rewrite S. cbn [kern_start kn_files kn_dirs kn_log map mirror fold_left]. split; apply like_refl.
  - rewrite state_snoc. intros H.
    assert (X : kn_files (effect_on e tr x (at_call e tr)) = kn_files (at_call e tr) /\ kn_dirs (effect_on e tr x (at_call e tr)) = kn_dirs (at_call e tr) /\ kn_log (effect_on e tr x (at_call e tr)) = kn_log (at_call e tr)).
    { destruct x; cbn [effect_on]; auto.
      - unfold adding. destruct (negb _); auto. destruct (asks_all _); auto. unfold marking. destruct (_ && _); auto. destruct (watched _ _); auto. destruct (_ <? _)%Z; auto.
      - unfold reading_of. destruct (_ =? _)%Z; auto. unfold reading. destruct (kn_queue _); auto. }
    destruct X as (-> & -> & X). rewrite X in *. unfold at_call in *. destruct (log_replay _ _ H) as (l & E & H1 & H2). rewrite E in *.
    destruct IH as [I1 I2]. { intros c w Hin. apply (H c w), in_app_iff. now left. }
    rewrite map_app. unfold mirror. rewrite !fold_left_app. split.
    + eapply like_trans; [exact H1|]. now apply like_mirror.
    + eapply like_trans; [exact H2|]. now apply like_mirror.
Qed.
Lemma told_mirror t cs l : told cs l -> (forall ev, In ev l -> ~ lone_rename ev) -> forall a, mirror t a cs = mirror t a l.
Proof.
  induction 1 as [|c cs l _ IH|p q t' cs l _ IH|p t' cs l _ IH]; intros H a.
  - reflexivity.
  - cbn. apply IH. intros ev Hev. apply H. now right.
  - exfalso. apply (H (Sh p EtRename t' None)); [now left|]. now exists p, t'.
  - apply (IH H a).
Qed.
Theorem C99_a_mirror_stays_true_partial :
  forall e D F fuel path il, e_start e = kern_start D F -> unprivileged e ->
    let o := run e fuel path il in let k := state e o in
    (* all changes were in watched directories (C79 says when), and all records were read *)
    (forall c w, In (c, w) (kn_log k) -> w = true) -> kn_queue k = [] ->
    (* no rename came without its counterpart *)
    (forall ev, In ev (fs_shapes o) -> ~ lone_rename ev) ->
    forall p, (In p (kn_files k) <-> In p (mirror PtFile F (fs_shapes o))) /\ (In p (kn_dirs k) <-> In p (mirror PtDir D (fs_shapes o))).
Proof.
  intros e D F fuel path il S U. cbv zeta. intros W Q L. pose proof (told_end e D F fuel path il S U Q) as T.
  set (o := run e fuel path il) in *.
  assert (All : owed (state e o) = map (fun c => change (fst c)) (kn_log (state e o))).
  { unfold owed. f_equal. clear -W. induction (kn_log (state e o)) as [|[c w] l IH]; [reflexivity|]. assert (w = true) as -> by (apply (W c w); now left). cbn. f_equal. apply IH. intros c' w' H. apply (W c' w'). now right. }
  assert (M : forall c w, In (c, w) (kn_log (state e o)) -> match c with MoveIn _ _ _ | MoveOut _ _ => False | _ => True end).
  { intros c w Hin. assert (Ho : In (change c) (owed (state e o))). { rewrite All. apply in_map_iff. exists (c, w). auto. }
    destruct c; try exact Coq.Init.Logic.I; cbn [change] in Ho; apply (told_single _ _ T) in Ho; apply (L _ Ho); eexists _, _; reflexivity. }
  assert (S' : e_start e = kern_start (kn_dirs (e_start e)) (kn_files (e_start e))) by (rewrite S; reflexivity).
  destruct (state_replay e o S' M) as [H1 H2]. rewrite <- All in *. rewrite !(told_mirror _ _ _ T L) in *.
  rewrite S in *. intros p. split; [exact (H1 p)|exact (H2 p)].
Qed.
Print Assumptions C99_a_mirror_stays_true_partial.
Example C99_example : let o := run busy_env 20 (lit "/w") 5 in
  (forall c w, In (c, w) (kn_log (state busy_env o)) -> w = true) /\ (forall ev, In ev (fs_shapes o) -> ~ lone_rename ev) /\
  mirror PtFile [lit "/w/d/old"] (fs_shapes o) = [lit "/w/d/g"] /\ kn_files (state busy_env o) = [lit "/w/d/g"] /\
  mirror PtDir w_dirs (fs_shapes o) = w_dirs.
Proof.
  cbv zeta. assert (E : map snd (kn_log (state busy_env (run busy_env 20 (lit "/w") 5))) = repeat true 9) by (vm_compute; reflexivity).
  assert (E' : existsb (fun ev => match ev with Sh _ EtRename _ None => true | _ => false end) (fs_shapes (run busy_env 20 (lit "/w") 5)) = false) by (vm_compute; reflexivity).
  split; [|split].
  - intros c w H. apply (in_map snd) in H. rewrite E in H. now apply repeat_spec in H.
  - intros ev Hev (p & t & ->). apply Bool.not_true_iff_false in E'. apply E', existsb_exists. eexists. split; [exact Hev|reflexivity].
  - vm_compute. repeat split; reflexivity.
Qed.

(** The full claim, without the condition on renames, fails: a file that leaves and one
    that arrives look the same. *)
Definition away_env (there : bool) : env := scripted_env w_dirs [lit "/w/d/old"] [ready]
  [[if there then MoveIn false (lit "/w/d") (lit "old") else MoveOut (lit "/w/d") (lit "old")]] [].
Theorem C99_events_determine_what_is_there_refuted :
  exists e e', e_start e = kern_start w_dirs [lit "/w/d/old"] /\ e_start e' = e_start e /\
    unprivileged e /\ unprivileged e' /\ still_start e /\ still_start e' /\
    (forall k, kn_dirs k = w_dirs -> shows k (e_base e k) /\ shows k (e_base e' k)) /\
    let o := run e 20 (lit "/w") 5 in let o' := run e' 20 (lit "/w") 5 in
    kn_queue (state e o) = [] /\ kn_queue (state e' o') = [] /\
    map snd (kn_log (state e o)) = [true] /\ map snd (kn_log (state e' o')) = [true] /\
    callbacks o = callbacks o' /\
    has (lit "/w/d/old") (kn_files (state e o)) = true /\ has (lit "/w/d/old") (kn_files (state e' o')) = false.
Proof.
  exists (away_env true), (away_env false). split; [reflexivity|]. split; [reflexivity|]. split; [intros k tr; discriminate|]. split; [intros k tr; discriminate|].
  split; [apply scripted_still|]. split; [apply scripted_still|]. split; [intros k E; split; now apply w_shows|].
  vm_compute. repeat split; reflexivity.
Qed.
Print Assumptions C99_events_determine_what_is_there_refuted.

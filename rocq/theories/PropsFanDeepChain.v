(** Theorem C150: from a change of the filesystem of [FanDeepSpec] (directories are made, removed
    and moved, records are lost) to the user of a binding, as root on Linux (fanotify): C148
    with watcher-c and the Rust, Python and Node bindings on top
    (watcher-c/src/watcher-c.cpp:41-65, watcher-rs/src/lib.rs:56-144,
    watcher-py/watcher/watcher.py:62-110, watcher-nodejs/lib/watcher-napi.cpp:25-68). *)
From Verif Require Import WatchFacts.
From Verif Require Import Base EventModel Sys Utf8Spec BindModel BindSpec BindFacts BindLife PropsBind PropsLife PropsChain.
From Verif Require Import PropsDeepChain.
From Verif Require Import PathModel SysFacts LinuxWatch LinuxSpec LinuxProps PropsLinux InotifySpec InotifyRun FanotifySpec FanotifyFacts ExampleOs FanWorldSpec FanWorldFacts
  FanWorldRun PropsFanWorld SemabinModel WatchModel WatchSpec WholeLife WatchExamples FanDeepSpec FanDeepFacts FanDeepRun FanDeepLife PropsFanDeep PropsFanDeepWhole PropsFanChain.

(** ** What is assumed of the names *)
(** The names in a change are UTF-8. *)
Definition proper_gnames (o : gop) : Prop :=
  match o with GMake _ _ _ n | GWrite _ _ n | GRemove _ _ n | GRmdir _ _ n => valid_utf8 n | GMove _ _ _ n _ m => valid_utf8 n /\ valid_utf8 m end.
(** The directories at the start have paths in UTF-8 without NUL. *)
Definition proper_gstart (e : genv) : Prop := Forall (fun d => proper (fst d)) (gw_dirs (ge_start e)).
(** The adapter cuts a path to PATH_MAX - 1 = 4095 bytes, maybe within a character: the
    event's paths are shorter. *)
Definition not_cut (ev : event) : Prop :=
  (length (ev_path ev) < 4095)%nat /\ forall a, ev_assoc ev = Some a -> (length (ev_path a) < 4095)%nat.

(** ** The paths of all changes are proper *)
Definition pname (n : text) : Prop := proper n /\ n <> [].
Definition pgworld (w : gworld) : Prop :=
  Forall (fun d => proper (fst d)) (gw_dirs w) /\ Forall (fun c => match c with Did _ n _ _ _ => pname n end) (gw_log w).
Lemma sound_proper p n : sound_name p n = true -> valid_utf8 n -> pname n.
Proof.
  intros S V. unfold sound_name in S. rewrite !andb_true_iff in S. destruct S as [[[[[S0 _] S] _] _] _]. split; [split; [exact V|]|].
  - rewrite forallb_forall in S. intros Hz. apply S in Hz. discriminate Hz.
  - intros ->. discriminate S0.
Qed.
Lemma proper_entry_path p n : proper p -> pname n -> proper (at_path p n) /\ at_path p n <> [].
Proof. intros P [V _]. split; [|unfold at_path; destruct p; discriminate]. unfold at_path. apply proper_app; [exact P|]. apply proper_app; [exact proper_slash|exact V]. Qed.
Lemma at_or_in_prefix p q : at_or_in p q = true -> exists r, q = p ++ r.
Proof.
  unfold at_or_in. intros H. apply orb_true_iff in H as [H|H]; apply text_eqb_eq in H; [exists []; now rewrite app_nil_r|].
  exists (lit "/" ++ skipn (S (length p)) q). rewrite app_assoc, H. symmetry. apply firstn_skipn.
Qed.
Lemma proper_relocated p q x : proper p -> proper q -> proper x -> proper (relocated p q x).
Proof.
  intros [P1 P2] [Q1 Q2] [X1 X2]. unfold relocated. destruct (at_or_in p x) eqn:B; [|now split]. apply at_or_in_prefix in B as (r & ->).
  rewrite skipn_app, skipn_all, Nat.sub_diag. cbn [skipn app]. apply proper_app; [now split|]. split; [now apply (valid_rest p)|]. intros H. apply X2, in_app_iff. now right.
Qed.
Lemma number_there p : forall dirs i j, number_in p i dirs = Some j -> In (p, true) dirs.
Proof.
  induction dirs as [|[q t] dirs IH]; intros i j H; [discriminate H|]. cbn [number_in] in H. destruct t; cbn [andb] in H.
  - destruct (text_eqb p q) eqn:E; [apply text_eqb_eq in E; subst; now left|right; eauto].
  - right; eauto.
Qed.
Lemma is_dir_proper w p : pgworld w -> is_dir w p = true -> proper p.
Proof.
  intros [D _] H. unfold is_dir, number in H. destruct (number_in _ _ _) as [j|] eqn:E; [|discriminate H]. apply number_there in E.
  rewrite Forall_forall in D. exact (D _ E).
Qed.
Lemma gpost_names max pid w t : pname (snd (fst (fst t))) -> Forall (fun c => match c with Did _ n _ _ _ => pname n end) (gw_log w) ->
  Forall (fun c => match c with Did _ n _ _ _ => pname n end) (gw_log (gpost max pid w t)).
Proof.
  destruct t as [[[p n] k] d]. cbn [fst snd]. intros P L. unfold gpost. destruct (number w p); [|exact L]. destruct (existsb _ _); [|exact L].
  cbn [gw_log]. apply Forall_app. split; [exact L|]. constructor; [exact P|constructor].
Qed.
Lemma gposts_names max pid ts : Forall (fun t => pname (snd (fst (fst t)))) ts -> forall w, Forall (fun c => match c with Did _ n _ _ _ => pname n end) (gw_log w) ->
  Forall (fun c => match c with Did _ n _ _ _ => pname n end) (gw_log (fold_left (gpost max pid) ts w)).
Proof. induction 1 as [|t ts Ht _ IH]; intros w L; [exact L|]. cbn [fold_left]. apply IH. now apply gpost_names. Qed.
Lemma pgworld_happen max w o : pgworld w -> proper_gnames o -> pgworld (ghappen max w o).
Proof.
  intros P V. unfold ghappen. destruct (gmay w o) eqn:M; [|exact P]. cbv zeta. pose proof (touches_names w o M) as T.
  assert (N' : Forall (fun t => pname (snd (fst (fst t)))) (gtouches o)).
  { destruct o; cbn [gtouches proper_gnames] in *; repeat match goal with H : Forall _ (_ :: _) |- _ => inversion H; clear H; subst end; cbn [fst snd] in *;
      repeat (apply Forall_cons || apply Forall_nil); cbn [fst snd]; (eapply sound_proper; [eassumption|tauto]). }
  pose proof P as [D L]. split; cbn [gw_dirs gw_log]; [|now apply gposts_names].
  destruct o as [i [|] p n|i p n|i p n|i p n|i [|] p n q m]; cbn [gdirs_then]; try exact D; cbn [gmay proper_gnames gtouches] in *; rewrite !andb_true_iff in M;
    repeat match goal with H : Forall _ (_ :: _) |- _ => inversion H; clear H; subst end; cbn [fst snd] in *.
  - apply Forall_app. split; [exact D|]. constructor; [|constructor]. cbn [fst]. apply proper_entry_path; [apply (is_dir_proper w); [exact P|apply M]|assumption].
  - apply Forall_map. eapply Forall_impl; [|exact D]. intros [x t] Hx. cbn [fst] in *. now destruct (text_eqb _ _).
  - assert (Pp : proper p /\ proper q) by (split; apply (is_dir_proper w); tauto).
    apply Forall_map. eapply Forall_impl; [|exact D]. intros [x [|]] Hx; cbn [fst snd] in *; [|exact Hx].
    apply proper_relocated; [apply proper_entry_path; tauto|apply proper_entry_path; tauto|exact Hx].
Qed.
Section Names.
  Variable e : genv.
  Hypothesis ok : genv_ok e.
  Hypothesis start : proper_gstart e.
  Hypothesis names : forall tr o, In o (ge_ops e tr) -> proper_gnames o.
  Lemma pgworld_both tr : pgworld (gstate e tr) /\ pgworld (gat_call e tr).
  Proof.
    assert (C : forall tr, pgworld (gstate e tr) -> pgworld (gat_call e tr)).
    { intros t. unfold gat_call, ghappens. generalize (gstate e t) as w. pose proof (names t) as Nt. revert Nt. generalize (ge_ops e t) as l.
      induction l as [|o l IHl]; intros Nt w Hw; [exact Hw|]. cbn [fold_left]. apply IHl; [intros o' Ho'; apply Nt; now right|]. apply pgworld_happen; [exact Hw|apply Nt; now left]. }
    assert (S : pgworld (gstate e tr)).
    { induction tr as [|x tr IH] using rev_ind.
      - destruct (gv_start _ ok) as (dirs & files & E & _). unfold proper_gstart in start. unfold gstate. cbn. split; [exact start|]. rewrite E. constructor.
      - rewrite gstate_snoc. apply C in IH. destruct x; try exact IH.
        + unfold gmarking. destruct (number _ _); [|exact IH]. destruct (_ || _); [exact IH|]. cbn [snd]. destruct (asks _); exact IH.
        + unfold greading. destruct (_ =? _)%Z; [|exact IH]. destruct (gw_queue _); exact IH. }
    split; [exact S|apply C, S].
  Qed.
  Lemma deleted_proper : proper (lit " (deleted)").
  Proof. apply ascii_proper. reflexivity. Qed.
  Lemma told_proper tr k dir p : told_change e tr k dir p -> (length p < 4095)%nat -> proper p /\ p <> [].
  Proof.
    intros (i & n & d & Hin & (a & b & c & q & _ & _ & _ & Hq & ->) & ->) Hl.
    destruct (pgworld_both tr) as [[_ L] _]. rewrite Forall_forall in L. pose proof (L _ Hin) as Hn. cbn beta iota in Hn.
    destruct (pgworld_both (a ++ b)) as [_ [D _]]. rewrite Forall_forall in D. unfold gdir in Hq. apply nth_error_In in Hq. pose proof (D _ Hq) as Hd. cbn beta in Hd.
    assert (Pd : proper (shown_as q)). { unfold shown_as. destruct (snd q); [exact Hd|]. apply proper_app; [exact Hd|exact deleted_proper]. }
    unfold event_path in *. rewrite firstn_length in Hl.
    assert (E : firstn (N.to_nat 4095) (at_path (shown_as q) n) = at_path (shown_as q) n) by (apply firstn_all2; lia).
    rewrite E. now apply proper_entry_path.
  Qed.
  Lemma truly_fine tr ev : truly e tr (shape_of ev) -> not_cut ev -> PropsChain.fine ev.
  Proof.
    intros H [H1 H2]. apply proper_event. destruct ev as [p f t tm a]. cbn [ev_path ev_assoc] in *.
    destruct f, a as [[q g u tm' b]|]; cbn [shape_of] in *; try contradiction.
    - destruct g; try (destruct b; contradiction). destruct b; [contradiction|]. destruct H as (d & d' & T1 & T2 & _). cbn.
      split; [exact (told_proper _ _ _ _ T1 H1)|]. split; [|exact Coq.Init.Logic.I]. exact (told_proper _ _ _ _ T2 (H2 _ eq_refl)).
    - destruct H as (d & [T|T] & _); cbn; (split; [exact (told_proper _ _ _ _ T H1)|exact Coq.Init.Logic.I]).
    - destruct H as (d & T & _); cbn; (split; [exact (told_proper _ _ _ _ T H1)|exact Coq.Init.Logic.I]).
    - destruct H as (d & T & _); cbn; (split; [exact (told_proper _ _ _ _ T H1)|exact Coq.Init.Logic.I]).
    - destruct H as (d & T & _); cbn; (split; [exact (told_proper _ _ _ _ T H1)|exact Coq.Init.Logic.I]).
  Qed.
End Names.

(** ** C150 *)
(** At any point [w] of any life of a watcher, if no path of an event is as long as the longest the
    adapter can show: what the users of the three bindings have been given (Rust: have been and will be;
    Node: as long as the queue was never full) are the events [evs] about files that the callback
    received, each with the same fields; what each tells happened, with a path its directory had since
    the records were last read; and once close() has returned true, every change whose record the kernel
    kept is told to them by an event about that entry, or its record was still waiting, or was cut off
    in its batch (as in C146). *)
Theorem C150_fanotify_moving_directories_reach_the_bindings_partial :
  forall blk e il re w, genv_ok e -> proper_gstart e -> (forall tr o, In o (ge_ops e tr) -> proper_gnames o) ->
    reach (Linux blk) (deep_on e il) re constructed w ->
    let evs := about_files (received (log w)) in
    Forall not_cut evs ->
    (forall ms answers left, PropsLife.logged ms = log w -> rust_stream [] ms = (answers, left) -> Forall2 mirrors (b_about_files (PropsLife.items answers ++ left)) evs) /\
    Forall2 mirrors (b_about_files (py_seen (received (log w)))) evs /\
    (forall lossy s, jreach jstart s -> j_made s = map (fun ev => js_event lossy (view_of ev)) (received (log w)) -> j_leaked s = [] ->
       Forall2 js_near (js_about_files (map snd (j_called s) ++ j_queue s)) evs) /\
    ((evs = [] /\ (forall p, ~ In (LWatch p) (log w)) /\ (forall v, ~ In (LClosed v true) (log w))) \/
     exists path fuel a b, In (LWatch path) (log w) /\ deep_run e fuel path il = a ++ b /\
       (forall ev, In ev evs -> exists a1 a2, a = a1 ++ OCallback ev :: a2 /\ truly e a1 (shape_of ev)) /\
       forall l1 v l2, log w = l1 ++ LClosed v true :: l2 ->
         b = [] /\
         (forall i n k d, In (Did i n k d true) (gw_log (gstate e a)) ->
           (exists a1 a2 p ev, a = a1 ++ a2 /\ whereabouts e a1 i p /\ In ev evs /\ mentions (event_path p n) (shape_of ev)) \/
           still_pending (gstate e a) i n k d \/ cut e a i n k d)).
Proof.
  intros blk e il re w He St Nm R evs Short.
  assert (X : Forall PropsChain.fine evs /\
    ((evs = [] /\ (forall p, ~ In (LWatch p) (log w)) /\ (forall v, ~ In (LClosed v true) (log w))) \/
     exists path fuel a b, In (LWatch path) (log w) /\ deep_run e fuel path il = a ++ b /\
       (forall ev, In ev evs -> exists a1 a2, a = a1 ++ OCallback ev :: a2 /\ truly e a1 (shape_of ev)) /\
       forall l1 v l2, log w = l1 ++ LClosed v true :: l2 ->
         b = [] /\
         (forall i n k d, In (Did i n k d true) (gw_log (gstate e a)) ->
           (exists a1 a2 p ev, a = a1 ++ a2 /\ whereabouts e a1 i p /\ In ev evs /\ mentions (event_path p n) (shape_of ev)) \/
           still_pending (gstate e a) i n k d \/ cut e a i n k d))).
  { destruct (C148_fanotify_a_watchers_life_among_moving_directories blk e il re w He R) as [(H1 & H2 & H3)|(path & fuel & a & b & Hin & Er & (live & die & E & Hl & Hd) & Hh & Hc)].
    { assert (evs = []) as -> by (unfold evs; rewrite <- PropsFanChain.files_shapes in H1; destruct (about_files _); [reflexivity|discriminate H1]). split; [constructor|left; auto]. }
    assert (G : forall ev, In ev evs -> exists a1 a2, a = a1 ++ OCallback ev :: a2 /\ truly e a1 (shape_of ev)).
    { intros ev Hev. unfold evs, about_files in Hev. apply filter_In in Hev as [Hev Hp]. rewrite E in Hev.
      assert (Ha : In ev (callbacks a)).
      { destruct Hev as [<-|Hev]; [destruct Hl as (_ & _ & P & _); rewrite P in Hp; discriminate Hp|]. apply in_app_iff in Hev as [Hev|Hev]; [exact Hev|].
        destruct Hd as [-> |(x & -> & Hx)]; [destruct Hev|]. destruct Hev as [<-|[]]. destruct Hx as [(_ & _ & P & _)|(_ & _ & P & _)]; rewrite P in Hp; discriminate Hp. }
      assert (Hi : In (OCallback ev) a). { clear -Ha. induction a as [|x a IH]; [destruct Ha|]. destruct x; cbn in Ha; try (right; now apply IH). destruct Ha as [-> |Ha]; [now left|right; now apply IH]. }
      apply in_split in Hi as (a1 & a2 & Ea). exists a1, a2. split; [exact Ea|]. apply (Hh _ _ _ Ea). destruct ev as [p f t tm x]. cbn in *. now destruct t. }
    split.
    { rewrite Forall_forall in Short. apply Forall_forall. intros ev Hev. destruct (G ev Hev) as (a1 & a2 & _ & H). eapply truly_fine; eauto. }
    right. exists path, fuel, a, b. split; [exact Hin|]. split; [exact Er|]. split; [exact G|].
    intros l1 v l2 El. destruct (Hc _ _ _ El) as (Hb & Hr & Hf & Hm). split; [exact Hb|]. intros i n k d Hp.
    destruct (Hm i n k d Hp) as [(a1 & a2 & p & x & Ea & Hw & Hx & Mx)|H]; [left|now right].
    assert (E1 : received l1 = received (log w)) by (rewrite El, received_app; cbn [received]; now rewrite Hr, app_nil_r).
    rewrite <- Hf, E1, <- PropsFanChain.files_shapes in Hx. apply in_map_iff in Hx as (ev & <- & Hev). exists a1, a2, p, ev. auto. }
  destruct X as [F X]. split; [|split; [|split; [|exact X]]].
  - intros ms answers left El Es. rewrite (C70_stream_gives_every_event_once _ _ _ Es), El. now apply mirrored.
  - now apply py_mirrored.
  - intros lossy s J M L. rewrite (proj1 (C55_nothing_lost_below_capacity_partial _ s J L)), M. now apply js_mirrored.
Qed.
Print Assumptions C150_fanotify_moving_directories_reach_the_bindings_partial.

(** A file with a name that is not ASCII is made and its directory renamed, to a name that is not ASCII
    either, just before close(); through Rust. *)
Definition deep_accent : genv := deep_true [] 1
  [[GMake 7 false (lit "/w/d") accent; GMove 8 true (lit "/w") (lit "d") (lit "/o") accent]].
Lemma deep_accent_names tr o : In o (ge_ops deep_accent tr) -> proper_gnames o.
Proof.
  assert (Va : valid_utf8 accent) by (exists [233%N]; split; [constructor; [left; reflexivity|constructor]|reflexivity]).
  assert (Vd : valid_utf8 (lit "d")) by (apply ascii_valid; reflexivity).
  cbn [ge_ops deep_accent deep_true deep_script]. destruct (count is_wait tr) as [|n]; [|destruct (rev tr) as [|x tr']; [intros []|]].
  - destruct (rev tr) as [|x tr']; [intros []|]. destruct x; intros [].
  - destruct x; try (intros []). destruct n as [|n]; cbn [nth]; [|destruct n; intros []]. intros [<-|[<-|[]]]; cbn; auto.
Qed.
Lemma deep_start_proper F n c : proper_gstart (deep_true F n c).
Proof. unfold proper_gstart. change (Forall (fun d => proper (fst d)) (map (fun p => (p, true)) w_dirs)). apply Forall_map. unfold w_dirs. repeat apply Forall_cons; try apply Forall_nil; apply ascii_proper; reflexivity. Qed.
Example C150_example : exists w l1 ms answers left, genv_ok deep_accent /\ proper_gstart deep_accent /\ (forall tr o, In o (ge_ops deep_accent tr) -> proper_gnames o) /\
  reach (Linux true) (deep_on deep_accent 5) false constructed w /\ log w = l1 ++ [LClosed released true] /\ Forall not_cut (about_files (received (log w))) /\
  PropsLife.logged ms = log w /\ rust_stream [] ms = (answers, left) /\
  map (fun b => (b_path b, b_effect b)) (b_about_files (PropsLife.items answers ++ left)) =
    [(lit "/o/" ++ [233%N] ++ lit "/" ++ [233%N], EtCreate); (lit "/w/d", EtRename)].
Proof.
  destruct (deep_closed deep_accent 20 (lit "/w")) as (w & R & E & Ef); [vm_compute; reflexivity|].
  exists w. eexists. exists (map RLog (log w)). destruct (rust_stream [] (map RLog (log w))) as [answers left] eqn:Es. exists answers, left.
  split; [apply deep_true_ok|]. split; [apply deep_start_proper|].
  split; [exact deep_accent_names|]. split; [exact R|]. split; [exact E|].
  clear R Ef. split; [|split; [apply logged_all|split; [reflexivity|]]].
  - rewrite E. clear E Es. set (l := about_files _). assert (X : forallb (fun ev => (length (ev_path ev) <? 4095)%nat && match ev_assoc ev with Some a => (length (ev_path a) <? 4095)%nat | None => true end) l = true) by (vm_compute; reflexivity).
    rewrite forallb_forall in X. clearbody l. apply Forall_forall. intros ev Hev. apply X in Hev. apply andb_true_iff in Hev as [H1 H2]. split; [now apply Nat.ltb_lt|].
    intros a Ha. rewrite Ha in H2. now apply Nat.ltb_lt.
  - rewrite E in Es. assert (X : answers = fst (rust_stream [] (map RLog (log w))) /\ left = snd (rust_stream [] (map RLog (log w)))) by (rewrite E, Es; auto). clear Es. destruct X as [-> ->]. rewrite E. vm_compute. reflexivity.
Qed.

(** In general it is false: a file with such a name is made, and its directory moved to a place whose
    path is 4093 bytes long.  The path in the event is cut within a character. *)
Definition far : text := lit "/" ++ repeat 97%N 4090.
Definition far_env : genv :=
  let e := deep_true [] 1 [[GMake 7 false (lit "/w/d") accent; GMove 8 true (lit "/w") (lit "d") far (lit "d")]] in
  {| ge_fd := ge_fd e; ge_max := ge_max e; ge_start := gworld_start (w_dirs ++ [far]) []; ge_ops := ge_ops e; ge_deny := ge_deny e; ge_want := ge_want e; ge_base := ge_base e |}.
Lemma far_names tr o : In o (ge_ops far_env tr) -> proper_gnames o.
Proof.
  assert (Va : valid_utf8 accent) by (exists [233%N]; split; [constructor; [left; reflexivity|constructor]|reflexivity]).
  assert (Vd : valid_utf8 (lit "d")) by (apply ascii_valid; reflexivity).
  cbn [ge_ops far_env deep_true deep_script]. destruct (count is_wait tr) as [|n]; [|destruct (rev tr) as [|x tr']; [intros []|]].
  - destruct (rev tr) as [|x tr']; [intros []|]. destruct x; intros [].
  - destruct x; try (intros []). destruct n as [|n]; cbn [nth]; [|destruct n; intros []]. intros [<-|[<-|[]]]; cbn; auto.
Qed.
Lemma far_run_ok : snd (linux_watch (gsystem far_env) 20 (lit "/w") 5 []) = Ok true.
Proof. vm_compute. reflexivity. Qed.
Lemma far_shown : map (fun ev => (length (ev_path ev), decode (ev_path ev), ev_effect ev)) (about_files (callbacks (deep_run far_env 20 (lit "/w") 5))) =
  [(4095%nat, None, EtCreate); (4%nat, Some (lit "/w/d"), EtRename)].
Proof. vm_compute. reflexivity. Qed.
(** So no user of a binding can be given the events as they are; and the Python user is given
    nothing for the first. *)
Theorem C150_fanotify_moving_directories_reach_the_bindings_refuted :
  exists e w, genv_ok e /\ proper_gstart e /\ (forall tr o, In o (ge_ops e tr) -> proper_gnames o) /\
    reach (Linux true) (deep_on e 5) false constructed w /\
    let evs := about_files (received (log w)) in
    (forall bs, ~ Forall2 mirrors bs evs) /\ (forall js, ~ Forall2 js_near js evs) /\
    length evs = 2%nat /\ map b_effect (b_about_files (py_seen (received (log w)))) = [EtRename].
Proof.
  destruct (deep_closed far_env 20 (lit "/w") far_run_ok) as (w & R & E & _). exists far_env, w.
  split. { constructor; [cbn; lia|]. exists (w_dirs ++ [far]), []. split; [reflexivity|]. split; [|cbn; lia]. apply Forall_app. split; repeat (constructor; [split; discriminate|]); constructor. }
  split. { unfold proper_gstart. change (Forall (fun d => proper (fst d)) (map (fun p => (p, true)) (w_dirs ++ [far]))). apply Forall_map, Forall_app.
           split; [unfold w_dirs|]; repeat apply Forall_cons; try apply Forall_nil; apply ascii_proper; vm_compute; reflexivity. }
  split; [exact far_names|]. split; [exact R|]. cbv zeta.
  assert (Er : received (log w) = live_event true (lit "/w") 1 :: callbacks (deep_run far_env 20 (lit "/w") 5) ++ [die_event true (lit "/w") 2]).
  { rewrite E, !WatchFacts.received_app, PropsWhole.received_acts. cbn [received app]. now rewrite app_nil_r. }
  rewrite Er. clear E Er R. pose proof far_shown as H.
  assert (Ea : about_files (live_event true (lit "/w") 1 :: callbacks (deep_run far_env 20 (lit "/w") 5) ++ [die_event true (lit "/w") 2]) = about_files (callbacks (deep_run far_env 20 (lit "/w") 5))).
  { unfold about_files. cbn [filter live_event ev_ptype]. rewrite filter_app. cbn [filter die_event ev_ptype]. apply app_nil_r. }
  rewrite Ea. clear Ea.
  assert (D : exists e1 l, about_files (callbacks (deep_run far_env 20 (lit "/w") 5)) = e1 :: l /\ decode (ev_path e1) = None /\ length l = 1%nat).
  { destruct (about_files _) as [|e1 [|e2 [|]]]; cbn [map] in H; try discriminate H. injection H as _ H _. now exists e1, [e2]. }
  destruct D as (e1 & l & El & Dn & Len). rewrite El. clear El H.
  assert (NV : forall cs, ~ is_utf8 (ev_path e1) cs) by (intros cs [F Ecs]; rewrite Ecs, decode_utf8 in Dn by exact F; discriminate Dn).
  split; [|split; [|split]].
  - intros bs F. inversion F as [|b ? ? ? M]; subst. destruct M as (_ & M & _). exact (NV _ M).
  - intros js F. inversion F as [|j ? ? ? M]; subst. destruct M as [(_ & (cs & M & _) & _) _]. exact (NV _ M).
  - cbn [length]. now rewrite Len.
  - vm_compute. reflexivity.
Qed.
Print Assumptions C150_fanotify_moving_directories_reach_the_bindings_refuted.

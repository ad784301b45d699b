(** Theorem C143: from a change of the filesystem of [FanWorldSpec] to the user of a binding, as
    root on Linux (fanotify): C113 with watcher-c and the Rust, Python and Node bindings on top
    (watcher-c/src/watcher-c.cpp:41-65, watcher-rs/src/lib.rs:56-144,
    watcher-py/watcher/watcher.py:62-110, watcher-nodejs/lib/watcher-napi.cpp:25-68). *)
From Verif Require Import WatchFacts.
From Verif Require Import Base EventModel Sys Utf8Spec BindModel BindSpec BindLife PropsBind PropsLife PropsChain.
From Verif Require Import PathModel SysFacts LinuxWatch LinuxSpec LinuxProps PropsLinux InotifySpec InotifyRun FanotifySpec ExampleOs FanWorldSpec FanWorldFacts
  FanWorldRun FanLifeSpec FanLife PropsFanWorld SemabinModel WatchModel WatchSpec WholeLife WatchExamples PropsFanWhole.

(** ** What is assumed of the names *)
(** The names in a change are UTF-8. *)
Definition proper_fnames (o : fop) : Prop :=
  match o with FMake _ _ _ n | FWrite _ _ n | FRemove _ _ n => valid_utf8 n | FRename _ _ n _ m => valid_utf8 n /\ valid_utf8 m end.
(** The directories at the start have paths in UTF-8 without NUL. *)
Definition proper_start (e : fenv) : Prop := Forall proper (fw_dirs (fe_start e)).

(** ** The paths of all changes are proper *)
Definition pworld (w : fworld) : Prop := Forall proper (fw_dirs w) /\ Forall (fun x => proper (fst (fst x)) /\ fst (fst x) <> []) (fw_log w).
Lemma proper_at p n : proper p -> sound_name p n = true -> valid_utf8 n -> proper (at_path p n) /\ at_path p n <> [].
Proof.
  intros P S V. split; [|unfold at_path; destruct p; discriminate]. unfold at_path. apply proper_app; [exact P|]. apply proper_app; [exact proper_slash|]. split; [exact V|].
  unfold sound_name in S. rewrite !andb_true_iff in S. destruct S as [[[[[_ _] S] _] _] _]. rewrite forallb_forall in S. intros Hz. apply S in Hz. discriminate Hz.
Qed.
Lemma mem_in p l : mem p l = true -> In p l.
Proof. intros H. apply existsb_exists in H as (q & Hq & E). apply text_eqb_eq in E. now subst. Qed.
Lemma noted_proper w o : pworld w -> may w o = true -> proper_fnames o -> Forall (fun x => proper (fst (fst x)) /\ fst (fst x) <> []) (noted w o).
Proof.
  intros [D _] M V. rewrite Forall_forall in D. unfold noted. apply Forall_forall. intros x Hx. apply in_map_iff in Hx as ([[[p n] k] d] & <- & Hx). apply filter_In in Hx as [Hx _]. cbn [fst].
  destruct o as [i dd q m|i q m|i q m|i q m q' m']; cbn [may touches proper_fnames In] in *; rewrite !andb_true_iff in M.
  1-3: destruct Hx as [[= <- <- _ _]|[]]; apply proper_at; [apply D, mem_in, M|apply M|exact V].
  destruct V as [V V']. destruct Hx as [[= <- <- _ _]|[[= <- <- _ _]|[]]]; apply proper_at; try assumption; try apply M; apply D, mem_in, M.
Qed.
Lemma pworld_happen w o : pworld w -> proper_fnames o -> pworld (happen w o).
Proof.
  intros P V. unfold happen. destruct (may w o) eqn:M; [|exact P]. pose proof (noted_proper w o P M V) as N'. destruct P as [D L]. split; cbn [fw_dirs fw_log]; [|apply Forall_app; auto].
  destruct o as [i [|] q m|i q m|i q m|i q m q' m']; cbn [dirs_then]; try exact D. apply Forall_app. split; [exact D|]. constructor; [|constructor].
  cbn [may proper_fnames] in *. rewrite !andb_true_iff in M. rewrite Forall_forall in D. apply proper_at; [apply D, mem_in, M|apply M|exact V].
Qed.
Section Names.
  Variable e : fenv.
  Hypothesis ok : fenv_ok e.
  Hypothesis start : proper_start e.
  Hypothesis names : forall tr o, In o (fe_ops e tr) -> proper_fnames o.
  Lemma pworld_state tr : pworld (state e tr).
  Proof.
    induction tr as [|x tr IH] using rev_ind.
    - destruct (fv_start _ ok) as (D & F & E & _). unfold proper_start in start. unfold state. cbn. split; [exact start|]. rewrite E. constructor.
    - assert (H : pworld (at_call e tr)).
      { unfold at_call, happens. revert IH. generalize (state e tr) as w. pose proof (names tr) as Nt. revert Nt. generalize (fe_ops e tr) as l. induction l as [|o l IHl]; intros Nt w Hw; [exact Hw|].
        cbn [fold_left]. apply IHl; [intros o' Ho'; apply Nt; now right|]. apply pworld_happen; [exact Hw|apply Nt; now left]. }
      rewrite state_snoc. destruct x; try exact H.
      + unfold marking. destruct (_ || _); [exact H|]. cbn [snd]. destruct (asks _); exact H.
      + unfold reading. destruct (_ =? _)%Z; [|exact H]. destruct (fw_queue _); exact H.
  Qed.
  Lemma happened_proper tr s : happened (fw_log (state e tr)) s -> proper_shape s.
  Proof.
    intros H. destruct (pworld_state tr) as [_ L]. rewrite Forall_forall in L.
    assert (G : forall p k d, In (p, k, d) (fw_log (state e tr)) -> proper p /\ p <> []) by (intros p k d Hi; exact (L _ Hi)).
    destruct s as [p f t a]. destruct f, a as [[q g u b]|]; cbn in H; try contradiction.
    - destruct g, b; try contradiction. destruct H as (H1 & H2 & _). cbn. split; [eapply G, H1|]. split; [eapply G, H2|exact I].
    - destruct H as (d & [H|H] & _); cbn; (split; [eapply G, H|exact I]).
    - destruct H as (d & H & _); cbn; (split; [eapply G, H|exact I]).
    - destruct H as (d & H & _); cbn; (split; [eapply G, H|exact I]).
    - destruct H as (d & H & _); cbn; (split; [eapply G, H|exact I]).
  Qed.
End Names.
Lemma files_shapes l : map shape_of (about_files l) = files_told l.
Proof. unfold about_files, files_told. induction l as [|[p f t tm a] l IH]; [reflexivity|]. cbn [filter map ev_ptype shape_of about_fs]. destruct t; cbn [map shape_of]; now rewrite IH. Qed.

(** ** C143 *)
(** At any point [w] of any life of a watcher: what the users of the three bindings have been
    given (Rust: have been and will be; Node: as long as the queue was never full) are the
    events [evs] about files that the callback received, each with the same fields; what each
    tells had happened; and once close() has returned true, every change in a marked directory
    is told by an event about that file, or its record was still waiting, or was read after the
    end of one move directly before the beginning of another (as in C113). *)
Theorem C143_fanotify_changes_reach_the_bindings :
  forall blk e il re w, fenv_ok e -> proper_start e -> (forall tr o, In o (fe_ops e tr) -> proper_fnames o) ->
    reach (Linux blk) (fan_on e il) re constructed w ->
    let evs := about_files (received (log w)) in
    (forall ms answers left, PropsLife.logged ms = log w -> rust_stream [] ms = (answers, left) -> Forall2 mirrors (b_about_files (PropsLife.items answers ++ left)) evs) /\
    Forall2 mirrors (b_about_files (py_seen (received (log w)))) evs /\
    (forall lossy s, jreach jstart s -> j_made s = map (fun ev => js_event lossy (view_of ev)) (received (log w)) -> j_leaked s = [] ->
       Forall2 js_near (js_about_files (map snd (j_called s) ++ j_queue s)) evs) /\
    ((evs = [] /\ (forall p, ~ In (LWatch p) (log w)) /\ (forall v, ~ In (LClosed v true) (log w))) \/
     exists path fuel a b, In (LWatch path) (log w) /\ fan_run e fuel path il = a ++ b /\
       (forall ev, In ev evs -> exists a1 a2, a = a1 ++ OCallback ev :: a2 /\ happened (fw_log (state e a1)) (shape_of ev)) /\
       forall l1 v l2, log w = l1 ++ LClosed v true :: l2 ->
         b = [] /\
         (forall p k d, In (p, k, d) (fw_log (state e a)) ->
           (exists ev, In ev evs /\ mentions p (shape_of ev)) \/ pending_for (state e a) p k d \/ behind_crossing (state e a) p k d)).
Proof.
  intros blk e il re w He St Nm R evs.
  assert (X : Forall PropsChain.fine evs /\
    ((evs = [] /\ (forall p, ~ In (LWatch p) (log w)) /\ (forall v, ~ In (LClosed v true) (log w))) \/
     exists path fuel a b, In (LWatch path) (log w) /\ fan_run e fuel path il = a ++ b /\
       (forall ev, In ev evs -> exists a1 a2, a = a1 ++ OCallback ev :: a2 /\ happened (fw_log (state e a1)) (shape_of ev)) /\
       forall l1 v l2, log w = l1 ++ LClosed v true :: l2 ->
         b = [] /\
         (forall p k d, In (p, k, d) (fw_log (state e a)) ->
           (exists ev, In ev evs /\ mentions p (shape_of ev)) \/ pending_for (state e a) p k d \/ behind_crossing (state e a) p k d))).
  { destruct (C113_fanotify_a_watchers_life blk e il re w He R) as [(H1 & H2 & H3)|(path & fuel & a & b & Hin & Er & (live & die & E & Hl & Hd) & Hh & Hc)].
    { assert (evs = []) as -> by (unfold evs; rewrite <- files_shapes in H1; destruct (about_files _); [reflexivity|discriminate H1]). split; [constructor|left; auto]. }
    assert (G : forall ev, In ev evs -> exists a1 a2, a = a1 ++ OCallback ev :: a2 /\ happened (fw_log (state e a1)) (shape_of ev)).
    { intros ev Hev. unfold evs, about_files in Hev. apply filter_In in Hev as [Hev Hp]. rewrite E in Hev.
      assert (Ha : In ev (callbacks a)).
      { destruct Hev as [<-|Hev]; [destruct Hl as (_ & _ & P & _); rewrite P in Hp; discriminate Hp|]. apply in_app_iff in Hev as [Hev|Hev]; [exact Hev|].
        destruct Hd as [-> |(x & -> & Hx)]; [destruct Hev|]. destruct Hev as [<-|[]]. destruct Hx as [(_ & _ & P & _)|(_ & _ & P & _)]; rewrite P in Hp; discriminate Hp. }
      assert (Hi : In (OCallback ev) a). { clear -Ha. induction a as [|x a IH]; [destruct Ha|]. destruct x; cbn in Ha; try (right; now apply IH). destruct Ha as [-> |Ha]; [now left|right; now apply IH]. }
      apply in_split in Hi as (a1 & a2 & Ea). exists a1, a2. split; [exact Ea|]. apply (Hh _ _ _ Ea). destruct ev as [p f t tm x]. cbn in *. now destruct t. }
    split.
    { apply Forall_forall. intros ev Hev. destruct (G ev Hev) as (a1 & a2 & _ & H). apply proper_event. eapply happened_proper; eassumption. }
    right. exists path, fuel, a, b. split; [exact Hin|]. split; [exact Er|]. split; [exact G|].
    intros l1 v l2 El. destruct (Hc _ _ _ El) as (Hb & Hr & Hm). split; [exact Hb|]. intros p k d Hp. destruct (Hm p k d Hp) as [(x & Hx & Mx)|H]; [left|now right].
    assert (E1 : received l1 = received (log w)) by (rewrite El, received_app; cbn [received]; now rewrite Hr, app_nil_r).
    rewrite E1, <- files_shapes in Hx. apply in_map_iff in Hx as (ev & <- & Hev). exists ev. auto. }
  destruct X as [F X]. split; [|split; [|split; [|exact X]]].
  - intros ms answers left El Es. rewrite (C70_stream_gives_every_event_once _ _ _ Es), El. now apply mirrored.
  - now apply py_mirrored.
  - intros lossy s J M L. rewrite (proj1 (C55_nothing_lost_below_capacity_partial _ s J L)), M. now apply js_mirrored.
Qed.
Print Assumptions C143_fanotify_changes_reach_the_bindings.

(** A file with a name that is not ASCII is made, written and renamed just before close(), through
    Rust. *)
Definition fan_accent : fenv := fan_true w_dirs [] 1
  [[FMake 7 false (lit "/w") accent; FWrite 8 (lit "/w") accent; FRename 7 (lit "/w") accent (lit "/w/d") (lit "h")]].
Lemma fan_accent_names tr o : In o (fe_ops fan_accent tr) -> proper_fnames o.
Proof.
  assert (Va : valid_utf8 accent) by (exists [233%N]; split; [constructor; [left; reflexivity|constructor]|reflexivity]).
  assert (Vh : valid_utf8 (lit "h")) by (apply ascii_valid; reflexivity).
  revert o. apply Forall_forall. revert tr. apply (script_ops w_dirs [] [[FMake 7 false (lit "/w") accent; FWrite 8 (lit "/w") accent; FRename 7 (lit "/w") accent (lit "/w/d") (lit "h")]] proper_fnames).
  constructor; [|constructor]. repeat (apply Forall_cons || apply Forall_nil); try exact Va. split; assumption.
Qed.
Lemma ascii_proper t : forallb (fun b => (0 <? b) && (b <? 128))%N t = true -> proper t.
Proof.
  intros H. split.
  - apply ascii_valid. rewrite forallb_forall in *. intros b Hb. apply H in Hb. now apply andb_prop in Hb as [_ Hb].
  - rewrite forallb_forall in H. intros Hz. apply H in Hz. discriminate Hz.
Qed.
Lemma fan_accent_start : proper_start fan_accent.
Proof. unfold proper_start. change (Forall proper w_dirs). unfold w_dirs. repeat apply Forall_cons; try apply Forall_nil; apply ascii_proper; reflexivity. Qed.
Example C143_example : exists w l1 ms answers left, fenv_ok fan_accent /\ proper_start fan_accent /\ (forall tr o, In o (fe_ops fan_accent tr) -> proper_fnames o) /\
  reach (Linux true) (fan_on fan_accent 5) false constructed w /\ log w = l1 ++ [LClosed released true] /\
  PropsLife.logged ms = log w /\ rust_stream [] ms = (answers, left) /\
  map (fun b => (b_path b, b_effect b)) (b_about_files (PropsLife.items answers ++ left)) =
    [(lit "/w/" ++ [233%N], EtCreate); (lit "/w/" ++ [233%N], EtModify); (lit "/w/d/h", EtRename)].
Proof.
  destruct (fan_closed fan_accent 20 (lit "/w")) as (w & R & E & Ef); [vm_compute; reflexivity|].
  exists w. eexists. exists (map RLog (log w)). destruct (rust_stream [] (map RLog (log w))) as [answers left] eqn:Es. exists answers, left.
  split; [apply fan_true_ok; intros p _ []|]. split; [exact fan_accent_start|].
  split; [exact fan_accent_names|]. split; [exact R|]. split; [exact E|]. split; [apply logged_all|]. split; [reflexivity|].
  clear R Ef. rewrite E in Es. assert (X : answers = fst (rust_stream [] (map RLog (log w))) /\ left = snd (rust_stream [] (map RLog (log w)))) by (rewrite E, Es; auto). clear Es. destruct X as [-> ->]. rewrite E. vm_compute. reflexivity.
Qed.

(** Theorem C85: from a change of the filesystem to the user of a binding: the whole
    of C82 with watcher-c and the Rust, Python and Node bindings on top
    (watcher-c/src/watcher-c.cpp:41-65, watcher-rs/src/lib.rs:56-144,
    watcher-py/watcher/watcher.py:62-110, watcher-nodejs/lib/watcher-napi.cpp:25-68). *)
From Verif Require Import Base EventModel Sys Utf8Spec BindModel BindSpec BindLife InotifySpec KernelSpec KernelFacts KernelRun
  SemabinModel WatchModel WatchSpec WatchFacts PropsBind PropsLife PropsKernel PropsWhole.

(** ** What is assumed of the names *)
(** UTF-8 without NUL. *)
Definition proper (p : text) : Prop := valid_utf8 p /\ no_nul p.
Definition proper_names (o : op) : Prop :=
  match o with Make _ _ n | Write _ n | Remove _ n | RemoveDir _ n _ | MoveOut _ n | MoveIn _ _ n => valid_utf8 n | Rename _ n n' => valid_utf8 n /\ valid_utf8 n' end.
(** ** What the user of a binding must be told *)
(** The events about files, not about the watcher. *)
Definition about_files (l : list event) : list event := filter (fun e => match ev_ptype e with PtWatcher => false | _ => true end) l.
Definition b_about_files (l : list bevent) : list bevent := filter (fun e => match b_ptype e with PtWatcher => false | _ => true end) l.

Lemma valid_app a b : valid_utf8 a -> valid_utf8 b -> valid_utf8 (a ++ b).
Proof. intros (x & Hx & ->) (y & Hy & ->). exists (x ++ y). split; [now apply Forall_app|]. unfold utf8. now rewrite flat_map_app. Qed.
Lemma proper_app a b : proper a -> proper b -> proper (a ++ b).
Proof. intros [A1 A2] [B1 B2]. split; [now apply valid_app|]. unfold no_nul. rewrite in_app_iff. intros [?|?]; auto. Qed.
Lemma proper_slash : proper (lit "/").
Proof. split; [exists [47%N]; split; [repeat constructor; left; reflexivity|reflexivity]|]. intros [H|[]]. discriminate. Qed.
Lemma proper_entry p n : proper p -> proper n -> proper (InotifySpec.entry p n).
Proof.
  intros P N. unfold InotifySpec.entry. destruct p; [exact N|]. destruct (_ =? _)%N; repeat apply proper_app; auto using proper_slash.
Qed.
Lemma good_proper n : KernelSpec.good_name n = true -> valid_utf8 n -> proper n /\ n <> [].
Proof.
  intros G V. split; [|intros ->; discriminate]. split; [exact V|]. unfold KernelSpec.good_name in G. rewrite !andb_true_iff in G. destruct G as [[[_ G] _] _].
  rewrite forallb_forall in G. intros Hz. apply G in Hz. discriminate.
Qed.
Lemma named_entry p n : proper p -> proper n /\ n <> [] -> proper (InotifySpec.entry p n) /\ InotifySpec.entry p n <> [].
Proof.
  intros P [N1 N2]. split; [now apply proper_entry|]. unfold InotifySpec.entry. destruct p; [exact N2|]. destruct (_ =? _)%N; discriminate.
Qed.
Fixpoint proper_shape (s : InotifySpec.shape) : Prop :=
  match s with Sh p _ _ a => (proper p /\ p <> []) /\ match a with Some b => proper_shape b | None => True end end.

Section Names.
  Variables (e : env).
  Hypothesis names : forall tr o, In o (e_ops e tr) -> proper_names o.
  Record pinv (k : kern) : Prop := {
    pi_dirs : Forall proper (kn_dirs k);
    pi_log : Forall (fun c => proper_shape (change (fst c))) (kn_log k) }.
  Hypothesis start : pinv (e_start e).
  Lemma has_in p l : has p l = true -> In p l.
  Proof. intros H. apply existsb_exists in H as (q & Hq & E). apply text_eqb_eq in E. now subst. Qed.
  Lemma pinv_happen k o : pinv k -> proper_names o -> pinv (happen k o).
  Proof.
    intros [A B] N. unfold happen. destruct (legal k o) eqn:L; [|now split].
    assert (P : proper (place o) /\ proper_shape (change o)).
    { rewrite Forall_forall in A.
      destruct o; cbn [legal place change proper_names proper_shape] in *; rewrite !andb_true_iff in L;
        (assert (Hp : proper p) by (apply A, has_in; tauto));
        (assert (Hn : proper n /\ n <> []) by (apply good_proper; tauto)).
      1-4, 6-7: split; [exact Hp|]; split; [apply named_entry; assumption|exact Coq.Init.Logic.I].
      assert (Hn' : proper n' /\ n' <> []) by (apply good_proper; tauto).
      split; [exact Hp|]. split; [|split; [|exact Coq.Init.Logic.I]]; apply named_entry; assumption. }
    destruct P as [P1 P2]. constructor; cbn [kn_dirs kn_log].
    - destruct o as [[|]| | | | | |[|]]; cbn [dirs_after]; try exact A.
      + apply Forall_app. split; [exact A|]. constructor; [|constructor]. exact (proj1 (proj1 P2)).
      + unfold without. rewrite Forall_forall in *. intros q Hq. apply filter_In in Hq as [Hq _]. now apply A.
      + apply Forall_app. split; [exact A|]. constructor; [|constructor]. exact (proj1 (proj1 P2)).
    - apply Forall_app. split; [exact B|]. constructor; [exact P2|constructor].
  Qed.
  Lemma pinv_happens os : forall k, pinv k -> Forall proper_names os -> pinv (happens k os).
  Proof.
    induction os as [|o os IH]; intros k K H; [exact K|]. apply Forall_cons_iff in H as [H1 H2]. apply (IH (happen k o)); [|exact H2]. now apply pinv_happen.
  Qed.
  Lemma pinv_state tr : pinv (state e tr).
  Proof.
    induction tr as [|x tr IH] using rev_ind; [exact start|]. rewrite state_snoc.
    assert (K : pinv (at_call e tr)) by (apply pinv_happens; [exact IH|apply Forall_forall; intros o; apply names]).
    destruct x; cbn [effect_on]; try exact K.
    - unfold adding. destruct (negb _); [exact K|]. destruct (asks_all _); [|exact K]. unfold marking. destruct (negb _ && _); [|exact K].
      destruct (watched _ _); [exact K|]. destruct (_ <? _)%Z; [|exact K]. destruct K. now split.
    - unfold reading_of. destruct (_ =? _)%Z; [|exact K]. unfold reading. destruct (kn_queue _); [exact K|]. destruct K. now split.
  Qed.
  Lemma pinv_owed tr : Forall proper_shape (owed (state e tr)).
  Proof.
    unfold owed. apply Forall_forall. intros s Hs. apply in_map_iff in Hs as (c & <- & Hc). apply filter_In in Hc as [Hc _].
    pose proof (pi_log _ (pinv_state tr)) as P. rewrite Forall_forall in P. now apply P.
  Qed.
End Names.
Lemma reports_proper ev c : reports ev c -> proper_shape c -> proper_shape ev.
Proof. intros [E|(p & q & t & E1 & [E|E])] P; subst; cbn in *; tauto. Qed.
Lemma files_shapes l : map shape_of (about_files l) = fs_events l.
Proof.
  unfold about_files, fs_events. induction l as [|[p f t tm a] l IH]; [reflexivity|]. cbn. destruct t; cbn; now rewrite <- ?IH.
Qed.
(** Events that every binding can show. *)
Definition fine (ev : event) : Prop := paths_ok no_nul ev /\ paths_ok valid_utf8 ev /\ assoc_path ev <> Some [].
Lemma proper_event ev : proper_shape (shape_of ev) -> fine ev.
Proof.
  destruct ev as [p f t tm [[q ? ? ? ?]|]]; cbn; unfold proper; intros H; unfold fine, paths_ok, assoc_path; cbn.
  - destruct H as [[[H1 H2] _] [[[H3 H4] H5] _]]. split; [|split; [|intros [=]; contradiction]]; (split; [assumption|]); intros x [= <-]; assumption.
  - destruct H as [[[H1 H2] _] _]. split; [|split; [|discriminate]]; (split; [assumption|]); intros x [=].
Qed.

Section Chain.
  Variables (blk : bool) (e : env) (il : Z) (D F : list text) (re : bool) (w : world).
  Hypothesis hstart : e_start e = kern_start D F.
  Hypothesis dirs : Forall proper D.
  Hypothesis unpriv : unprivileged e.
  Hypothesis names : forall tr o, In o (e_ops e tr) -> proper_names o.
  Hypothesis life : reach (Linux blk) (watcher_on e il) re constructed w.
  (** The events so far can be shown by the bindings, and what they tell. *)
  Definition tells (evs : list event) : Prop :=
    exists tr rest, told (owed (state e tr)) (map shape_of evs ++ rest) /\ evs = about_files (callbacks tr) /\
      ((forall p, ~ In (LWatch p) (log w)) /\ tr = [] \/ exists path fuel b, In (LWatch path) (log w) /\ run e fuel path il = tr ++ b) /\
      (forall l1 v l2, log w = l1 ++ LClosed v true :: l2 -> (exists path fuel, run e fuel path il = tr) /\ (kn_queue (state e tr) = [] -> rest = [])).
  Lemma chain_tells : tells (about_files (received (log w))).
  Proof.
    unfold tells. destruct (C82_a_watchers_life blk e il D F re w hstart unpriv life) as [(A & B & C)|(path & fuel & a & b & A & Er & Rc & (rest & T) & C)].
    - assert (En : about_files (received (log w)) = []) by (rewrite <- files_shapes in A; destruct (about_files _); [reflexivity|discriminate]).
      exists [], []. rewrite files_shapes, A, En. split; [unfold state; cbn; rewrite hstart; constructor|]. split; [reflexivity|].
      split; [left; auto|]. intros l1 v l2 El. exfalso. apply (C v). rewrite El. apply in_app_iff. right. now left.
    - assert (Ea : about_files (received (log w)) = about_files (callbacks a)).
      { destruct Rc as (lv & die & -> & (_ & _ & P & _) & Hdie). change (lv :: callbacks a ++ die) with ([lv] ++ callbacks a ++ die). unfold about_files. rewrite !filter_app.
        replace (filter _ [lv]) with (@nil event) by (cbn; now rewrite P). cbn [app].
        replace (filter _ die) with (@nil event); [apply app_nil_r|].
        destruct Hdie as [->|(d & -> & [(_ & _ & Q & _)|(_ & _ & Q & _)])]; [reflexivity|cbn; now rewrite Q..]. }
      destruct (kn_queue (state e a)) as [|q0 q1] eqn:Q.
      + destruct (existsb (fun x => match x with LClosed _ true => true | _ => false end) (log w)) eqn:X.
        * apply existsb_exists in X as (x & Hx & X). destruct x; try discriminate. destruct b0; [|discriminate].
          apply in_split in Hx as (l1 & l2 & El). destruct (C _ _ _ El) as [Eb T']. specialize (T' eq_refl).
          exists a, []. rewrite files_shapes, app_nil_r.
          assert (El1 : received (log w) = received l1).
          { rewrite El, received_app. cbn [received]. pose proof (ji_reach _ _ _ _ life) as J.
            replace (received l2) with (@nil event); [now rewrite app_nil_r|]. symmetry. eapply (j_after _ J); [exact El|]. destruct v; auto.
            apply (j_err _ J) in El. discriminate. }
          rewrite <- El1 in T'. split; [exact T'|]. split; [exact Ea|]. split; [right; eauto 6|]. subst b. rewrite app_nil_r in Er. eauto.
        * exists a, rest. rewrite files_shapes. split; [exact T|]. split; [exact Ea|]. split; [right; eauto 6|].
          intros l1 v l2 El. exfalso. rewrite El, existsb_app in X. cbn in X. now rewrite orb_true_r in X.
      + exists a, rest. rewrite files_shapes. split; [exact T|]. split; [exact Ea|]. split; [right; eauto 6|]. rewrite Q. intros l1 v l2 El. split; [|intros [=]].
        destruct (C _ _ _ El) as [-> _]. rewrite app_nil_r in Er. eauto.
  Qed.
  Lemma chain : Forall fine (about_files (received (log w))) /\ tells (about_files (received (log w))).
  Proof.
    split; [|exact chain_tells].
    assert (P0 : pinv (e_start e)) by (rewrite hstart; split; [exact dirs|constructor]).
    destruct (C82_a_watchers_life blk e il D F re w hstart unpriv life) as [(A & _)|(path & fuel & a & b & _ & _ & _ & (rest & T) & _)].
    - rewrite <- files_shapes in A. destruct (about_files _); [constructor|discriminate].
    - apply Forall_forall. intros ev Hev. apply proper_event.
      assert (Hin : In (shape_of ev) (fs_events (received (log w)) ++ rest)) by (apply in_app_iff; left; rewrite <- files_shapes; now apply in_map).
      destruct (told_reports _ _ T _ Hin) as (c & Hc & Hr). apply (reports_proper _ _ Hr).
      pose proof (pinv_owed e names P0 a) as P. rewrite Forall_forall in P. now apply P.
  Qed.
End Chain.

Lemma mirrored l : Forall fine (about_files l) -> Forall2 mirrors (b_about_files (map (fun ev => rust_event (view_of ev)) l)) (about_files l).
Proof.
  assert (T : forall ev, b_ptype (rust_event (view_of ev)) = ev_ptype ev) by (intros [p f [] tm a]; reflexivity).
  unfold about_files, b_about_files. induction l as [|ev l IH]; cbn [map filter]; [constructor|]. rewrite T.
  intros H. destruct (ev_ptype ev); try (apply Forall_cons_iff in H as [(H1 & H2 & H3) H]; constructor; [now apply C50_rust_events_mirror_partial|now apply IH]).
  now apply IH.
Qed.
Definition py_seen (l : list event) : list bevent := flat_map (fun ev => match py_event (view_of ev) with Some b => [b] | None => [] end) l.
Lemma py_type ev b : py_event (view_of ev) = Some b -> b_ptype b = ev_ptype ev.
Proof.
  unfold py_event. destruct (py_str _); [|discriminate]. destruct (match v_assoc _ with Some _ => _ | None => _ end); [|discriminate].
  destruct ev as [p [] [] tm a]; cbn; intros [= <-]; reflexivity.
Qed.
Lemma py_mirrored l : Forall fine (about_files l) -> Forall2 mirrors (b_about_files (py_seen l)) (about_files l).
Proof.
  unfold about_files, b_about_files, py_seen. induction l as [|ev l IH]; cbn [flat_map filter]; [constructor|]. rewrite filter_app.
  intros H. destruct (match ev_ptype ev with PtWatcher => false | _ => true end) eqn:W.
  - apply Forall_cons_iff in H as [(H1 & H2 & H3) H]. destruct (C52_python_events_mirror_partial ev H1 H2 H3) as (b & Eb & M). rewrite Eb. cbn [filter].
    rewrite (py_type _ _ Eb), W. cbn [app]. constructor; [exact M|now apply IH].
  - destruct (py_event (view_of ev)) as [b|] eqn:Eb; cbn [filter app]; [rewrite (py_type _ _ Eb), W|]; now apply IH.
Qed.
(** JavaScript: as [js_mirrors], but the time is only near. *)
Definition js_near (j : jsevent) (ev : event) : Prop :=
  js_mirrors (JsEv (ev_time ev) (j_path j) (j_assoc j) (j_effect j) (j_ptype j)) ev /\
  (Z.abs (j_time j - ev_time ev) * 2 <= 2 ^ Z.max 0 (Z.log2 (Z.abs (ev_time ev)) - 52))%Z.
Definition js_about_files (l : list jsevent) : list jsevent :=
  filter (fun j => match j_ptype j with Some t => negb (String.eqb t "watcher") | None => true end) l.
Lemma js_mirrored lossy l : Forall fine (about_files l) -> Forall2 js_near (js_about_files (map (fun ev => js_event lossy (view_of ev)) l)) (about_files l).
Proof.
  assert (T : forall ev, (match j_ptype (js_event lossy (view_of ev)) with Some t => negb (String.eqb t "watcher") | None => true end)
                         = match ev_ptype ev with PtWatcher => false | _ => true end) by (intros [p f [] tm a]; reflexivity).
  unfold about_files, js_about_files. induction l as [|ev l IH]; cbn [map filter]; [constructor|]. rewrite T.
  intros H. destruct (match ev_ptype ev with PtWatcher => false | _ => true end); [|now apply IH].
  apply Forall_cons_iff in H as [(H1 & H2 & H3) H]. constructor; [|now apply IH].
  destruct (C54_node_times_are_near_partial lossy ev H1 H2) as (t & M & <- & Hn). split; assumption.
Qed.

(** ** C85 *)
(** [tells e il w evs]: these events tell, each once and in order, of the changes in
    watched directories up to now (the last may still be on the way; none once
    close() has returned true and the kernel's queue is empty). *)
(** Rust: what the stream has given and will give. *)
Theorem C85_changes_reach_rust :
  forall blk e il D F re w, e_start e = kern_start D F -> Forall proper D -> unprivileged e -> (forall tr o, In o (e_ops e tr) -> proper_names o) ->
    reach (Linux blk) (watcher_on e il) re constructed w ->
    forall ms answers left, logged ms = log w -> rust_stream [] ms = (answers, left) ->
    exists evs, Forall2 mirrors (b_about_files (items answers ++ left)) evs /\ tells e il w evs.
Proof.
  intros blk e il D F re w S P U N R ms answers left El Es. destruct (chain blk e il D F re w S P U N R) as [A T].
  exists (about_files (received (log w))). split; [|exact T]. rewrite (C70_stream_gives_every_event_once _ _ _ Es), El. now apply mirrored.
Qed.
Print Assumptions C85_changes_reach_rust.
(** Python: what the callback was called with. *)
Theorem C85_changes_reach_python :
  forall blk e il D F re w, e_start e = kern_start D F -> Forall proper D -> unprivileged e -> (forall tr o, In o (e_ops e tr) -> proper_names o) ->
    reach (Linux blk) (watcher_on e il) re constructed w ->
    exists evs, Forall2 mirrors (b_about_files (py_seen (received (log w)))) evs /\ tells e il w evs.
Proof.
  intros blk e il D F re w S P U N R. destruct (chain blk e il D F re w S P U N R) as [A T].
  exists (about_files (received (log w))). split; [|exact T]. now apply py_mirrored.
Qed.
Print Assumptions C85_changes_reach_python.
(** Node: what the callback was called with and will be, if the queue was never full. *)
Theorem C85_changes_reach_node :
  forall blk e il D F re w, e_start e = kern_start D F -> Forall proper D -> unprivileged e -> (forall tr o, In o (e_ops e tr) -> proper_names o) ->
    reach (Linux blk) (watcher_on e il) re constructed w ->
    forall lossy s, jreach jstart s -> j_made s = map (fun ev => js_event lossy (view_of ev)) (received (log w)) -> j_leaked s = [] ->
    exists evs, Forall2 js_near (js_about_files (map snd (j_called s) ++ j_queue s)) evs /\ tells e il w evs.
Proof.
  intros blk e il D F re w S P U N R lossy s J M L. destruct (chain blk e il D F re w S P U N R) as [A T].
  exists (about_files (received (log w))). split; [|exact T]. rewrite (proj1 (C55_nothing_lost_below_capacity_partial _ s J L)), M. now apply js_mirrored.
Qed.
Print Assumptions C85_changes_reach_node.

Lemma ascii_valid t : forallb (fun b => b <? 128)%N t = true -> valid_utf8 t.
Proof.
  intros H. exists t. rewrite forallb_forall in H. split.
  - apply Forall_forall. intros b Hb. apply H in Hb. apply N.ltb_lt in Hb. left. lia.
  - induction t as [|b t IH]; [reflexivity|]. cbn. unfold utf8_char at 1. rewrite H by now left. cbn. f_equal. apply IH. intros x Hx. apply H. now right.
Qed.
Lemma logged_all l : logged (map RLog l) = l.
Proof. induction l as [|x l IH]; [reflexivity|]. unfold logged in *. cbn [map flat_map app]. now rewrite IH. Qed.
(** The changes of C84's example, with a name that is not ASCII, through Rust. *)
Definition accent : text := [195; 169]%N.
Definition named_env : env := true_env w_dirs [] 1
  [[Make false (lit "/w") accent; Write (lit "/w") accent; Rename (lit "/w") accent (lit "b")]].
Example C85_example : exists w ms answers left,
  e_start named_env = kern_start w_dirs [] /\ Forall proper w_dirs /\ unprivileged named_env /\ (forall tr o, In o (e_ops named_env tr) -> proper_names o) /\
  reach (Linux true) (watcher_on named_env 5) false constructed w /\ logged ms = log w /\ rust_stream [] ms = (answers, left) /\
  map (fun b => (b_path b, b_assoc b, b_effect b)) (b_about_files (items answers ++ left)) =
    [([47; 119; 47; 233]%N, None, EtCreate); ([47; 119; 47; 233]%N, None, EtModify); ([47; 119; 47; 233]%N, Some (lit "/w/b"), EtRename)].
Proof.
  destruct (closed_life named_env 20 (lit "/w")) as (w & R & E & _ & Er); [vm_compute; reflexivity|].
  assert (Ew : received (log w) = live_event true (lit "/w") 1 :: callbacks (run named_env 20 (lit "/w") 5) ++ [die_event true (lit "/w") 2]).
  { rewrite E, received_app. cbn [received]. rewrite app_nil_r. exact Er. }
  clear E Er. exists w, (map RLog (log w)). destruct (rust_stream [] (map RLog (log w))) as [answers left] eqn:Es. exists answers, left.
  pose proof (C70_stream_gives_every_event_once _ _ _ Es) as Hs. rewrite logged_all, Ew in Hs. rewrite Hs. rewrite logged_all. clear Ew Hs.
  split; [reflexivity|]. split.
  { apply Forall_cons; [|apply Forall_cons; [|apply Forall_nil]]; (split; [apply ascii_valid; reflexivity|]); intros H; cbn in H; decompose [or] H; (discriminate || contradiction). }
  split; [apply true_unpriv|]. split.
  { intros tr o Ho. assert (Hv : valid_utf8 accent) by (exists [233%N]; split; [constructor; [left; reflexivity|constructor]|reflexivity]).
    unfold named_env, true_env, scripted_env in Ho. cbn [e_ops] in Ho. destruct (ExampleOs.count _ _) as [|i]; [destruct Ho|]. destruct (rev tr) as [|[] ?]; try destruct Ho; destruct i as [|[|i]]; cbn in Ho; try contradiction.
    all: decompose [or] Ho; subst; try contradiction; cbn; auto. split; [exact Hv|]. apply ascii_valid; reflexivity. }
  split; [exact R|]. split; [reflexivity|]. split; [reflexivity|]. clear Es. vm_compute. reflexivity.
Qed.

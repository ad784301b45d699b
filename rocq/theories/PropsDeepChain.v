(** Theorem C138: from a change of the filesystem of [DeepSpec] (directories move, records are
    lost) to the user of a binding: C131 with watcher-c and the Rust, Python and Node bindings
    on top (watcher-c/src/watcher-c.cpp:41-65, watcher-rs/src/lib.rs:56-144,
    watcher-py/watcher/watcher.py:62-110, watcher-nodejs/lib/watcher-napi.cpp:25-68). *)
From Verif Require Import Base EventModel Sys Utf8Spec BindModel BindSpec BindFacts BindLife.
From Verif Require Import SemabinModel WatchModel WatchSpec WatchFacts PropsBind PropsLife.
From Verif Require Import LinuxWatch.
From Verif Require Import InotifySpec KernelSpec KernelFacts KernelRun PropsKernel PropsWhole PropsChain DeepSpec DeepFacts DeepRun DeepLog DeepWatch PropsDeep DeepTimeSpec DeepTime PropsDeepWhole.

(** The names in a change are UTF-8. *)
Definition proper_dnames (o : dop) : Prop :=
  match o with DMake _ _ n | DWrite _ n | DRemove _ n | DRmdir _ n _ => valid_utf8 n | DMove _ _ n _ n' => valid_utf8 n /\ valid_utf8 n' end.

(** ** UTF-8 after UTF-8 *)
Lemma decode_after cs r : Forall scalar cs -> decode (utf8 cs ++ r) = option_map (app cs) (decode r).
Proof.
  induction 1 as [|c cs Hc _ IH]; cbn [utf8 flat_map app]; [now destruct (decode r)|]. rewrite <- app_assoc, decode_char by exact Hc.
  fold (utf8 cs). rewrite IH. now destruct (decode r).
Qed.
Lemma valid_rest a b : valid_utf8 (a ++ b) -> valid_utf8 a -> valid_utf8 b.
Proof.
  intros (cs & Hcs & E) (ds & Hds & ->). pose proof (decode_after ds b Hds) as H. rewrite E, decode_utf8 in H by exact Hcs.
  destruct (decode b) as [x|] eqn:Eb; [|discriminate H]. exists x. exact (decode_sound (length b) b x (le_n _) Eb).
Qed.
Lemma below_prefix p q : at_or_below p q = true -> exists r, q = p ++ r.
Proof.
  unfold at_or_below, below. cbv zeta. intros H. apply orb_true_iff in H as [H|H]; [apply text_eqb_eq in H; exists []; now rewrite app_nil_r|].
  apply andb_true_iff in H as [H _]. apply text_eqb_eq in H.
  assert (Hp : exists t, entry p [] = p ++ t).
  { unfold entry. destruct p; [exists []; reflexivity|]. destruct (_ =? _)%N; eexists; reflexivity. }
  destruct Hp as (t & Et). exists (t ++ skipn (length (entry p [])) q). rewrite app_assoc, <- Et.
  transitivity (firstn (length (entry p [])) q ++ skipn (length (entry p [])) q); [symmetry; apply firstn_skipn|now rewrite <- H].
Qed.
Lemma proper_nil : proper [].
Proof. split; [exists []; split; [constructor|reflexivity]|intros []]. Qed.
Lemma proper_renamed e e' q : proper e -> proper e' -> proper q -> proper (renamed e e' q).
Proof.
  intros [E1 E2] [E1' E2'] [Q1 Q2]. unfold renamed. destruct (at_or_below e q) eqn:B; [|now split]. apply below_prefix in B as (r & ->).
  rewrite skipn_app, skipn_all, Nat.sub_diag. cbn [skipn app]. apply proper_app; [now split|]. split; [now apply (valid_rest e)|]. intros H. apply Q2, in_app_iff. now right.
Qed.

(** ** All paths in the kernel are proper *)
Definition nproper (n : notice) : Prop :=
  match n with
  | About _ o a dir => proper dir /\ (proper (name_of o a) /\ name_of o a <> []) /\ (proper (name_of o true) /\ name_of o true <> [])
  | _ => True
  end.
Record dpinv (k : dkern) : Prop := {
  dp_dirs : Forall (fun w => proper (fst w)) (dk_dirs k);
  dp_given : Forall (fun g => proper (snd g)) (dk_given k);
  dp_log : Forall (fun c => Forall (fun nf => nproper (fst nf)) (snd c)) (dk_log k) }.
Lemma proper_as k wd : dpinv k -> proper (watched_as k wd).
Proof.
  intros [_ G _]. unfold watched_as. destruct (find _ (dk_given k)) as [g|] eqn:Ef; [|apply proper_nil].
  apply find_some in Ef as [Ef _]. rewrite Forall_forall in G. now apply G.
Qed.
Lemma dir_at_in k p : dpinv k -> dir_at k p = true -> proper p.
Proof.
  intros [A _ _] H. unfold dir_at in H. apply existsb_exists in H as (w & Hw & E). apply text_eqb_eq in E. subst p. rewrite Forall_forall in A. now apply A.
Qed.
Lemma dpinv_happen max k o : dpinv k -> proper_dnames o -> dpinv (dhappen max k o).
Proof.
  intros K N. unfold dhappen. destruct (dlegal k o) eqn:L; [|exact K].
  assert (Hn : (forall a, proper (place_of o a)) /\ forall a, proper (name_of o a) /\ name_of o a <> []).
  { destruct o; cbn [dlegal proper_dnames place_of name_of] in *; repeat (apply andb_true_iff in L as [L ?]);
      (split; [intros [|]; apply (dir_at_in k); assumption|intros [|]; apply good_proper; tauto]). }
  destruct Hn as [Hp Hn].
  assert (He : forall a b, proper (entry (place_of o a) (name_of o b))) by (intros a b; apply proper_entry; [apply Hp|apply Hn]).
  destruct (posts max (dk_queue k) (drecords k o)) as [q f] eqn:Ep. constructor; cbn [dk_dirs dk_given dk_log].
  - pose proof (dp_dirs _ K) as A. destruct o as [[|] p n|p n|p n|p n fst0|[|] p n p' n']; cbn [ddirs_after]; try exact A.
    + apply Forall_app. split; [exact A|]. constructor; [|constructor]. exact (He true true).
    + rewrite Forall_forall in *. intros w Hw. apply filter_In in Hw as [Hw _]. now apply A.
    + rewrite Forall_forall in *. intros w Hw. apply in_map_iff in Hw as (w0 & <- & Hw). cbn [fst].
      apply proper_renamed; [exact (He false false)|exact (He true true)|now apply A].
  - apply K.
  - apply Forall_app. split; [apply K|]. constructor; [|constructor]. cbn [snd]. apply Forall_forall. intros [n g] Hin.
    destruct (posts_notices max n g (drecords k o) (dk_queue k)) as [->|(s & Hs & Es)]; [now rewrite Ep|exact I|].
    cbn [fst]. destruct n as [mv o' a d| |]; try exact I. destruct (drecords_about k o s mv o' a d Hs Es) as (-> & wd & _ & ->).
    split; [now apply proper_as|]. split; apply Hn.
Qed.
Lemma dpinv_happens max os : forall k, dpinv k -> Forall proper_dnames os -> dpinv (dhappens max k os).
Proof.
  induction os as [|o os IH]; intros k K H; [exact K|]. apply Forall_cons_iff in H as [H1 H2]. apply (IH (dhappen max k o)); [|exact H2]. now apply dpinv_happen.
Qed.
Section Names.
  Variables (e : denv) (D F : list text).
  Hypothesis start : de_start e = dk_start D F.
  Hypothesis dirs : Forall proper D.
  Hypothesis names : forall tr o, In o (de_ops e tr) -> proper_dnames o.
  Lemma dpinv_state tr : dpinv (dstate e tr).
  Proof.
    induction tr as [|x tr IH] using rev_ind.
    { unfold dstate. cbn [rev dstate_rev]. rewrite start. constructor; cbn; try constructor. apply Forall_forall. intros w Hw. apply in_map_iff in Hw as (p & <- & Hp).
      rewrite Forall_forall in dirs. now apply dirs. }
    rewrite dstate_snoc.
    assert (K : dpinv (dat_call e tr)) by (apply dpinv_happens; [exact IH|apply Forall_forall; intros o; apply names]).
    unfold deffect. destruct x; try exact K.
    - unfold dadding. destruct (negb _); [exact K|]. destruct (dasks_all _); [|exact K]. unfold dmarking. destruct (negb _ && _) eqn:Ed; [|exact K].
      destruct (wd_at _ _); [exact K|]. destruct (_ <? _)%Z; [|exact K]. apply andb_true_iff in Ed as [_ Ed]. pose proof (dir_at_in _ _ K Ed) as Hp. constructor; cbn [snd dk_dirs dk_given dk_log].
      + pose proof (dp_dirs _ K) as A. rewrite Forall_forall in *. intros w Hw. apply in_map_iff in Hw as (w0 & <- & Hw). specialize (A _ Hw). destruct (text_eqb (fst w0) _); exact A.
      + apply Forall_app. split; [apply K|]. constructor; [exact Hp|constructor].
      + apply K.
    - unfold dreading. destruct (dk_queue _); [exact K|]. destruct (negb _); [exact K|]. constructor; apply K.
  Qed.
  Lemma told_fine tr l ev : told_of (due (dstate e tr)) l -> In (shape_of ev) l -> fine ev.
  Proof.
    intros T Hin. assert (P : forall n, In n (due (dstate e tr)) -> nproper n).
    { intros n Hn. apply due_logged in Hn as (x & o & ns & y & f & El & Hn). pose proof (dp_log _ (dpinv_state tr)) as A. rewrite El in A.
      apply Forall_app in A as [_ A]. apply Forall_cons_iff in A as [A _]. cbn [snd] in A. rewrite Forall_forall in A. exact (A _ Hn). }
    apply proper_event. destruct (told_from_one _ _ T _ Hin) as [->|[(mv & o & a & dir & H & ->)|(mv & d & p & n & p' & n' & dir & dir' & H1 & H2 & ->)]].
    - split; [|exact I]. split; [|discriminate]. split; [apply ascii_valid; reflexivity|]. intros H. cbn in H. decompose [or] H; (discriminate || contradiction).
    - destruct (P _ H) as (Hd & Hn & _). unfold alone. split; [now apply named_entry|exact I].
    - destruct (P _ H1) as (Hd & Hn & _). destruct (P _ H2) as (_ & _ & Hn'). cbn [name_of] in *. split; [now apply named_entry|]. split; [now apply named_entry|exact I].
  Qed.
End Names.

(** ** C138 *)
(** [is_told ev]: a filesystem event, or the warning of a gap. *)
Definition is_told (ev : event) : Prop := ev_ptype ev <> PtWatcher \/ shape_of ev = lost_warning.
(** [deep_tells e il w evs]: nothing is watched and these are only messages of the watcher; or
    their filesystem events and warnings tell, each once and in order, what the kernel kept of
    the changes in watched directories up to some point [a] of the watcher's run ([rest]: what
    is still on the way); once close() has returned true the run is over, and nothing is
    on the way if the kernel's queue is empty. *)
Definition deep_tells (e : denv) (il : Z) (w : world) (evs : list event) : Prop :=
  (Forall (fun ev => ev_ptype ev = PtWatcher) evs /\ (forall p, ~ In (LWatch p) (log w)) /\ (forall v, ~ In (LClosed v true) (log w))) \/
  exists path fuel a b rest, In (LWatch path) (log w) /\ drun e fuel path il = a ++ b /\
    told_of (due (dstate e a)) (news_in evs ++ rest) /\
    (forall v, In (LClosed v true) (log w) -> b = [] /\ (dk_queue (dstate e a) = [] -> rest = [])).
Lemma told_is_news ev : is_told ev -> is_news (shape_of ev) = true.
Proof.
  intros [H|H]; [|rewrite H; reflexivity].
  destruct ev as [p f t n a]. destruct t; try (destruct a as [[]|]; reflexivity). now contradiction H.
Qed.
Section Chain.
  Variables (blk : bool) (e : denv) (il : Z) (D F : list text) (re : bool) (w : world).
  Hypothesis hstart : de_start e = dk_start D F.
  Hypothesis dirs : Forall proper D.
  Hypothesis unpriv : dunprivileged e.
  Hypothesis names : forall tr o, In o (de_ops e tr) -> proper_dnames o.
  Hypothesis life : reach (Linux blk) (deep_on e il) re constructed w.
  Lemma dchain : Forall (fun ev => is_told ev -> fine ev) (received (log w)) /\ deep_tells e il w (received (log w)).
  Proof.
    destruct (C131_a_watchers_life blk e il D F re w hstart unpriv life) as [(A & B & C)|(path & fuel & a & b & A & Er & _ & (rest & T) & C)].
    - split; [|left; auto]. rewrite Forall_forall in *. intros ev Hev [H|H]; [now apply A in Hev|]. apply proper_event. rewrite H. split; [|exact Coq.Init.Logic.I].
      split; [|discriminate]. split; [apply ascii_valid; reflexivity|]. intros H'. cbn in H'. decompose [or] H'; (discriminate || contradiction).
    - split.
      + apply Forall_forall. intros ev Hev Ht. apply (told_fine e D F hstart dirs names a _ ev T). apply in_app_iff. left.
        unfold news_in. apply filter_In. split; [now apply in_map|now apply told_is_news].
      + right. destruct (existsb (fun x => match x with LClosed _ true => true | _ => false end) (log w)) eqn:X.
        * apply existsb_exists in X as (x & Hx & X). destruct x; try discriminate X. destruct b0; [|discriminate X].
          apply in_split in Hx as (l1 & l2 & El). destruct (C _ _ _ El) as (Eb & Er2 & T').
          assert (E1 : received (log w) = received l1) by (rewrite El, WatchFacts.received_app; cbn [received]; now rewrite Er2, app_nil_r).
          destruct (dk_queue (dstate e a)) as [|q0 q1] eqn:Q.
          -- exists path, fuel, a, b, []. split; [exact A|]. split; [exact Er|]. split; [rewrite app_nil_r, E1; now apply T'|]. auto.
          -- exists path, fuel, a, b, rest. split; [exact A|]. split; [exact Er|]. split; [exact T|]. intros v' _. split; [exact Eb|]. rewrite Q. intros [=].
        * exists path, fuel, a, b, rest. split; [exact A|]. split; [exact Er|]. split; [exact T|]. intros v Hv. exfalso.
          assert (Y : existsb (fun x => match x with LClosed _ true => true | _ => false end) (log w) = true) by (apply existsb_exists; exists (LClosed v true); auto).
          rewrite X in Y. discriminate Y.
  Qed.
End Chain.
Lemma all_shown {A B} (f : A -> B) (R : B -> A -> Prop) (P Q : A -> Prop) l : (forall x, Q x -> R (f x) x) -> Forall (fun x => P x -> Q x) l ->
  Forall2 (fun b x => P x -> R b x) (map f l) l.
Proof. intros H. induction 1; cbn [map]; constructor; auto. Qed.

(** Rust: what the stream has given and will give. *)
Theorem C138_changes_reach_rust :
  forall blk e il D F re w, de_start e = dk_start D F -> Forall proper D -> dunprivileged e -> (forall tr o, In o (de_ops e tr) -> proper_dnames o) ->
    reach (Linux blk) (deep_on e il) re constructed w ->
    forall ms answers left, PropsLife.logged ms = log w -> rust_stream [] ms = (answers, left) ->
    exists evs, Forall2 (fun b ev => is_told ev -> mirrors b ev) (PropsLife.items answers ++ left) evs /\ deep_tells e il w evs.
Proof.
  intros blk e il D F re w S P U N' R ms answers left El Es. destruct (dchain blk e il D F re w S P U N' R) as [A T].
  exists (received (log w)). split; [|exact T]. rewrite (C70_stream_gives_every_event_once _ _ _ Es), El.
  apply (all_shown (fun ev => rust_event (view_of ev)) mirrors is_told fine); [|exact A]. intros ev (H1 & H2 & H3). now apply C50_rust_events_mirror_partial.
Qed.
Print Assumptions C138_changes_reach_rust.
(** Python: what the callback was called with ([None]: it was not called). *)
Theorem C138_changes_reach_python :
  forall blk e il D F re w, de_start e = dk_start D F -> Forall proper D -> dunprivileged e -> (forall tr o, In o (de_ops e tr) -> proper_dnames o) ->
    reach (Linux blk) (deep_on e il) re constructed w ->
    exists evs, Forall2 (fun ob ev => is_told ev -> exists b, ob = Some b /\ mirrors b ev) (map (fun ev => py_event (view_of ev)) (received (log w))) evs /\
      deep_tells e il w evs.
Proof.
  intros blk e il D F re w S P U N' R. destruct (dchain blk e il D F re w S P U N' R) as [A T].
  exists (received (log w)). split; [|exact T].
  apply (all_shown (fun ev => py_event (view_of ev)) (fun ob ev => exists b, ob = Some b /\ mirrors b ev) is_told fine); [|exact A].
  intros ev (H1 & H2 & H3). now apply C52_python_events_mirror_partial.
Qed.
Print Assumptions C138_changes_reach_python.
(** Node: what the callback was called with and will be, if the queue was never full. *)
Theorem C138_changes_reach_node :
  forall blk e il D F re w, de_start e = dk_start D F -> Forall proper D -> dunprivileged e -> (forall tr o, In o (de_ops e tr) -> proper_dnames o) ->
    reach (Linux blk) (deep_on e il) re constructed w ->
    forall lossy s, jreach jstart s -> j_made s = map (fun ev => js_event lossy (view_of ev)) (received (log w)) -> j_leaked s = [] ->
    exists evs, Forall2 (fun j ev => is_told ev -> js_near j ev) (map snd (j_called s) ++ j_queue s) evs /\ deep_tells e il w evs.
Proof.
  intros blk e il D F re w S P U N' R lossy s J M L. destruct (dchain blk e il D F re w S P U N' R) as [A T].
  exists (received (log w)). split; [|exact T]. rewrite (proj1 (C55_nothing_lost_below_capacity_partial _ s J L)), M.
  apply (all_shown (fun ev => js_event lossy (view_of ev)) js_near is_told fine); [|exact A].
  intros ev (H1 & H2 & H3). destruct (C54_node_times_are_near_partial lossy ev H1 H2) as (t & Mi & <- & Hn). split; assumption.
Qed.
Print Assumptions C138_changes_reach_node.

(** A directory with a name that is not ASCII is moved, a file is made in it and records are
    lost (C132's example), through Rust. *)
Definition daccent : denv := dtrue 3 tree [] 1
  [[DMake false (lit "/w") (lit "a"); DMove true (lit "/w") (lit "d") (lit "/w/e") accent; DMake false (lit "/w/e" ++ lit "/" ++ accent) (lit "b"); DMake false (lit "/w") (lit "c")]].
Lemma daccent_names tr o : In o (de_ops daccent tr) -> proper_dnames o.
Proof.
  intros Ho. assert (Hv : valid_utf8 accent) by (exists [233%N]; split; [constructor; [left; reflexivity|constructor]|reflexivity]).
  cbn [daccent dtrue dscripted de_ops] in Ho. 
  destruct (ExampleOs.count _ _) as [|i]; [destruct Ho|]. destruct (rev tr) as [|[] ?]; try destruct Ho; destruct i as [|[|i]]; cbn in Ho; try contradiction.
  all: decompose [or] Ho; subst; try contradiction; cbn; auto; try (apply ascii_valid; reflexivity). split; [apply ascii_valid; reflexivity|exact Hv].
Qed.
Lemma deep_received e fuel path : snd (linux_watch (dsystem e) fuel path 5 []) = Ok true ->
  exists w, reach (Linux true) (deep_on e 5) false constructed w /\
    received (log w) = live_event true path 1 :: callbacks (drun e fuel path 5) ++ [die_event true path 2].
Proof.
  intros H. destruct (deep_closed e fuel path H) as (w & R & E & _). exists w. split; [exact R|]. rewrite E, !WatchFacts.received_app, received_acts. cbn [received app].
  now rewrite ?app_nil_r.
Qed.
Example C138_example : exists w ms answers left,
  de_start daccent = dk_start tree [] /\ Forall proper tree /\ dunprivileged daccent /\ (forall tr o, In o (de_ops daccent tr) -> proper_dnames o) /\
  reach (Linux true) (deep_on daccent 5) false constructed w /\ PropsLife.logged ms = log w /\ rust_stream [] ms = (answers, left) /\
  map (fun b => (b_path b, b_assoc b, b_effect b)) (PropsLife.items answers ++ left) =
    [(lit "s/self/live@/w", None, EtCreate); (lit "/w/a", None, EtCreate); (lit "/w/d", Some [47; 119; 47; 233]%N, EtRename); (lit "w/sys/phantom@", None, EtOther); (lit "s/self/die@/w", None, EtDestroy)].
Proof.
  destruct (deep_received daccent 20 (lit "/w")) as (w & R & Ew); [vm_compute; reflexivity|].
  exists w, (map RLog (log w)). destruct (rust_stream [] (map RLog (log w))) as [answers left] eqn:Es. exists answers, left.
  pose proof (C70_stream_gives_every_event_once _ _ _ Es) as Hs. rewrite logged_all, Ew in Hs. rewrite Hs. rewrite logged_all. clear Ew Hs.
  split; [reflexivity|]. split.
  { repeat (apply Forall_cons; [|]); try apply Forall_nil; (split; [apply ascii_valid; reflexivity|]); intros H; cbn in H; decompose [or] H; (discriminate || contradiction). }
  split; [apply dtrue_unpriv|]. split; [exact daccent_names|]. split; [exact R|]. split; [reflexivity|]. split; [reflexivity|]. clear Es. vm_compute. reflexivity.
Qed.

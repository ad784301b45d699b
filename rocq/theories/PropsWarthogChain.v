(** Theorem C156: from a change of the filesystem to the user of a binding where the fallback
    adapter is used: C105 with watcher-c and the Rust, Python and Node bindings on top
    (watcher-c/src/watcher-c.cpp:41-65, watcher-rs/src/lib.rs:56-144,
    watcher-py/watcher/watcher.py:62-110, watcher-nodejs/lib/watcher-napi.cpp:25-68). *)
From Verif Require Import WatchFacts.
From Verif Require Import Base PathModel EventModel Utf8Spec BindModel BindSpec BindLife PropsBind PropsLife.
From Verif Require Import PropsChain.
From Verif Require Import InotifySpec Mon WarthogModel WarthogSpec WarthogFacts WarthogRun WarthogWhole PropsWarthog PropsWarthogWhole.
From Verif Require Import SemabinModel WatchModel WatchSpec WholeLife WatchExamples.
From Verif Require PropsDarwinChain.

(** The paths of the history are not empty, and UTF-8 without NUL. *)
Definition well_named (h : nat -> contents) : Prop := forall i e, In e (h i) -> proper (en_path e) /\ en_path e <> [].

Lemma says_files h j e a x : says h j e a -> In x a -> exists f, x = Sh (en_path e) f PtFile None.
Proof. intros H Hx. destruct H; cbn in Hx; try contradiction; destruct Hx as [<-|[]]; eauto. Qed.
Lemma round_files h j c l x : round_says h j c l -> In x l -> exists e f, In e c /\ x = Sh (en_path e) f PtFile None.
Proof.
  induction 1 as [|e c a b Hs R IH]; intros Hx; [destruct Hx|]. apply in_app_or in Hx as [Hx|Hx].
  - destruct (says_files _ _ _ _ _ Hs Hx) as (f & ->). exists e, f. split; [now left|reflexivity].
  - destruct (IH Hx) as (e' & f & He & ->). exists e', f. split; [now right|reflexivity].
Qed.
Lemma rounds_files h k l x : rounds_say h k l -> In x l -> exists i e f, In e (h i) /\ x = Sh (en_path e) f PtFile None.
Proof.
  induction 1 as [|k a b R0 IH R]; intros Hx; [destruct Hx|]. apply in_app_or in Hx as [Hx|Hx]; [now apply IH|].
  destruct (round_files _ _ _ _ _ R Hx) as (e & f & He & ->). eauto.
Qed.

(** At any point [w] of any life of a watcher: what the users of the three bindings have been
    given (Rust: have been and will be; Node: as long as the queue was never full) are the
    events [evs] about files that the callback received, each with the same fields.  They are a
    beginning of what the scans begun so far say ([rounds_say]: C104), with all that the
    earlier ones said, and all of it when close() has returned true. *)
Theorem C156_fallback_changes_reach_the_bindings :
  forall pl s root h re w, changes_between_rounds s root h -> (forall i e, In e (h i) -> en_time e <> None) -> well_named h ->
    reach pl (fallback_on s) re constructed w -> (forall p, In (LWatch p) (log w) -> p = root) ->
    let evs := about_files (received (log w)) in
    (forall ms answers left, PropsLife.logged ms = log w -> rust_stream [] ms = (answers, left) -> Forall2 mirrors (b_about_files (PropsLife.items answers ++ left)) evs) /\
    Forall2 mirrors (b_about_files (py_seen (received (log w)))) evs /\
    (forall lossy j, jreach jstart j -> j_made j = map (fun ev => js_event lossy (view_of ev)) (received (log w)) -> j_leaked j = [] ->
       Forall2 js_near (js_about_files (map snd (j_called j) ++ j_queue j)) evs) /\
    ((evs = [] /\ (forall p, ~ In (LWatch p) (log w)) /\ (forall v, ~ In (LClosed v true) (log w))) \/
     exists k,
       (exists rest, rounds_say h k (map shape_of evs ++ rest)) /\
       (forall i, k = S i -> exists before since, map shape_of evs = before ++ since /\ rounds_say h i before) /\
       forall l1 v l2, log w = l1 ++ LClosed v true :: l2 -> rounds_say h k (map shape_of evs)).
Proof.
  intros pl s root h re w Hh Ht Wn R Hroot evs.
  assert (X : Forall fine evs /\
    ((evs = [] /\ (forall p, ~ In (LWatch p) (log w)) /\ (forall v, ~ In (LClosed v true) (log w))) \/
     exists k, (exists rest, rounds_say h k (map shape_of evs ++ rest)) /\
       (forall i, k = S i -> exists before since, map shape_of evs = before ++ since /\ rounds_say h i before) /\
       forall l1 v l2, log w = l1 ++ LClosed v true :: l2 -> rounds_say h k (map shape_of evs))).
  { destruct (C105_fallback_a_watchers_life pl s root h re w Hh Ht R Hroot) as [(H1 & H2 & H3)|(k & live & evs' & die & E & Hl & Hd & (rest & T) & B & C)].
    { unfold evs. rewrite (PropsDarwinChain.no_files _ H1). split; [constructor|left; auto]. }
    assert (G : forall e, In e evs' -> proper_shape (shape_of e) /\ ev_ptype e <> PtWatcher).
    { intros e He. destruct (rounds_files h k _ (shape_of e) T) as (i & en & f & Hen & Es).
      - apply in_or_app. left. now apply in_map.
      - destruct (Wn i en Hen) as [P N0]. rewrite Es. split; [cbn; auto|]. destruct e as [p f' t tm a]. cbn in Es. injection Es as _ _ -> _. discriminate. }
    assert (Ee : evs = evs').
    { unfold evs. rewrite E. change (live :: ?x ++ die) with ([live] ++ x ++ die). rewrite !PropsDarwinChain.files_app, (PropsDarwinChain.no_files [live]), (PropsDarwinChain.no_files die), app_nil_r.
      - cbn [app]. apply PropsDarwinChain.all_files, Forall_forall. intros e He. now apply G.
      - destruct Hd as [-> |(x & -> & [Hx|Hx])]; [constructor|constructor; [apply Hx|constructor]..].
      - constructor; [apply Hl|constructor]. }
    rewrite Ee. split; [apply Forall_forall; intros e He; apply proper_event; now apply G|].
    right. exists k. split; [eauto|]. split; [exact B|]. intros l1 v l2 El. apply (C l1 v l2 El). }
  destruct X as [F X]. split; [|split; [|split; [|exact X]]].
  - intros ms answers left El Es. rewrite (C70_stream_gives_every_event_once _ _ _ Es), El. now apply mirrored.
  - now apply py_mirrored.
  - intros lossy j J M L. rewrite (proj1 (C55_nothing_lost_below_capacity_partial _ j J L)), M. now apply js_mirrored.
Qed.
Print Assumptions C156_fallback_changes_reach_the_bindings.

(** The life of C105's example through all three: three events each. *)
Example C156_example :
  let h := fun i => nth (pred i) c104_h (last c104_h []) in
  changes_between_rounds (hist (lit "/w") 5 c104_h) (lit "/w") h /\ (forall i e, In e (h i) -> en_time e <> None) /\ well_named h /\
  exists w l1 v, reach (Linux true) (fallback_on (hist (lit "/w") 5 c104_h)) false constructed w /\
    (forall p, In (LWatch p) (log w) -> p = lit "/w") /\ log w = l1 ++ [LClosed v true] /\
    length (received l1) = 5%nat /\ length (about_files (received l1)) = 3%nat /\
    exists ms answers left, PropsLife.logged ms = log w /\ rust_stream [] ms = (answers, left) /\ (length (b_about_files (PropsLife.items answers ++ left)) = length (about_files (received (log w))))%nat.
Proof.
  cbv zeta. split; [apply C104_example|]. split; [apply C104_example|]. split.
  { assert (H : Forall (Forall (fun e => proper (en_path e) /\ en_path e <> [])) c104_h).
    { repeat constructor; cbn [en_path ent]; try discriminate; apply PropsDarwinChain.ascii_proper; vm_compute; reflexivity. }
    intros i e Hi. rewrite Forall_forall in H. assert (Hc : In (nth (pred i) c104_h (last c104_h [])) c104_h).
    { destruct (Nat.lt_ge_cases (pred i) (length c104_h)) as [Hl|Hl]; [now apply nth_In|]. rewrite nth_overflow by exact Hl. vm_compute. tauto. }
    apply H in Hc. rewrite Forall_forall in Hc. now apply Hc. }
  destruct C105_example as (w & l1 & v & R & Hw & El & Hlen). exists w, l1, v.
  assert (Hh : changes_between_rounds (hist (lit "/w") 5 c104_h) (lit "/w") (fun i => nth (pred i) c104_h (last c104_h []))) by apply C104_example.
  assert (Ht : forall i e, In e (nth (pred i) c104_h (last c104_h [])) -> en_time e <> None) by apply C104_example.
  split; [exact R|]. split; [exact Hw|]. split; [exact El|]. split; [exact Hlen|].
  assert (Hf : length (about_files (received l1)) = 3%nat).
  { destruct (C105_fallback_a_watchers_life _ _ _ _ _ _ Hh Ht R Hw) as [(_ & _ & Hn)|(k & live & evs & die & E & Hl & Hd & (rest & T) & _ & Hc)].
    { exfalso. apply (Hn v). rewrite El. apply in_elt. }
    destruct (Hc l1 v [] El) as (Dn & _ & _). assert (E1 : received l1 = live :: evs ++ die).
    { rewrite <- E, El, received_app. cbn [received]. now rewrite app_nil_r. }
    rewrite E1 in Hlen |- *. change (live :: evs ++ die) with ([live] ++ evs ++ die). rewrite !PropsDarwinChain.files_app, (PropsDarwinChain.no_files [live]), (PropsDarwinChain.no_files die), app_nil_r.
    - cbn [app]. rewrite PropsDarwinChain.all_files.
      + destruct Hd as [-> |(x & -> & _)]; [now contradiction Dn|]. cbn in Hlen. rewrite app_length in Hlen. cbn in Hlen. lia.
      + apply Forall_forall. intros e He. destruct (rounds_files _ k _ (shape_of e) T) as (i & en & f & Hen & Es); [apply in_or_app; left; now apply in_map|].
        destruct e as [p f' t tm a]. cbn in Es. injection Es as _ _ -> _. discriminate.
    - destruct Hd as [-> |(x & -> & [Hx|Hx])]; [constructor|constructor; [apply Hx|constructor]..].
    - constructor; [apply Hl|constructor]. }
  split; [exact Hf|].
  destruct (rust_stream [] (map RLog (log w))) as [answers left] eqn:Es. exists (map RLog (log w)), answers, left.
  split; [apply logged_all|]. split; [exact Es|].
  rewrite (C70_stream_gives_every_event_once _ _ _ Es), logged_all. unfold b_about_files, about_files. induction (received (log w)) as [|ev l IH]; [reflexivity|].
  cbn [map filter]. destruct ev as [p f t tm a]. cbn. destruct t; cbn; rewrite ?IH; reflexivity.
Qed.

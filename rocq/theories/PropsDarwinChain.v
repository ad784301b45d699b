(** Theorem C142: from a change of the filesystem to the user of a binding on Darwin: C118 with
    watcher-c and the Rust, Python and Node bindings on top (watcher-c/src/watcher-c.cpp:41-65,
    watcher-rs/src/lib.rs:56-144, watcher-py/watcher/watcher.py:62-110,
    watcher-nodejs/lib/watcher-napi.cpp:25-68). *)
From Verif Require Import WatchFacts.
From Verif Require Import Base PathModel EventModel Utf8Spec BindModel BindSpec BindLife PropsBind PropsLife.
From Verif Require Import PropsChain.
From Verif Require Import InotifySpec Mon DarwinModel DarwinSpec DarwinFacts DarwinLife DarwinWorldSpec DarwinWorldFacts PropsDarwin PropsDarwinWorld PropsDarwinWhole.
From Verif Require Import SemabinModel WatchModel WatchSpec WholeLife WatchExamples.

(** ** What is assumed of the names *)
(** The paths FSEvents gives are not empty, and UTF-8 without NUL (as all names on a Mac). *)
Definition named (o : list dobs) : Prop :=
  forall i rs p fl, In (DOccur i (Some rs)) o -> In (p, fl) rs -> proper p /\ p <> [].
Definition darwin_named (w0 : tree) (path : text) (st : list act) (r : option bool) : Prop :=
  exists s d hist, dreach s dstart d /\ honest w0 hist (dlog d) /\ named (dlog d) /\ st = map darwin_act (dlog d) /\
    match r with Some b => In (DRet b) (dlog d) | None => True end.
Lemma darwin_named_ok w0 : adapter_ok (darwin_named w0).
Proof.
  destruct (darwin_on_ok w0) as [Q S]. split.
  - intros abs st r ev (s & d & h & R & H & _ & E). apply (Q abs st r). exists s, d, h. auto.
  - intros abs st (s & d & h & R & H & _ & E). apply (S abs). exists s, d, h. auto.
Qed.

(** ** The paths of the events are those of records *)
Lemma cb_named s d : dreach s dstart d -> named (dlog d) -> forall e, In (DCb e) (dlog d) -> proper_shape (shape_of e) /\ ev_ptype e <> PtWatcher.
Proof.
  intros R H e He. apply in_split in He as (o1 & o2 & E). destruct (cb_from s d R _ _ _ E) as (c & a & p & fl & m & o' & c' & -> & Er & Dc).
  assert (Hr : forall q f, In (DRec q f) (a ++ [DRec p fl]) -> proper q /\ q <> []).
  { intros q f Hq. assert (Hd : In (DRec q f) (dlog d)) by (rewrite E; rewrite in_app_iff in Hq |- *; rewrite in_app_iff; destruct Hq as [Hq|[Hq|[]]]; [auto|left; right; now left]).
    apply in_split in Hd as (x & y & Ed). destruct (rec_from s d R _ _ _ _ Ed) as (i & rs & Ho & Hp). apply (H i rs q f); [rewrite Ed, in_app_iff; now left|exact Hp]. }
  assert (Hp : proper p /\ p <> []) by (apply (Hr p fl), in_elt).
  destruct (recv_one_spec s c p fl (a ++ [DRec p fl])) as (oo & cc & there & E1 & P1 & _ & M1 & _). rewrite Er in E1. injection E1 as <- <-.
  assert (Hin : In (shape_of e) (pure_events c p fl there)) by (rewrite <- M1; apply cb_in_mine; [exact P1|apply in_elt]).
  assert (Ty : forall f a', shape_of e = Sh p f (b_type fl) a' \/ shape_of e = Sh (last_rename c) f (b_type fl) a' -> ev_ptype e <> PtWatcher).
  { intros f a' X. assert (ev_ptype e = b_type fl) as -> by (destruct e; cbn in X; destruct X as [X|X]; injection X; auto). unfold b_type. repeat (destruct (N.testbit _ _) || destruct (_ || _)%bool); discriminate. }
  unfold pure_events in Hin. destruct (b_known fl).
  2:{ destruct Hin as [Hin|[]]. split; [rewrite <- Hin; cbn; auto|eapply Ty; left; symmetry; exact Hin]. }
  rewrite !in_app_iff in Hin. destruct Hin as [Hin|[Hin|[Hin|Hin]]].
  1-3: match type of Hin with In _ (if ?b then _ else _) => destruct b; [|destruct Hin] end; destruct Hin as [Hin|[]]; split; [rewrite <- Hin; cbn; auto|eapply Ty; left; symmetry; exact Hin].
  destruct (pure_ren c p fl there) eqn:Pr; [|destruct Hin]. destruct Hin as [Hin|[]]. split; [|eapply Ty; right; symmetry; exact Hin].
  rewrite <- Hin. cbn. split; [|auto]. unfold pure_ren in Pr. rewrite !andb_true_iff in Pr. destruct Pr as [[[_ Pr] _] _].
  assert (Hl : last_rename c <> []) by (intros X; rewrite X in Pr; discriminate Pr). rewrite (di_last _ _ Dc) in *.
  destruct (left_flagged _ Hl) as (r & Hi & <- & _). apply in_reports in Hi. apply (Hr _ (r_flags r)). rewrite in_app_iff. now left.
Qed.
Lemma received_acts o e : In e (received (acts_log (map darwin_act o))) -> In (DCb e) o.
Proof.
  induction o as [|x o IH]; [intros []|]. unfold acts_log in *. cbn [map concat]. rewrite received_app, in_app_iff. intros [H|H]; [|right; auto].
  destruct x; cbn in H; try contradiction. destruct H as [<-|[]]. now left.
Qed.
Lemma all_files l : Forall (fun ev => ev_ptype ev <> PtWatcher) l -> about_files l = l.
Proof. unfold about_files. induction 1 as [|e l H _ IH]; [reflexivity|]. cbn [filter]. rewrite IH. destruct (ev_ptype e); try reflexivity. now contradiction H. Qed.
Lemma no_files l : Forall (fun ev => ev_ptype ev = PtWatcher) l -> about_files l = [].
Proof. unfold about_files. induction 1 as [|e l H _ IH]; [reflexivity|]. cbn [filter]. now rewrite H, IH. Qed.
Lemma files_app a b : about_files (a ++ b) = about_files a ++ about_files b.
Proof. apply filter_app. Qed.

(** ** C142 *)
(** At any point [w] of any life of a watcher: what the users of the three bindings have been
    given (Rust: have been and will be; Node: as long as the queue was never full) are the
    events [evs] about files that the callback received, each with the same fields; each was
    true when it was made (C115), and once close() has returned true they tell, of changes
    that came one at a time and gave no trouble (C116), each once and in order. *)
Theorem C142_darwin_changes_reach_the_bindings :
  forall pl w0 re w, reach pl (darwin_named w0) re constructed w ->
    let evs := about_files (received (log w)) in
    (forall ms answers left, PropsLife.logged ms = log w -> rust_stream [] ms = (answers, left) -> Forall2 mirrors (b_about_files (PropsLife.items answers ++ left)) evs) /\
    Forall2 mirrors (b_about_files (py_seen (received (log w)))) evs /\
    (forall lossy s, jreach jstart s -> j_made s = map (fun ev => js_event lossy (view_of ev)) (received (log w)) -> j_leaked s = [] ->
       Forall2 js_near (js_about_files (map snd (j_called s) ++ j_queue s)) evs) /\
    ((evs = [] /\ (forall p, ~ In (LWatch p) (log w)) /\ (forall v, ~ In (LClosed v true) (log w))) \/
     exists path s d hist a b,
       In (LWatch path) (log w) /\ dreach s dstart d /\ honest w0 hist (dlog d) /\ dlog d = a ++ b /\
       map shape_of evs = dshown a /\
       (forall o1 e o2, a = o1 ++ DCb e :: o2 -> true_event w0 hist o1 (shape_of e)) /\
       forall l1 v l2, log w = l1 ++ LClosed v true :: l2 -> b = [] /\
         forall cs, typed w0 -> cans w0 cs -> easy_going cs -> paced w0 cs (reports a) -> map shape_of evs = events_for w0 cs).
Proof.
  intros pl w0 re w R evs.
  assert (X : Forall fine evs /\
    ((evs = [] /\ (forall p, ~ In (LWatch p) (log w)) /\ (forall v, ~ In (LClosed v true) (log w))) \/
     exists path s d hist a b,
       In (LWatch path) (log w) /\ dreach s dstart d /\ honest w0 hist (dlog d) /\ dlog d = a ++ b /\
       map shape_of evs = dshown a /\
       (forall o1 e o2, a = o1 ++ DCb e :: o2 -> true_event w0 hist o1 (shape_of e)) /\
       forall l1 v l2, log w = l1 ++ LClosed v true :: l2 -> b = [] /\
         forall cs, typed w0 -> cans w0 cs -> easy_going cs -> paced w0 cs (reports a) -> map shape_of evs = events_for w0 cs)).
  { destruct (whole_life _ pl re w R) as [(H1 & H2 & H3)|(path & dn & rest & r & Hin & Hr & (live & die & E & Hl & Hd & Hc))].
    { unfold evs. rewrite (no_files _ H1). split; [constructor|left; auto]. }
    destruct Hr as (s & d & hist & Rd & Ho & Nm & Em & Hret). symmetry in Em.
    assert (Sp : exists a b, dlog d = a ++ b /\ map darwin_act a = dn /\ map darwin_act b = rest).
    { clear -Em. revert dn Em. generalize (dlog d) as o. induction o as [|x o IH]; intros [|y dn] Em; cbn in Em.
      - exists [], []. auto.
      - discriminate.
      - exists [], (x :: o). auto.
      - injection Em as <- Em. destruct (IH _ Em) as (a & b & -> & <- & <-). exists (x :: a), b. auto. }
    destruct Sp as (a & b & Ed & <- & <-).
    assert (G : forall e, In e (received (acts_log (map darwin_act a))) -> proper_shape (shape_of e) /\ ev_ptype e <> PtWatcher).
    { intros e He. apply (cb_named s d Rd Nm). rewrite Ed, in_app_iff. left. now apply received_acts. }
    assert (Ee : evs = received (acts_log (map darwin_act a))).
    { unfold evs. rewrite E. change (live :: ?x ++ die) with ([live] ++ x ++ die). rewrite !files_app, (no_files [live]), (no_files die), app_nil_r.
      - cbn [app]. apply all_files, Forall_forall. intros e He. now apply G.
      - destruct Hd as [-> |(x & -> & [Hx|Hx])]; [constructor|constructor; [apply Hx|constructor]..].
      - constructor; [apply Hl|constructor]. }
    split; [rewrite Ee; apply Forall_forall; intros e He; apply proper_event; now apply G|].
    right. exists path, s, d, hist, a, b. rewrite Ee, received_darwin. repeat (split; [assumption || reflexivity|]). split.
    - intros o1 e o2 Ea. eapply (C115_darwin_no_event_without_a_change_partial s d); eauto. rewrite Ed, Ea, <- app_assoc. reflexivity.
    - intros l1 v l2 El. destruct (Hc _ _ _ El) as (Hb & -> & _). destruct b; [|discriminate]. rewrite app_nil_r in Ed. split; [reflexivity|].
      intros cs T C Ea P. rewrite <- Ed in *. now apply (C116_darwin_one_event_per_change_partial s d w0 cs). }
  destruct X as [F X]. split; [|split; [|split; [|exact X]]].
  - intros ms answers left El Es. rewrite (C70_stream_gives_every_event_once _ _ _ Es), El. now apply mirrored.
  - now apply py_mirrored.
  - intros lossy s J M L. rewrite (proj1 (C55_nothing_lost_below_capacity_partial _ s J L)), M. now apply js_mirrored.
Qed.
Print Assumptions C142_darwin_changes_reach_the_bindings.

(** The life of C118's example, whose names are ASCII, through all three. *)
Lemma ascii_proper t : forallb (fun b => (0 <? b) && (b <? 128))%N t = true -> proper t.
Proof.
  intros H. split.
  - apply ascii_valid. rewrite forallb_forall in *. intros b Hb. apply H in Hb. now apply andb_prop in Hb as [_ Hb].
  - rewrite forallb_forall in H. intros Hz. apply H in Hz. discriminate Hz.
Qed.
Lemma all_ascii_named o : forallb (fun x => match x with DOccur _ (Some rs) => forallb (fun r => forallb (fun b => (0 <? b) && (b <? 128))%N (fst r) && negb (is_nil (fst r))) rs | _ => true end) o = true -> named o.
Proof.
  intros H i rs p fl Ho Hp. rewrite forallb_forall in H. specialize (H _ Ho). cbn in H. rewrite forallb_forall in H. specialize (H _ Hp). cbn [fst] in H. apply andb_prop in H as [H1 H2].
  split; [now apply ascii_proper|]. intros ->. discriminate H2.
Qed.
Example C142_example :
  exists w l1 v d hist, reach Darwin (darwin_named quiet_tree) false constructed w /\ log w = l1 ++ [LClosed v true] /\
    length (about_files (received l1)) = 5%nat /\
    (exists ms answers left, PropsLife.logged ms = log w /\ rust_stream [] ms = (answers, left) /\ length (b_about_files (PropsLife.items answers ++ left)) = 5%nat) /\
    dreach (mac ["/w/y"%string]) dstart d /\ honest quiet_tree hist (dlog d) /\ named (dlog d) /\ In (DRet true) (dlog d) /\
    typed quiet_tree /\ cans quiet_tree quiet_changes /\ easy_going quiet_changes /\ paced quiet_tree quiet_changes (reports (dlog d)).
Proof.
  set (s := mac ["/w/y"%string]). set (d := PropsDarwinWhole.ended s quiet_records). pose proof (ended_reach s quiet_records) as R. fold d in R.
  assert (Ho : honest quiet_tree (at_once quiet_changes) (dlog d)).
  { set (o := tl (dlog d)). change (dlog d) with (DStream true :: o). apply honest_at_once. vm_compute in o. unfold o. pose proof quiet_flags as Fl.
    repeat (apply Forall_cons; [first [exact Fl|exact I|left; reflexivity|right; reflexivity]|]). constructor. }
  assert (Hr : In (DRet true) (dlog d)) by (apply in_or_app; right; cbn; auto 10).
  assert (Nm : named (dlog d)) by (apply all_ascii_named; vm_compute; reflexivity).
  assert (L : exists m, reach Darwin (darwin_named quiet_tree) false constructed (World m (WDone true) OIdle false (late_log (lit "/w") (map darwin_act (life1 s quiet_records ++ [DLeave 0])) (map darwin_act [DStop; DLock; DFlushed; DClosed; DRet true])))).
  { apply late_life.
    - exists s, d, (at_once quiet_changes). split; [exact R|]. split; [exact Ho|]. split; [exact Nm|]. split; [|exact Hr]. rewrite <- map_app. f_equal.
    - intros X. assert (Y : existsb (fun x => match x with AStop => true | _ => false end) (map darwin_act (life1 s quiet_records ++ [DLeave 0])) = true) by (apply existsb_exists; exists AStop; auto). vm_compute in Y. discriminate Y. }
  destruct L as (m & H).
  eexists. eexists. eexists. exists d, (at_once quiet_changes). split; [exact H|]. split; [cbn [log]; unfold late_log; rewrite app_comm_cons, app_assoc; reflexivity|].
  split; [vm_compute; reflexivity|]. split.
  { eexists (map RLog _), _, _. split; [apply logged_all|]. split; [vm_compute; reflexivity|vm_compute; reflexivity]. }
  split; [exact R|]. split; [exact Ho|]. split; [exact Nm|]. split; [exact Hr|].
  destruct C116_example as (_ & T & C & Ea & P & _). repeat (split; [assumption|]).
  replace (reports (dlog d)) with (reports (life1 s quiet_records)); [exact P|]. symmetry. apply reports_quiet. repeat constructor.
Qed.

(** Theorems C118 and C119: the whole library on Darwin: class watch
    (include/wtr/watcher.hpp:2239-2282), its stop flag, the Darwin adapter (:470-818), and a
    filesystem that others change ([DarwinWorldSpec]). *)
From Verif Require Import WatchFacts.
From Verif Require Import Base PathModel EventModel InotifySpec Mon DarwinModel DarwinSpec DarwinFacts DarwinLife DarwinWorldSpec DarwinWorldFacts PropsDarwin PropsDarwinWorld.
From Verif Require Import SemabinModel WatchModel WatchSpec WholeLife WatchExamples.

(** The runs of the adapter on a filesystem that is [w0] at first, and of which FSEvents tells
    the truth, as class watch sees them. *)
Definition darwin_on (w0 : tree) (path : text) (st : list act) (r : option bool) : Prop :=
  exists s d hist, dreach s dstart d /\ honest w0 hist (dlog d) /\ st = map darwin_act (dlog d) /\
    match r with Some b => In (DRet b) (dlog d) | None => True end.
Lemma darwin_on_ok w0 : adapter_ok (darwin_on w0).
Proof.
  destruct C01_darwin_adapter as [Q S]. split.
  - intros abs st r ev (s & d & h & R & _ & E & H). apply (Q abs st r). exists s, d. auto.
  - intros abs st (s & d & h & R & _ & E & H). apply (S abs). exists s, d. auto.
Qed.
Lemma received_darwin o : map shape_of (received (acts_log (map darwin_act o))) = dshown o.
Proof.
  induction o as [|x o IH]; [reflexivity|]. unfold acts_log in *. cbn [map concat]. rewrite WatchFacts.received_app, map_app, IH.
  destruct x; reflexivity.
Qed.

(** ** C118 *)
(** At any point [w] of any life of a watcher: either nothing is watched and no filesystem
    event was received; or what the callback received is the live message, then events
    ([evs]), each true when the callback was called, then the die message if the life is
    over.  [a]: what the adapter has done so far.  Once close() has returned true the adapter
    is done, nothing more is received, and if the changes came one at a time and gave no
    trouble, the events tell of each of them once, in order. *)
Theorem C118_darwin_a_watchers_life_partial :
  forall pl w0 re w, reach pl (darwin_on w0) re constructed w ->
    (Forall (fun ev => ev_ptype ev = PtWatcher) (received (log w)) /\ (forall p, ~ In (LWatch p) (log w)) /\ (forall v, ~ In (LClosed v true) (log w))) \/
    exists path s d hist a b,
      In (LWatch path) (log w) /\ dreach s dstart d /\ honest w0 hist (dlog d) /\ dlog d = a ++ b /\
      exists live evs die, received (log w) = live :: evs ++ die /\ live_ok path live /\
        (die = [] \/ exists x, die = [x] /\ (die_ok path x \/ die_bad path x)) /\
        map shape_of evs = dshown a /\
        (forall o1 e o2, a = o1 ++ DCb e :: o2 -> true_event w0 hist o1 (shape_of e)) /\
        forall l1 v l2, log w = l1 ++ LClosed v true :: l2 ->
          b = [] /\ received l2 = [] /\ die <> [] /\
          forall cs, typed w0 -> cans w0 cs -> easy_going cs -> paced w0 cs (reports a) -> map shape_of evs = events_for w0 cs.
Proof.
  intros pl w0 re w R. destruct (whole_life _ pl re w R) as [H|(path & dn & rest & r & Hin & Hr & (live & die & E & Hl & Hd & Hc))]; [now left|right].
  destruct Hr as (s & d & hist & Rd & Ho & Em & Hret). symmetry in Em.
  assert (Sp : exists a b, dlog d = a ++ b /\ map darwin_act a = dn /\ map darwin_act b = rest).
  { clear -Em. revert dn Em. generalize (dlog d) as o. induction o as [|x o IH]; intros [|y dn] Em; cbn in Em.
    - exists [], []. auto.
    - discriminate.
    - exists [], (x :: o). auto.
    - injection Em as <- Em. destruct (IH _ Em) as (a & b & -> & <- & <-). exists (x :: a), b. auto. }
  destruct Sp as (a & b & Ed & <- & <-). exists path, s, d, hist, a, b. split; [exact Hin|]. split; [exact Rd|]. split; [exact Ho|]. split; [exact Ed|].
  exists live, (received (acts_log (map darwin_act a))), die. rewrite received_darwin.
  split; [exact E|]. split; [exact Hl|]. split; [exact Hd|]. split; [reflexivity|]. split.
  - intros o1 e o2 Ea. eapply (C115_darwin_no_event_without_a_change_partial s d); eauto. rewrite Ed, Ea, <- app_assoc. reflexivity.
  - intros l1 v l2 El. destruct (Hc _ _ _ El) as (Hb & -> & Hr & Hdie). destruct b; [|discriminate]. rewrite app_nil_r in Ed. repeat (split; [assumption || reflexivity|]).
    intros cs T C Ea P. rewrite <- Ed in *. now apply (C116_darwin_one_event_per_change_partial s d w0 cs).
Qed.
Print Assumptions C118_darwin_a_watchers_life_partial.

(** A life in which close() is called when the adapter has done [st1]. *)
Lemma darwin_late w0 s d hist st1 st2 : dreach s dstart d -> honest w0 hist (dlog d) -> dlog d = st1 ++ st2 -> In (DRet true) (dlog d) -> ~ In DStop st1 ->
  exists m, reach Darwin (darwin_on w0) false constructed (World m (WDone true) OIdle false (late_log (lit "/w") (map darwin_act st1) (map darwin_act st2))).
Proof.
  intros R H E Hr Hn. apply late_life.
  - exists s, d, hist. rewrite E, map_app in *. auto.
  - intros X. apply in_map_iff in X as (x & Hx & Hin). destruct x; try discriminate Hx. contradiction.
Qed.

(** One batch, gone through; then the end. *)
Definition ended (s : dfs) (rs : list record) : dworld :=
  DW (fst (go s {| seen := []; last_rename := [] |} rs [DStream true; DOccur 0 (Some rs); DTake 0])) false 1 [] [] (CRet true)
     (life1 s rs ++ [DLeave 0; DStop; DLock; DFlushed; DClosed; DRet true]).
Lemma ended_reach s rs : dreach s dstart (ended s rs).
Proof.
  unfold ended. eapply (DR1 s _ (DW _ true 1 [] [] CStop (life1 s rs ++ [DLeave 0; DStop; DLock; DFlushed])));
    [|replace (life1 s rs ++ [DLeave 0; DStop; DLock; DFlushed; DClosed; DRet true]) with ((life1 s rs ++ [DLeave 0; DStop; DLock; DFlushed]) ++ [DClosed; DRet true]) by (rewrite <- app_assoc; reflexivity); eapply D_closed].
  replace (life1 s rs ++ [DLeave 0; DStop; DLock; DFlushed]) with ((((life1 s rs ++ [DLeave 0]) ++ [DStop]) ++ [DLock]) ++ [DFlushed]) by (rewrite <- !app_assoc; reflexivity).
  eapply DR1; [|eapply (D_flush s _ true 1 [] [] 1); intros ? ? []].
  eapply DR1; [|apply D_lock]. eapply DR1; [|apply D_stop].
  eapply DR1; [|eapply (D_leave s _ true 1 [] [] 0 [] (CWait true))]. cbn [app].
  apply go_reach with (rs := rs).
  eapply DR1; [|exact (D_take s _ 1 [] [] 0 rs [] (CWait true) [DStream true; DOccur 0 (Some rs)])].
  eapply DR1; [|exact (D_hand s _ false 1 [] 0 (Some rs) [] [] (CWait true) [DStream true; DOccur 0 (Some rs)] I)].
  eapply DR1; [|exact (D_occur s _ false 0 [] [] (CWait true) [DStream true] (Some rs) I)].
  eapply DR1; [|exact (D_open s _ false 0 [] [] true [])]. apply DR0.
Qed.

Lemma quiet_flags : Forall (fun r => flags_true quiet_tree quiet_changes (fst r) (snd r)) quiet_records.
Proof.
  assert (M : hit (makes (lit "/w/a")) quiet_changes) by (exists (CMake (lit "/w/a") PtFile); split; [now left|]; eexists; reflexivity).
  unfold quiet_records, rc. repeat (apply Forall_cons || apply Forall_nil); (repeat split); cbn [fst snd]; intros H; try discriminate H; try exact M; try (cbn; auto 10; fail).
  - apply (was_at _ _ 1). reflexivity.
  - apply (was_at _ _ 1). reflexivity.
  - apply (was_at _ _ 1). reflexivity.
  - apply (was_at _ _ 0). reflexivity.
  - exists (CMove (lit "/w/x") (lit "/w/y")). split; [cbn; auto 10|]. left. eexists. left. reflexivity.
  - apply (was_at _ _ 4). reflexivity.
  - exists (CMove (lit "/w/x") (lit "/w/y")). split; [cbn; auto 10|]. left. eexists. right. reflexivity.
  - apply (was_at _ _ 1). reflexivity.
  - apply (was_at _ _ 6). reflexivity.
Qed.
Example C118_example :
  exists w l1 v d hist, reach Darwin (darwin_on quiet_tree) false constructed w /\ log w = l1 ++ [LClosed v true] /\ length (received l1) = 7%nat /\
    dreach (mac ["/w/y"%string]) dstart d /\ honest quiet_tree hist (dlog d) /\ In (DRet true) (dlog d) /\
    typed quiet_tree /\ cans quiet_tree quiet_changes /\ easy_going quiet_changes /\ paced quiet_tree quiet_changes (reports (dlog d)).
Proof.
  set (s := mac ["/w/y"%string]). set (d := ended s quiet_records). pose proof (ended_reach s quiet_records) as R. fold d in R.
  assert (Ho : honest quiet_tree (at_once quiet_changes) (dlog d)).
  { set (o := tl (dlog d)). change (dlog d) with (DStream true :: o). apply honest_at_once. vm_compute in o. unfold o. pose proof quiet_flags as Fl.
    repeat (apply Forall_cons; [first [exact Fl|exact I|left; reflexivity|right; reflexivity]|]). constructor. }
  assert (Hr : In (DRet true) (dlog d)) by (apply in_or_app; right; cbn; auto 10).
  destruct (darwin_late quiet_tree s d _ (life1 s quiet_records ++ [DLeave 0]) [DStop; DLock; DFlushed; DClosed; DRet true] R Ho) as (m & H).
  { unfold d, ended. cbn [dlog]. rewrite <- app_assoc. reflexivity. } { exact Hr. }
  { intros X. assert (Y : existsb (fun x => match x with DStop => true | _ => false end) (life1 s quiet_records ++ [DLeave 0]) = true) by (apply existsb_exists; exists DStop; auto). vm_compute in Y. discriminate Y. }
  eexists. eexists. eexists. exists d, (at_once quiet_changes). split; [exact H|]. split; [cbn [log]; unfold late_log; rewrite app_comm_cons, app_assoc; reflexivity|].
  split; [vm_compute; reflexivity|]. split; [exact R|]. split; [exact Ho|]. split; [exact Hr|].
  destruct C116_example as (_ & T & C & Ea & P & _). repeat (split; [assumption|]).
  replace (reports (dlog d)) with (reports (life1 s quiet_records)); [exact P|]. symmetry. apply reports_quiet. repeat constructor.
Qed.

(** ** C119: changes made before close() *)
(** The claim: what was changed before close() was called is reported by the time close() has
    returned.  What holds: what event_recv took is gone through to the end, record by record,
    and all its events are received. *)
Theorem C119_darwin_what_was_taken_partial :
  forall pl w0 re w, reach pl (darwin_on w0) re constructed w ->
    forall l1 v l2, log w = l1 ++ LClosed v true :: l2 ->
    exists path s d hist live evs die, In (LWatch path) (log w) /\ dreach s dstart d /\ honest w0 hist (dlog d) /\
      received l1 = live :: evs ++ [die] /\ map shape_of evs = dshown (dlog d) /\
      forall i rs, In (DTake i) (dlog d) -> In (DOccur i (Some rs)) (dlog d) ->
        exists a m b, dlog d = a ++ DTake i :: m ++ DLeave i :: b /\ recs m = rs /\ (forall j, ~ In (DTake j) m) /\
          map shape_of evs = dshown a ++ dshown m ++ dshown b.
Proof.
  intros pl w0 re w R l1 v l2 El. destruct (whole_life _ pl re w R) as [(_ & _ & H)|(path & dn & rest & r & Hin & Hr & (live & die & E & Hl & Hd & Hc))].
  { exfalso. apply (H v). rewrite El. apply in_elt. }
  destruct (Hc _ _ _ El) as (-> & -> & Hrc & Hdie). rewrite app_nil_r in Hr. destruct Hr as (s & d & hist & Rd & Ho & -> & Hret).
  assert (X : exists x, die = [x]) by (destruct Hd as [->|(x & -> & _)]; [now contradiction Hdie|eauto]). destruct X as (x & ->).
  exists path, s, d, hist, live, (received (acts_log (map darwin_act (dlog d)))), x. rewrite received_darwin.
  split; [exact Hin|]. split; [exact Rd|]. split; [exact Ho|]. split; [rewrite <- E, El, WatchFacts.received_app; cbn [received]; now rewrite Hrc, app_nil_r|].
  split; [reflexivity|]. intros i rs Hi Hoc. destruct (life_reach s d Rd) as (Id & _ & Se).
  destruct (C64_nothing_used_after_return_partial s d true Rd Hret) as [Hn _].
  destruct (se_take _ Se i Hi) as [(rs' & Hx)|(a & m & b & E1 & Hm & St)]; [rewrite Hn in Hx; destruct Hx|].
  exists a, m, b. split; [exact E1|]. split; [|split].
  - assert (Some (recs m) = Some rs) as [= ->]; [|reflexivity]. apply (id_uniq _ Id i); auto.
  - intros j Hj. rewrite Forall_forall in St. exact (St _ Hj).
  - rewrite E1, dshown_app. cbn [dshown]. rewrite dshown_app. reflexivity.
Qed.
Print Assumptions C119_darwin_what_was_taken_partial.
Example C119_example :
  exists w l1 v d, reach Darwin (darwin_on quiet_tree) false constructed w /\ log w = l1 ++ [LClosed v true] /\ length (received l1) = 7%nat /\
    dreach (mac ["/w/y"%string]) dstart d /\ In (DTake 0) (dlog d) /\ In (DOccur 0 (Some quiet_records)) (dlog d).
Proof.
  set (s := mac ["/w/y"%string]). destruct C118_example as (w & l1 & v & _ & _ & R & E & L & _). exists w, l1, v, (ended s quiet_records).
  repeat (split; [assumption|]). split; [apply ended_reach|]. split; vm_compute; auto 10.
Qed.

(** In general it is false: a file is made; close() is called after that; the adapter locks
    its mutex, then flushes the stream, and drops what it is given. *)
Definition last_make : list change := [CMake (lit "/w/report") PtFile].
Definition last_batch : list record := [rc "/w/report" 0x10100].
Definition last_log : list dobs := [DStream true; DOccur 0 (Some last_batch)] ++ [DStop; DLock; DDrop 0; DFlushed; DClosed; DRet true].
Lemma last_reach : exists d, dreach (mac ["/w/report"%string]) dstart d /\ dlog d = last_log.
Proof.
  set (s := mac ["/w/report"%string]). eexists. split.
  - eapply DR1; [|eapply (D_closed s _ true 1 [])].
    eapply DR1; [|eapply (D_flush s _ true 1 [] [] 1); intros ? ? []].
    eapply DR1; [|eapply (D_busy s _ true 1 [] [] 0 last_batch [] (CFlush 1))].
    eapply DR1; [|eapply (D_hand s _ true 1 [] 0 (Some last_batch) [] [] (CFlush 1)); exact I].
    eapply DR1; [|apply D_lock].
    eapply DR1; [|apply D_stop].
    eapply DR1; [|eapply (D_occur s _ false 0 [] [] (CWait true)); exact I].
    eapply DR1; [|exact (D_open s _ false 0 [] [] true [])]. apply DR0.
  - reflexivity.
Qed.
Theorem C119_darwin_changes_before_close_refuted :
  exists d w l1 l2, dreach (mac ["/w/report"%string]) dstart d /\ honest no_things (at_once last_make) (dlog d) /\
    reach Darwin (darwin_on no_things) false constructed w /\
    log w = l1 ++ LRequest :: l2 ++ [LClosed released true] /\
    (* close() is called when the change has happened and is noted *)
    dlog d = [DStream true; DOccur 0 (Some last_batch)] ++ skipn 2 (dlog d) /\
    received l1 = live_event true (lit "/w") 1 :: received (acts_log (map darwin_act [DStream true; DOccur 0 (Some last_batch)])) /\
    at_once last_make 2 = last_make /\
    (* nothing but the two messages was received *)
    map ev_ptype (received (log w)) = [PtWatcher; PtWatcher].
Proof.
  destruct last_reach as (d & R & E). exists d.
  assert (Ho : honest no_things (at_once last_make) (dlog d)).
  { rewrite E. unfold last_log. apply honest_at_once. 
    assert (Fl : Forall (fun r => flags_true no_things last_make (fst r) (snd r)) last_batch).
    { unfold last_batch, rc. repeat (apply Forall_cons || apply Forall_nil); (repeat split); cbn [fst snd]; intros H; try discriminate H.
      - apply (was_at _ _ 1). reflexivity.
      - exists (CMake (lit "/w/report") PtFile). split; [now left|]. eexists. reflexivity. }
    repeat (apply Forall_cons; [first [exact Fl|exact I]|]). constructor. }
  destruct (darwin_late no_things _ d _ [DStream true; DOccur 0 (Some last_batch)] [DStop; DLock; DDrop 0; DFlushed; DClosed; DRet true] R Ho E) as (m & H).
  { rewrite E. cbn. auto 10. } { intros [X|[X|[]]]; discriminate X. }
  eexists. eexists. eexists. split; [exact R|]. split; [exact Ho|]. split; [exact H|]. cbn [log]. split; [reflexivity|].
  split; [rewrite E; reflexivity|]. split; [reflexivity|]. split; [reflexivity|]. vm_compute. reflexivity.
Qed.
Print Assumptions C119_darwin_changes_before_close_refuted.

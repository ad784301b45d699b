(** Theorems C102 and C103: the whole library on Windows: class watch
    (include/wtr/watcher.hpp:2239-2282), its stop flag, the Windows adapter (:1730-1972),
    and a filesystem that others change ([WinWorldSpec]). *)
From Verif Require Import WatchFacts.
From Verif Require Import Base EventModel InotifySpec Mon WindowsModel WindowsSpec WindowsRun WinWorldSpec WinWorldFacts WinTrue PropsWindows PropsWinWorld.
From Verif Require Import SemabinModel WatchModel WatchSpec WholeLife WatchExamples.
From Verif Require Sys.

(** [e] with the watched directory at [path]: its names are relative to it. *)
Definition at_path (path : text) (e : wenv) : wenv :=
  {| we_path := path; we_start := we_start e; we_ops := we_ops e; we_want := we_want e; we_base := we_base e |}.
(** The runs of the adapter on [e], as class watch sees them. *)
Definition win_on (e : wenv) (path : text) (st : list act) (r : option bool) : Prop :=
  exists fuel o out, win_watch (system (at_path path e)) fuel path [] = (o, out) /\ st = map win_act o /\
    ((exists b, out = Ok b /\ r = Some b) \/ (out = Fuel /\ r = None)).
Lemma win_on_runs e path st r : win_on e path st r -> win_runs path st r.
Proof.
  intros (fuel & o & out & E & -> & H). exists (system (at_path path e)), fuel, o. split; [reflexivity|].
  destruct H as [(b & -> & ->)|[-> ->]]; [exact E|]. exists (length o). rewrite E. cbn [fst]. now rewrite firstn_all.
Qed.
Lemma win_on_ok e : adapter_ok (win_on e).
Proof.
  destruct C01_windows_adapter as [Q S]. split.
  - intros abs st r ev H. apply (Q abs st r). now apply win_on_runs in H.
  - intros abs st H. apply (S abs). now apply win_on_runs in H.
Qed.
Lemma received_win o : map shape_of (received (acts_log (map win_act o))) = nshown o.
Proof.
  induction o as [|x o IH]; [reflexivity|]. unfold acts_log in *. cbn [map concat]. rewrite WatchFacts.received_app, map_app, IH.
  destruct x as [| | | | | | | |[]]; reflexivity.
Qed.

(** The runs [win_on] leaves out do not exist: with a path that the code can take (C57) no
    run of the adapter on such a system is undefined. *)
Lemma queue_fine e : (exists d f, we_start e = world_start d f) -> forall tr, Forall fine (ww_queue (state e tr)).
Proof.
  intros (d & f & S). induction tr as [|x tr IH] using rev_ind; [unfold state; cbn; rewrite S; constructor|].
  rewrite state_snoc. assert (H : Forall fine (ww_queue (at_call e tr))).
  { unfold at_call. revert IH. generalize (state e tr) as w. generalize (we_ops e tr) as cs. induction cs as [|c cs IHc]; intros w Hw; [exact Hw|].
    apply IHc. unfold happen. destruct (possible w c) eqn:P; [|exact Hw]. cbn. destruct (ww_on w); [|exact Hw]. apply Forall_app. split; [exact Hw|].
    constructor; [now apply possible_fine in P|constructor]. }
  destruct x as [| | | | | | |[]|]; try exact H. cbn. rewrite <- (firstn_skipn (given (we_want e tr) (at_call e tr))) in H. now apply Forall_app in H.
Qed.
Lemma system_fed e : (exists d f, we_start e = world_start d f) -> well_fed (system e).
Proof.
  intros HS. split; [intros o bs [= <-]; now left|]. intros o bs. cbn [nf_wait system]. destruct (armed o); [|discriminate].
  destruct (given (we_want e o) (at_call e o)) as [|c] eqn:G; [discriminate|]. intros [= <-]. right.
  pose proof (queue_fine e HS (o ++ [NState true])) as F. rewrite state_snoc in F. cbn [effect_on] in F.
  set (q := ww_queue (at_call e o)) in *. exists (aligned (flat_map noted (firstn (S c) q))).
  assert (Hc : Forall fine (firstn (S c) q)) by (rewrite <- (firstn_skipn (S c)) in F; now apply Forall_app in F).
  assert (Ha : Forall (fun x => name_ok (snd x) = true /\ (fst x < 6)%N) (flat_map noted (firstn (S c) q))).
  { clear -Hc. induction Hc as [|x l H _ IH]; [constructor|]. cbn [flat_map]. apply Forall_app. split; [exact H|exact IH]. }
  split; [|split; [now apply aligned_ok|reflexivity]].
  intros Hn. apply aligned_nil in Hn. unfold given in G. fold q in G. destruct q as [|x q]; [destruct (we_want e o); discriminate G|]. destruct x; discriminate Hn.
Qed.
Theorem C102_windows_no_undefined_behaviour :
  forall e D F fuel n, we_start e = world_start D F ->
    nf_narrow (we_base e) (we_path e) = Some n -> (n <= 512)%N -> (n <= 2 * (N.of_nat (length (we_path e)) + 1))%N ->
    match snd (win_watch (system e) fuel (we_path e) []) with Ok _ | Fuel => True | _ => False end.
Proof. intros e D F fuel n S Hn H1 H2. eapply watch_stops; eauto. apply system_fed. eauto. Qed.
Print Assumptions C102_windows_no_undefined_behaviour.

(** ** C102 *)
(** At any point [w] of any life of a watcher on [e]: either nothing is watched and no
    filesystem event was received; or what the callback received is the live message, then
    events ([evs]) that tell of the changes noted so far, each once and in order ([rest]: of
    those still on the way), then the die message if the life is over.  [a]: what the adapter
    has done so far.  And once close() has returned true the adapter is done, and the events
    lack only the changes that the system still holds. *)
Theorem C102_windows_a_watchers_life :
  forall pl e D F re w, we_start e = world_start D F -> reach pl (win_on e) re constructed w ->
    (Forall (fun ev => ev_ptype ev = PtWatcher) (received (log w)) /\ (forall p, ~ In (LWatch p) (log w)) /\ (forall v, ~ In (LClosed v true) (log w))) \/
    exists path fuel a b, let e' := at_path path e in
      In (LWatch path) (log w) /\ run e' fuel = a ++ b /\
      exists live evs die, received (log w) = live :: evs ++ die /\ live_ok path live /\
        (die = [] \/ exists d, die = [d] /\ (die_ok path d \/ die_bad path d)) /\
        map shape_of evs = nshown a /\
        (exists rest, Forall2 (tells path) (ww_log (state e' a)) (map shape_of evs ++ rest)) /\
        forall l1 v l2, log w = l1 ++ LClosed v true :: l2 ->
          b = [] /\ received l2 = [] /\ die <> [] /\
          exists told, ww_log (state e' a) = told ++ ww_queue (state e' a) /\ Forall2 (tells path) told (map shape_of evs).
Proof.
  intros pl e D F re w S R. destruct (whole_life _ pl re w R) as [H|(path & dn & rest & r & Hin & Hr & (live & die & E & Hl & Hd & Hc))]; [now left|right].
  destruct Hr as (fuel & o & out & Eo & Em & Hout). symmetry in Em.
  assert (Sp : exists a b, o = a ++ b /\ map win_act a = dn /\ map win_act b = rest).
  { clear -Em. revert dn Em. induction o as [|x o IH]; intros [|y dn] Em; cbn in Em.
    - exists [], []. auto.
    - discriminate.
    - exists [], (x :: o). auto.
    - injection Em as <- Em. destruct (IH _ Em) as (a & b & -> & <- & <-). exists (x :: a), b. auto. }
  destruct Sp as (a & b & -> & <- & <-). exists path, fuel, a, b. cbv zeta. set (e' := at_path path e).
  fold e' in Eo. assert (Er : run e' fuel = a ++ b) by (unfold run; change (we_path e') with path; now rewrite Eo).
  split; [exact Hin|]. split; [exact Er|]. exists live, (received (acts_log (map win_act a))), die.
  rewrite received_win. destruct (C100_windows_every_change_once_in_order e' D F fuel S) as (A & _ & C).
  split; [exact E|]. split; [exact Hl|]. split; [exact Hd|]. split; [reflexivity|]. split; [exact (A a b Er)|].
  intros l1 v l2 El. destruct (Hc _ _ _ El) as (Hb & -> & Hr & Hdie). destruct b; [|discriminate]. rewrite app_nil_r in Er. split; [reflexivity|]. split; [exact Hr|]. split; [exact Hdie|].
  rewrite <- Er. apply (C true). change (we_path e') with path. rewrite Eo. cbn [snd]. destruct Hout as [(b & -> & [= ->])|[_ [=]]]. reflexivity.
Qed.
Print Assumptions C102_windows_a_watchers_life.
Lemma win_on_day e fuel : snd (win_watch (system (at_path (lit "C:\w") e)) fuel (lit "C:\w") []) = Ok true ->
  win_on e (lit "C:\w") (map win_act (run (at_path (lit "C:\w") e) fuel)) (Some true).
Proof.
  intros H. unfold run. cbn [we_path at_path]. destruct (win_watch _ fuel _ []) as [o r] eqn:E. cbn [fst snd] in *. subst r. exists fuel, o, (Ok true). repeat split; eauto.
Qed.
Example C102_example : exists w l1 v, reach (Linux true) (win_on day) false constructed w /\ log w = l1 ++ [LClosed v true] /\ length (received l1) = 10%nat.
Proof.
  assert (R := win_on_day day 9 ltac:(vm_compute; reflexivity)). set (o := run (at_path (lit "C:\w") day) 9) in R.
  pose proof (full_life true _ false _ _ R) as H. eexists.
  exists ([LLook (Some (lit "C:\w")) (Some true); LCheck pending; LRequest; LReleased released; LCb (live_event true (lit "C:\w") 1); LWatch (lit "C:\w")] ++
    acts_log (map win_act o) ++ [LCb (die_event true (lit "C:\w") 2)]), released. split; [exact H|]. split.
  - cbn [log]. unfold full_log. rewrite <- !app_assoc. reflexivity.
  - rewrite !WatchFacts.received_app, !app_length. cbn [received length].
    replace (length (received (acts_log (map win_act o)))) with 8%nat; [reflexivity|].
    rewrite <- (map_length shape_of), received_win. unfold o. vm_compute. reflexivity.
Qed.

(** ** C103: changes made before close() *)
(** The claim: what was changed before close() was called is reported by the time close() has
    returned.  What holds: a change noted before some wait of the adapter that was given all
    that was noted is reported. *)
Theorem C103_windows_changes_before_a_wait_partial :
  forall pl e D F re w, we_start e = world_start D F -> reach pl (win_on e) re constructed w ->
    forall l1 v l2, log w = l1 ++ LClosed v true :: l2 ->
    exists path fuel live evs die, let e' := at_path path e in
      In (LWatch path) (log w) /\ received l1 = live :: evs ++ [die] /\ map shape_of evs = nshown (run e' fuel) /\
      forall a r b, run e' fuel = a ++ NWait r :: b -> given (we_want e' a) (at_call e' a) = length (ww_queue (at_call e' a)) ->
        exists told more, map shape_of evs = told ++ more /\ Forall2 (tells path) (ww_log (at_call e' a)) told.
Proof.
  intros pl e D F re w S R l1 v l2 El. destruct (C102_windows_a_watchers_life pl e D F re w S R) as [(_ & _ & H)|(path & fuel & a & b & H)].
  { exfalso. apply (H v). rewrite El. apply in_elt. }
  cbv zeta in H. destruct H as (Hin & Er & live & evs & die & E & Hl & Hd & Es & _ & Hc). destruct (Hc _ _ _ El) as (-> & Hr & Hdie & told & Ht & F2).
  rewrite app_nil_r in Er. assert (E1 : received l1 = live :: evs ++ die).
  { rewrite <- E, El, WatchFacts.received_app. cbn [received]. now rewrite Hr, app_nil_r. }
  assert (X : exists d, die = [d]).
  { destruct Hd as [->|(d & -> & _)]; [now contradiction Hdie|eauto]. }
  destruct X as (d & ->). exists path, fuel, live, evs, d. cbv zeta. split; [exact Hin|]. split; [exact E1|]. split; [now rewrite Er|].
  intros a1 r b Ea Hg. eapply (told_after (at_path path e)); [exact Ea|exact Hg|rewrite <- Ea; exact Er|exact Ht|exact F2].
Qed.
Print Assumptions C103_windows_changes_before_a_wait_partial.

(** The day of C100, closed at its end: the last wait was given all. *)
Example C103_example : exists w l1 v a r b, reach (Linux true) (win_on day) false constructed w /\ log w = l1 ++ [LClosed v true] /\
  let e' := at_path (lit "C:\w") day in
  run e' 9 = a ++ NWait r :: b /\ given (we_want e' a) (at_call e' a) = length (ww_queue (at_call e' a)) /\ length (ww_log (at_call e' a)) = 8%nat.
Proof.
  destruct C102_example as (w & l1 & v & R & E & _). exists w, l1, v. set (o := run (at_path (lit "C:\w") day) 9).
  assert (X : exists n, (match nth_error o n with Some (NWait _) => true | _ => false end) = true /\
    let a := firstn n o in let e' := at_path (lit "C:\w") day in given (we_want e' a) (at_call e' a) = length (ww_queue (at_call e' a)) /\ length (ww_log (at_call e' a)) = 8%nat).
  { exists (length o - 2)%nat. unfold o. vm_compute. repeat split; reflexivity. }
  destruct X as (n & X & Y). destruct (nth_error o n) as [[| | | | | | |r|]|] eqn:N; try discriminate X. apply nth_error_split in N as (a & b & Eo & Hn).
  exists a, r, b. split; [exact R|]. split; [exact E|]. cbv zeta. split; [exact Eo|]. cbv zeta in Y. rewrite Eo, <- Hn, firstn_app, Nat.sub_diag, firstn_all, app_nil_r in Y. exact Y.
Qed.

(** In general it is false: the adapter looks at the stop flag before it asks for changes, and
    the changes it did not yet ask for are dropped with its handles. *)
Definition late : wenv := scripted [] [] [] [[WMake false (lit "report")]] 0.
Theorem C103_windows_changes_before_close_refuted :
  exists e w l1 l2 a b, we_start e = world_start [] [] /\ reach Other (win_on e) false constructed w /\
    log w = l1 ++ LRequest :: l2 ++ [LClosed released true] /\
    (* close() is called when the adapter has done [a]; the file was made by then *)
    run (at_path (lit "C:\w") e) 9 = a ++ b /\ received l1 = live_event true (lit "C:\w") 1 :: received (acts_log (map win_act a)) /\
    ww_log (at_call (at_path (lit "C:\w") e) a) = [WMake false (lit "report")] /\
    (* nothing but the two messages was received *)
    map ev_ptype (received (log w)) = [PtWatcher; PtWatcher].
Proof.
  set (o := run (at_path (lit "C:\w") late) 9). set (k := pred (length o)).
  assert (R : win_on late (lit "C:\w") (map win_act (firstn k o) ++ map win_act (skipn k o)) (Some true)).
  { rewrite <- map_app, firstn_skipn. exact (win_on_day late 9 ltac:(vm_compute; reflexivity)). }
  destruct (late_life Other _ false _ _ _ R) as (m & H).
  { intros X. assert (Y : existsb (fun a => match a with AStop => true | _ => false end) (map win_act (firstn k o)) = true).
    { apply existsb_exists. exists AStop. split; [exact X|reflexivity]. } vm_compute in Y. discriminate Y. }
  exists late. eexists. eexists. eexists. exists (firstn k o), (skipn k o). split; [reflexivity|]. split; [exact H|]. cbn [log].
  split; [reflexivity|]. split; [symmetry; apply firstn_skipn|]. split; [reflexivity|]. split; vm_compute; reflexivity.
Qed.
Print Assumptions C103_windows_changes_before_close_refuted.

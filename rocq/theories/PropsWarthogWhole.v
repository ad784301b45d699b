(** Theorems C104-C106: whole runs of the fallback adapter
    (include/wtr/watcher.hpp:1995-2188), and whole lives of a watcher that uses it
    (:2239-2282). *)
From Verif Require Import WatchFacts.
From Verif Require Import Base EventModel InotifySpec Mon WarthogModel WarthogSpec WarthogFacts WarthogRun WarthogWhole PropsWarthog.
From Verif Require Import SemabinModel WatchModel WatchSpec WholeLife WatchExamples.

(** ** C104 *)
(** On a filesystem that changes only between rounds, and whose files' times can be read, a
    run goes on until it is stopped, and its events, in their order, are exactly those that
    the history determines ([rounds_say]): for each round in turn, for each entry in the order
    of the walk.  The same up to each look at the stop flag that finds it lowered. *)
Theorem C104_fallback_run_is_exact :
  forall s root h fuel, changes_between_rounds s root h -> (forall i e, In e (h i) -> en_time e <> None) ->
    let (o, r) := warthog_watch s fuel root [] in
    (r = Ok true \/ r = Fuel) /\
    (forall l, rounds_say h (rounds o) l <-> l = wshown o) /\
    (forall a c, o = a ++ WState true :: c -> forall l, rounds_say h (rounds a) l <-> l = wshown a).
Proof.
  intros s root h fuel Hh Ht. pose proof (loop_says s root h Hh Ht fuel [] [] (holds_start h) (rounds_none h)) as H.
  unfold warthog_watch. destruct (warthog_loop s fuel root [] []) as [o r]. cbn [app] in H. destruct H as (A & B & C).
  assert (G : forall a, rounds_say h (rounds a) (wshown a) -> forall l, rounds_say h (rounds a) l <-> l = wshown a).
  { intros a Ha l. split; [intros Hl; eapply rounds_say_one; eassumption|intros ->; exact Ha]. }
  split; [exact A|]. split; [now apply G|]. intros a c E. apply G. now apply (C a c).
Qed.
Print Assumptions C104_fallback_run_is_exact.
(** A file changes, one is new, one comes back as it was, one comes back changed. *)
Definition c104_h : list contents :=
  [ []; [ent "/w/a" true 1; ent "/w/d" false 1; ent "/w/b" true 1];
    [ent "/w/a" true 2; ent "/w/d" false 3; ent "/w/n" true 1];
    [ent "/w/d" false 3; ent "/w/b" true 1];
    [ent "/w/a" true 5; ent "/w/b" true 1] ].
Example C104_example :
  changes_between_rounds (hist (lit "/w") 5 c104_h) (lit "/w") (fun i => nth (pred i) c104_h (last c104_h [])) /\
  (forall i e, In e (nth (pred i) c104_h (last c104_h [])) -> en_time e <> None) /\
  snd (warthog_watch (hist (lit "/w") 5 c104_h) 9 (lit "/w") []) = Ok true /\
  wshown (fst (warthog_watch (hist (lit "/w") 5 c104_h) 9 (lit "/w") [])) =
    [Sh (lit "/w/a") EtModify PtFile None; Sh (lit "/w/n") EtCreate PtFile None; Sh (lit "/w/a") EtModify PtFile None].
Proof.
  split; [apply hist_ok; now apply hist_b_ok|]. split; [|vm_compute; auto].
  assert (H : Forall (Forall (fun e => en_time e <> None)) c104_h) by (repeat constructor; discriminate).
  intros i e Hi. rewrite Forall_forall in H. assert (Hc : In (nth (pred i) c104_h (last c104_h [])) c104_h).
  { destruct (Nat.lt_ge_cases (pred i) (length c104_h)) as [Hl|Hl]; [now apply nth_In|]. rewrite nth_overflow by exact Hl. vm_compute. tauto. }
  apply H in Hc. rewrite Forall_forall in Hc. now apply Hc.
Qed.

(** ** C105 *)
(** The adapter's runs on the filesystem [s], as class watch sees them. *)
Definition fallback_on (s : wfs) (path : text) (st : list act) (r : option bool) : Prop :=
  exists fuel o out, warthog_watch s fuel path [] = (o, out) /\ st = map warthog_act o /\
    ((exists b, out = Ok b /\ r = Some b) \/ (out = Fuel /\ r = None)).
Lemma received_fallback o : map shape_of (received (acts_log (map warthog_act o))) = wshown o.
Proof.
  induction o as [|x o IH]; [reflexivity|]. unfold acts_log in *. cbn [map concat]. rewrite WatchFacts.received_app, map_app, IH.
  destruct x as [| |[]| | | | | |]; reflexivity.
Qed.
Lemma split_map {A B} (f : A -> B) o : forall dn rest, map f o = dn ++ rest -> exists a b, o = a ++ b /\ map f a = dn /\ map f b = rest.
Proof.
  induction o as [|x o IH]; intros [|y dn] rest Em; cbn in Em.
  - exists [], []. auto.
  - discriminate.
  - exists [], (x :: o). auto.
  - injection Em as <- Em. destruct (IH _ _ Em) as (a & b & -> & <- & <-). exists (x :: a), b. auto.
Qed.
(** The next look that finds the flag lowered, or none. *)
Lemma next_look b : (exists b1 b2, b = b1 ++ WState true :: b2 /\ rounds b1 = 0%nat) \/ rounds b = 0%nat.
Proof.
  induction b as [|x b IH]; [now right|]. destruct x as [| |[]| | | | | |];
    try (destruct IH as [(b1 & b2 & -> & H)|H]; [left; eexists (_ :: b1), b2; split; [reflexivity|exact H]|right; exact H]).
  left. exists [], b. auto.
Qed.
(** A watcher of [root] on such a filesystem.  At any point [w] of its life: either nothing is
    watched and no filesystem event was received; or what was received is the live message,
    then [evs], then the die message if it is over, where [evs] is a beginning of what the
    rounds begun so far ([k]) say, and contains all that the rounds before said.  Once close()
    has returned true: exactly what the rounds say, and nothing more comes. *)
Theorem C105_fallback_a_watchers_life :
  forall pl s root h re w, changes_between_rounds s root h -> (forall i e, In e (h i) -> en_time e <> None) ->
    reach pl (fallback_on s) re constructed w -> (forall p, In (LWatch p) (log w) -> p = root) ->
    (Forall (fun ev => ev_ptype ev = PtWatcher) (received (log w)) /\ (forall p, ~ In (LWatch p) (log w)) /\ (forall v, ~ In (LClosed v true) (log w))) \/
    exists k live evs die, received (log w) = live :: evs ++ die /\ live_ok root live /\
      (die = [] \/ exists d, die = [d] /\ (die_ok root d \/ die_bad root d)) /\
      (exists rest, rounds_say h k (map shape_of evs ++ rest)) /\
      (forall j, k = S j -> exists before since, map shape_of evs = before ++ since /\ rounds_say h j before) /\
      forall l1 v l2, log w = l1 ++ LClosed v true :: l2 -> die <> [] /\ received l2 = [] /\ rounds_say h k (map shape_of evs).
Proof.
  intros pl s root h re w Hh Ht R Hroot. destruct (whole_life _ pl re w R) as [H|(path & dn & rest & r & Hin & Hr & (live & die & E & Hl & Hd & Hc))]; [now left|right].
  apply Hroot in Hin. subst path. destruct Hr as (fuel & o & out & Eo & Em & Hout). symmetry in Em.
  destruct (split_map _ _ _ _ Em) as (a & b & -> & <- & <-).
  pose proof (loop_says s root h Hh Ht fuel [] [] (holds_start h) (rounds_none h)) as H. unfold warthog_watch in Eo. rewrite Eo in H. cbn [app] in H.
  destruct H as (_ & B & C). exists (rounds a), live, (received (acts_log (map warthog_act a))), die. rewrite received_fallback.
  split; [exact E|]. split; [exact Hl|]. split; [exact Hd|]. split; [|split].
  - destruct (next_look b) as [(b1 & b2 & -> & Hb)|Hb].
    + exists (wshown b1). rewrite <- wshown_app. specialize (C (a ++ b1) b2). rewrite rounds_app, Hb, Nat.add_0_r in C. apply C. now rewrite <- app_assoc.
    + exists (wshown b). rewrite <- wshown_app. rewrite rounds_app, Hb, Nat.add_0_r in B. exact B.
  - intros j Ej. assert (X : exists a1 a2, a = a1 ++ WState true :: a2 /\ rounds a1 = j).
    { clear -Ej. revert j Ej. induction a as [|x a IH] using rev_ind; intros j Ej; [discriminate|]. rewrite rounds_app in Ej.
      destruct x as [| |[]| | | | | |]; cbn in Ej; try (rewrite Nat.add_0_r in Ej; destruct (IH _ Ej) as (a1 & a2 & -> & H); exists a1; eexists; split; [rewrite <- app_assoc; reflexivity|exact H]).
      exists a, []. split; [reflexivity|]. lia. }
    destruct X as (a1 & a2 & -> & Hj). exists (wshown a1), (wshown (WState true :: a2)). rewrite <- wshown_app. split; [reflexivity|].
    rewrite <- Hj. apply (C a1 (a2 ++ b)). now rewrite <- app_assoc.
  - intros l1 v l2 El. destruct (Hc _ _ _ El) as (Hb & _ & Hr & Hdie). destruct b; [|discriminate]. rewrite app_nil_r in B. auto.
Qed.
Print Assumptions C105_fallback_a_watchers_life.
Lemma fallback_day s n : snd (warthog_watch s n (lit "/w") []) = Ok true ->
  fallback_on s (lit "/w") (map warthog_act (fst (warthog_watch s n (lit "/w") []))) (Some true).
Proof. intros H. destruct (warthog_watch s n _ []) as [o r] eqn:E. cbn [fst snd] in *. subst r. exists n, o, (Ok true). repeat split; eauto. Qed.
Lemma acts_no_watch p st : ~ In (LWatch p) (acts_log st).
Proof.
  unfold acts_log. intros Hs. apply in_concat in Hs as (x & Hx & Hs). apply in_map_iff in Hx as (a & <- & _).
  destruct a; cbn in Hs; decompose [or] Hs; try discriminate; assumption.
Qed.
Example C105_example : exists w l1 v, reach (Linux true) (fallback_on (hist (lit "/w") 5 c104_h)) false constructed w /\
  (forall p, In (LWatch p) (log w) -> p = lit "/w") /\ log w = l1 ++ [LClosed v true] /\ length (received l1) = 5%nat.
Proof.
  assert (V : snd (warthog_watch (hist (lit "/w") 5 c104_h) 9 (lit "/w") []) = Ok true) by (vm_compute; reflexivity). 
  pose proof (fallback_day _ _ V) as R. remember (fst (warthog_watch (hist (lit "/w") 5 c104_h) 9 (lit "/w") [])) as o eqn:Ho. 
  pose proof (full_life true _ false _ _ R) as H. eexists.
  exists ([LLook (Some (lit "/w")) (Some true); LCheck pending; LRequest; LReleased released; LCb (live_event true (lit "/w") 1); LWatch (lit "/w")] ++
    acts_log (map warthog_act o) ++ [LCb (die_event true (lit "/w") 2)]), released. split; [exact H|]. cbn [log]. split; [|split].
  - intros p Hp. unfold full_log in Hp. rewrite !in_app_iff in Hp. cbn [In] in Hp. 
    assert (Ha := acts_no_watch p (map warthog_act o)).
    clear -Hp Ha. destruct Hp as [Hp|[Hp|Hp]]; [decompose [or] Hp; first [discriminate|contradiction|congruence]|contradiction|decompose [or] Hp; first [discriminate|contradiction]].
  - unfold full_log. rewrite <- !app_assoc. reflexivity.
  - rewrite !WatchFacts.received_app, !app_length. cbn [received length].
    replace (length (received (acts_log (map warthog_act o)))) with 3%nat; [reflexivity|].
    rewrite <- (map_length shape_of), received_fallback, Ho. vm_compute. reflexivity.
Qed.

(** ** C106: changes made before close() *)
Lemma round_in h j c l e x : round_says h j c l -> In e c -> (forall a, says h j e a -> In x a) -> In x l.
Proof. induction 1 as [|e' c a b S R IH]; [intros []|]. intros [<-|He] Hx; apply in_or_app; [left; now apply Hx|right; now apply IH]. Qed.
Lemma rounds_in h k l j e x : rounds_say h k l -> (1 <= j <= k)%nat -> In e (h j) -> (forall a, says h j e a -> In x a) -> In x l.
Proof.
  induction 1 as [|k a b R0 IH R]; intros Hj He Hx; [lia|]. apply in_or_app. destruct (Nat.eq_dec j (S k)) as [->|Hn].
  - right. eapply round_in; eauto.
  - left. apply IH; auto. lia.
Qed.
(** The claim: a file made, or written, before close() was called has been reported when close()
    has returned true.  What holds: if a round has begun since, and one that found anything had
    begun before, a regular file that no round saw before ([f], found in round [j]) is reported
    as created, and one that the round before saw with another time as modified. *)
Theorem C106_fallback_changes_before_a_round_partial :
  forall pl s root h re w, changes_between_rounds s root h -> (forall i e, In e (h i) -> en_time e <> None) ->
    reach pl (fallback_on s) re constructed w -> (forall p, In (LWatch p) (log w) -> p = root) ->
    forall l1 v l2, log w = l1 ++ LClosed v true :: l2 ->
    exists fuel live evs die, let o := fst (warthog_watch s fuel root []) in
      received l1 = live :: evs ++ [die] /\ map shape_of evs = wshown o /\
      forall j f t, (2 <= j <= rounds o)%nat -> In {| en_path := f; en_regular := true; en_time := Some t |} (h j) ->
        (exists i, (1 <= i < j)%nat /\ h i <> []) ->
        ((forall i, (1 <= i < j)%nat -> ~ In f (paths (h i))) -> In (Sh f EtCreate PtFile None) (map shape_of evs)) /\
        (forall t0, In {| en_path := f; en_regular := true; en_time := Some t0 |} (h (j - 1)%nat) -> t0 <> t ->
           In (Sh f EtModify PtFile None) (map shape_of evs)).
Proof.
  intros pl s root h re w Hh Ht R Hroot l1 v l2 El. destruct (whole_life _ pl re w R) as [(_ & _ & H)|(path & dn & rest & r & Hin & Hr & (live & die & E & Hl & Hd & Hc))].
  { exfalso. apply (H v). rewrite El. apply in_elt. }
  apply Hroot in Hin. subst path. destruct Hr as (fuel & o & out & Eo & Em & Hout). symmetry in Em.
  destruct (Hc _ _ _ El) as (-> & _ & Hr & Hdie). rewrite app_nil_r in Em. subst dn.
  assert (X : exists d, die = [d]) by (destruct Hd as [->|(d & -> & _)]; [now contradiction Hdie|eauto]). destruct X as (d & ->).
  pose proof (loop_says s root h Hh Ht fuel [] [] (holds_start h) (rounds_none h)) as H. unfold warthog_watch in Eo. rewrite Eo in H. cbn [app] in H.
  destruct H as (_ & B & _). exists fuel, live, (received (acts_log (map warthog_act o))), d. unfold warthog_watch. rewrite Eo. cbn [fst]. cbv zeta.
  rewrite received_fallback. split; [|split; [reflexivity|]].
  { rewrite <- E, El, WatchFacts.received_app. cbn [received]. now rewrite Hr, app_nil_r. }
  intros j f t Hj Hf (i0 & Hi0 & Hb). assert (Hbg : begun h (j - 1)) by (exists i0; split; [lia|exact Hb]). split.
  - intros Hno. eapply (rounds_in _ _ _ j); [exact B|lia|exact Hf|]. intros a [Ha|Ha|Ha A1 A2|t' Ha A1 A2 A3|t' Ha A1]; cbn [en_path en_regular en_time] in *; try contradiction; try discriminate.
    + now left.
    + exfalso. destruct A2 as (i & e & Hi & [He _] & Ep & _). apply (Hno i); [lia|]. rewrite <- Ep. now apply in_map.
    + exfalso. destruct Ha as (i & e & Hi & [He _] & Ep & _). apply (Hno i); [lia|]. rewrite <- Ep. now apply in_map.
  - intros t0 Hf0 Hne. assert (Hrem : remembered h (j - 1) f t0).
    { exists (j - 1)%nat. eexists. split; [lia|]. split; [split; [exact Hf0|now left]|]. split; [reflexivity|]. split; [reflexivity|]. intros; lia. }
    eapply (rounds_in _ _ _ j); [exact B|lia|exact Hf|]. intros a [Ha|Ha|Ha A1 A2|t' Ha A1 A2 A3|t' Ha A1]; cbn [en_path en_regular en_time] in *; try contradiction; try discriminate.
    + exfalso. now apply (A2 t0).
    + now left.
    + exfalso. assert (t0 = t') by (eapply remembered_one; eassumption). congruence.
Qed.
Print Assumptions C106_fallback_changes_before_a_round_partial.
(** In the life of C105: the new file of round 3, the file changed in round 3. *)
Example C106_example :
  let h := fun i => nth (pred i) c104_h (last c104_h []) in let o := fst (warthog_watch (hist (lit "/w") 5 c104_h) 9 (lit "/w") []) in
  rounds o = 5%nat /\ In (ent "/w/n" true 1) (h 3%nat) /\ (forall i, (1 <= i < 3)%nat -> ~ In (lit "/w/n") (paths (h i))) /\ h 2%nat <> [] /\
  In (ent "/w/a" true 1) (h 2%nat) /\ In (ent "/w/a" true 2) (h 3%nat).
Proof.
  cbv zeta. split; [vm_compute; reflexivity|]. split; [right; right; now left|]. split; [|split; [discriminate|split; now left]].
  intros i Hi. assert (D : i = 1%nat \/ i = 2%nat) by lia. destruct D as [-> | ->]; cbn; [tauto|]. intros H. decompose [or] H; try discriminate; assumption.
Qed.

(** In general it is false: after a round the adapter sleeps, looks at the stop flag, and ends
    without another round.  Here the second round is over when a file is made; then close() is
    called. *)
Definition walks (tr : list wobs) : nat := length (filter (fun x => match x with WWalk _ _ _ => true | _ => false end) tr).
Definition late_contents (tr : list wobs) : list text := lit "/w/a" :: (if Nat.ltb 2 (walks tr) then [lit "/w/report"] else []).
Definition late_fs : wfs := {|
  wf_now := fun tr => Z.of_nat (length tr); wf_pending := fun tr => Nat.ltb (rounds tr) 2;
  wf_exists := fun tr p => Some (text_eqb p (lit "/w") || existsb (text_eqb p) (late_contents tr));
  wf_isdir := fun _ p => Some (text_eqb p (lit "/w")); wf_isreg := fun tr p => Some (existsb (text_eqb p) (late_contents tr));
  wf_islink := fun _ _ => Some false; wf_time := fun _ _ => Some 1%Z;
  wf_walk := fun tr _ _ => (late_contents tr, false) |}.
Lemma only_a a : forallb (fun x => match x with WWalk _ [p] _ => text_eqb p (lit "/w/a") | WWalk _ _ _ => false | _ => true end) a = true ->
  forall p es th, In (WWalk p es th) a -> es = [lit "/w/a"].
Proof.
  intros H p es th Hin. rewrite forallb_forall in H. apply H in Hin. destruct es as [|q [|? ?]]; try discriminate. apply text_eqb_eq in Hin. now subst q.
Qed.
Theorem C106_fallback_changes_before_close_refuted :
  exists s f w l1 l2 a b, reach Other (fallback_on s) false constructed w /\
    log w = l1 ++ LRequest :: l2 ++ [LClosed released true] /\
    (* close() is called when the adapter has done [a]: it has seen the directory twice, and
       now there is the file [f], which was not there then *)
    fst (warthog_watch s 9 (lit "/w") []) = a ++ b /\ received l1 = live_event true (lit "/w") 1 :: received (acts_log (map warthog_act a)) /\
    rounds a = 2%nat /\ wf_isreg s a f = Some true /\ wf_walk s a 0 (lit "/w") = ([lit "/w/a"; f], false) /\
    (forall p es th, In (WWalk p es th) a -> es = [lit "/w/a"]) /\
    (* nothing but the two messages was received *)
    map ev_ptype (received (log w)) = [PtWatcher; PtWatcher].
Proof.
  remember (fst (warthog_watch late_fs 9 (lit "/w") [])) as o eqn:Ho. set (k := pred (length o)).
  assert (V : snd (warthog_watch late_fs 9 (lit "/w") []) = Ok true) by (vm_compute; reflexivity).
  pose proof (fallback_day _ _ V) as R. rewrite <- Ho, <- (firstn_skipn k o), map_app in R.
  destruct (late_life Other _ false _ _ _ R) as (m & H).
  { intros X. assert (Y : existsb (fun a => match a with AStop => true | _ => false end) (map warthog_act (firstn k o)) = true).
    { apply existsb_exists. exists AStop. split; [exact X|reflexivity]. } unfold k in Y. rewrite Ho in Y. vm_compute in Y. discriminate Y. }
  exists late_fs, (lit "/w/report"). eexists. eexists. eexists. exists (firstn k o), (skipn k o). split; [exact H|]. cbn [log].
  split; [reflexivity|]. split; [rewrite firstn_skipn; symmetry; exact Ho|]. split; [reflexivity|]. unfold k. rewrite Ho.
  split; [vm_compute; reflexivity|]. split; [vm_compute; reflexivity|]. split; [vm_compute; reflexivity|]. split; [|vm_compute; reflexivity].
  apply only_a. vm_compute. reflexivity.
Qed.
Print Assumptions C106_fallback_changes_before_close_refuted.

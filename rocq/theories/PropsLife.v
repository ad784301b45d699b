(** Theorems C69 and C70: what the bindings keep for the watching thread; the Rust
    stream. *)
From Verif Require Import Base EventModel EventSpec SemabinModel WatchModel WatchSpec WatchFacts WatchStop WatchClaims WatchLife WatchProgress WatchExamples
  Utf8Spec BindModel BindSpec BindFacts BindLife PropsWatch.

(** ** C69 *)
Lemma uses_quiet l : forall n, received l = [] -> ctx_uses n l = Ok tt.
Proof. induction l as [|x l IH]; intros n H; [reflexivity|]. destruct x; cbn in *; try discriminate; auto. Qed.
Lemma uses_ok l : forall n, (0 < n)%nat -> (forall l1 v b l2, l = l1 ++ LClosed v b :: l2 -> received l2 = []) -> ctx_uses n l = Ok tt.
Proof.
  induction l as [|x l IH]; intros n Hn H; [reflexivity|].
  assert (H' : forall l1 v b l2, l = l1 ++ LClosed v b :: l2 -> received l2 = []) by (intros l1 v b l2 ->; exact (H (x :: l1) v b l2 eq_refl)).
  destruct x; cbn; auto.
  - destruct n; [lia|auto].
  - apply uses_quiet. exact (H [] v b l eq_refl).
Qed.

Lemma in_split_exists {A} (f : A -> bool) l : existsb f l = false -> forall x, In x l -> f x = false.
Proof. intros H x Hx. destruct (f x) eqn:E; [|reflexivity]. exfalso. assert (existsb f l = true) by (apply existsb_exists; eauto). congruence. Qed.

(** However many times (at least once) the binding closes, under every schedule: if
    the stop request of each close could be made, the context is not used after it
    is gone. *)
Theorem C69_context_outlives_the_thread_partial :
  forall pl runs re w closes, reach pl runs re constructed w -> (0 < closes)%nat ->
    (forall b, ~ In (LClosed error b) (log w)) -> ctx_uses closes (log w) = Ok tt.
Proof.
  intros pl runs re w closes H Hn He. apply uses_ok; [exact Hn|]. intros l1 v b l2 E.
  apply (C06_silence_after_close pl runs re w l1 _ l2 H E). left. exists v, b. split; [reflexivity|].
  intros ->. apply (He b). rewrite E. apply in_or_app. right. now left.
Qed.
Print Assumptions C69_context_outlives_the_thread_partial.
Example C69_example : exists w, reach (Linux true) linux_runs false constructed w /\ (forall b, ~ In (LClosed error b) (log w)) /\
  length (received (log w)) = 5%nat /\ In (LClosed released true) (log w) /\ ctx_uses 1 (log w) = Ok tt.
Proof.
  pose proof (full_life true linux_runs false (lit "/w") run1_acts run1_runs) as H. eexists. split; [exact H|].
  cbn [log]. split; [|split; [vm_compute; reflexivity|split; [|vm_compute; reflexivity]]].
  - assert (E : existsb (fun x => match x with LClosed error _ => true | _ => false end) (full_log (lit "/w") run1_acts) = false) by (vm_compute; reflexivity).
    intros b Hin. apply (in_split_exists _ _ E) in Hin. discriminate.
  - vm_compute. auto 30.
Qed.

(** On Darwin and Windows, and on Linux as long as the stop descriptor works, it
    always can. *)
Theorem C69_context_outlives_the_thread_elsewhere :
  forall pl runs w closes, reach pl runs false constructed w -> pl <> Linux true -> (0 < closes)%nat -> ctx_uses closes (log w) = Ok tt.
Proof.
  intros pl runs w closes H Hp Hn. apply (C69_context_outlives_the_thread_partial pl runs false w closes H Hn). clear Hn.
  remember constructed as w0 eqn:E0. induction H as [w|w w' w'' H IH St]; subst.
  - intros b [].
  - specialize (IH eq_refl). pose proof (hi_reach pl runs w' Hp H) as [_ Ho Hw _]. intros b Hin.
    destruct St as [m w0 o vd l m' w1 l' S|m w0 o vd l m' o' vd' l' S]; cbn [log ow wt] in *; apply in_app_iff in Hin as [Hin|Hin]; try (eapply IH; exact Hin).
    + destruct S; try (destruct Hin as [Hin|[]]; discriminate); try contradiction. destruct Hin as [Hin|[]]. injection Hin as -> _. cbn in Hw. congruence.
    + destruct S; try (destruct Hin as [Hin|[]]; discriminate); try contradiction; destruct Hin as [Hin|[]]; injection Hin as -> _; cbn in Ho; congruence.
Qed.
Print Assumptions C69_context_outlives_the_thread_elsewhere.

(** If it cannot be made (there was no descriptor left for it, say), the close is
    over at once, and the thread, which goes on, uses what was given back. *)
Lemma uses_freed l1 v b l2 e : received l2 = [e] ->
  ctx_uses 1 (l1 ++ LClosed v b :: l2) = Undef UseAfterFree.
Proof.
  intros R. assert (H0 : forall l, received l <> [] -> ctx_uses 0 l = Undef UseAfterFree).
  { induction l as [|x l IH]; intros Hl; [now destruct Hl|]. destruct x; cbn in *; auto. }
  assert (H2 : received l2 <> []) by (rewrite R; discriminate). clear R e.
  induction l1 as [|x l1 IH]; cbn; [auto|]. destruct x; auto. cbn. apply H0.
  clear IH. induction l1 as [|y l1 IH]; cbn; [exact H2|]. destruct y; auto. discriminate.
Qed.
Theorem C69_failed_stop_refuted :
  exists w, reach (Linux true) simple_runs false constructed w /\ ctx_uses 1 (log w) = Undef UseAfterFree.
Proof.
  destruct C06_not_silent_after_failed_close as (w & l1 & l2 & e & H & E & R). exists w. split; [exact H|]. rewrite E. now apply (uses_freed _ _ _ _ e).
Qed.
Print Assumptions C69_failed_stop_refuted.

(** ** C70 *)
Definition items (l : list polled) : list bevent := flat_map (fun a => match a with PItem e => [e] | _ => [] end) l.
Definition logged (ms : list rmove) : list entry := flat_map (fun m => match m with RLog x => [x] | RPoll => [] end) ms.
Lemma stream_items ms : forall q, items (fst (rust_stream q ms)) ++ snd (rust_stream q ms) = q ++ map (fun e => rust_event (view_of e)) (received (logged ms)).
Proof.
  induction ms as [|[x|] ms IH]; intros q; cbn [rust_stream logged flat_map]; [cbn; now rewrite app_nil_r| |].
  - fold (logged ms). destruct x; cbn; try apply IH. rewrite IH. now rewrite <- app_assoc.
  - fold (logged ms). cbn [app]. destruct q as [|b q]; cbn [poll].
    + specialize (IH []). destruct (rust_stream [] ms) as [l q'']. exact IH.
    + specialize (IH q). destruct (rust_stream q ms) as [l q'']. cbn in *. now rewrite IH.
Qed.
(** Polled at whatever moments: what the stream has given, in this order, and what
    is still to come, make up the events the watcher sent (as C50 says), each once. *)
Theorem C70_stream_gives_every_event_once :
  forall ms answers left, rust_stream [] ms = (answers, left) ->
    items answers ++ left = map (fun e => rust_event (view_of e)) (received (logged ms)).
Proof. intros ms answers left H. pose proof (stream_items ms []) as S. rewrite H in S. exact S. Qed.
Print Assumptions C70_stream_gives_every_event_once.
(** And all of them, if polled often enough afterwards. *)
Theorem C70_stream_gives_every_event :
  forall ms, exists n, items (fst (rust_stream [] (ms ++ repeat RPoll n))) = map (fun e => rust_event (view_of e)) (received (logged ms)).
Proof.
  intros ms. rewrite <- (app_nil_l (map _ _)). rewrite <- (stream_items ms []). exists (length (snd (rust_stream [] ms))).
  generalize (@nil bevent). induction ms as [|[x|] ms IH]; intros q; cbn [app rust_stream].
  - cbn [snd fst items flat_map app]. induction q as [|b q IHq]; [reflexivity|]. cbn [length repeat rust_stream poll].
    destruct (rust_stream q (repeat RPoll (length q))) as [l q''] eqn:E. cbn in *. now rewrite IHq.
  - destruct x; apply IH.
  - destruct q as [|b q]; cbn [poll].
    + specialize (IH []). destruct (rust_stream [] ms) as [l q'']. cbn [fst snd] in *.
      destruct (rust_stream [] (ms ++ repeat RPoll (length q''))) as [l2 q2]. exact IH.
    + specialize (IH q). destruct (rust_stream q ms) as [l q'']. cbn [fst snd] in *.
      destruct (rust_stream q (ms ++ repeat RPoll (length q''))) as [l2 q2]. cbn in *. now rewrite IH.
Qed.
Print Assumptions C70_stream_gives_every_event.
Example C70_example : let e := Ev (lit "/w/a") EtCreate PtFile 7 None in
  rust_stream [] [RPoll; RLog (LCb e); RLog LStop; RPoll; RPoll] = ([PPending; PItem (BEv 7 (lit "/w/a") None EtCreate PtFile); PPending], []).
Proof. reflexivity. Qed.

(** It never ends: no poll says so, also after the watcher was closed and all is
    received; then every poll says "later". *)
Theorem C70_stream_never_ends_refuted :
  (forall ms, ~ In PEnd (fst (rust_stream [] ms))) /\
  (forall ms, snd (rust_stream [] ms) = [] -> forall n, fst (rust_stream [] (ms ++ repeat RPoll n)) = fst (rust_stream [] ms) ++ repeat PPending n) /\
  exists w ms, reach (Linux true) linux_runs false constructed w /\ logged ms = log w /\ In (LClosed released true) (log w) /\ snd (rust_stream [] ms) = [].
Proof.
  split; [|split].
  - intros ms. generalize (@nil bevent). induction ms as [|[x|] ms IH]; intros q; cbn [rust_stream]; [intros []| |].
    + destruct x; apply IH.
    + destruct q as [|b q]; cbn [poll].
      * specialize (IH []). destruct (rust_stream [] ms) as [l q'']. cbn in *. intros [Hc|Hc]; [discriminate|auto].
      * specialize (IH q). destruct (rust_stream q ms) as [l q'']. cbn in *. intros [Hc|Hc]; [discriminate|auto].
  - intros ms H n. revert H. generalize (@nil bevent) at 1 3 4. induction ms as [|[x|] ms IH]; intros q H; cbn [app rust_stream] in *.
    + cbn in H. subst q. cbn [fst app]. clear. induction n as [|n IH]; [reflexivity|]. cbn [repeat rust_stream poll].
      destruct (rust_stream [] (repeat RPoll n)) as [l q]. cbn in *. now rewrite IH.
    + destruct x; apply IH; exact H.
    + destruct q as [|b q]; cbn [poll] in *.
      * specialize (IH []). destruct (rust_stream [] ms) as [l q'']. destruct (rust_stream [] (ms ++ repeat RPoll n)) as [l2 q2].
        cbn in *. now rewrite (IH H).
      * specialize (IH q). destruct (rust_stream q ms) as [l q'']. destruct (rust_stream q (ms ++ repeat RPoll n)) as [l2 q2].
        cbn in *. now rewrite (IH H).
  - pose proof (full_life true linux_runs false (lit "/w") run1_acts run1_runs) as H.
    eexists. exists (map RLog (full_log (lit "/w") run1_acts) ++ repeat RPoll 5). split; [exact H|]. cbn [log]. split; [vm_compute; reflexivity|].
    split; [vm_compute; auto 30|vm_compute; reflexivity].
Qed.
Print Assumptions C70_stream_never_ends_refuted.

(** Theorems C48-C55 and C58-C60: the bindings for C, Rust, Python and Node.
    Statements use BindModel (the code) and BindSpec, Utf8Spec (the meaning). *)
From Coq Require Import Relations.Relation_Operators.
From Verif Require Import Base EventModel EventSpec Utf8Spec BindModel BindSpec BindFacts.

(** Two events for the examples: a rename of a file, at a time of 2026, and a path
    with a non-ASCII character. *)
Definition sample : event :=
  Ev (lit "/d/a") EtRename PtFile 1790000000000000001 (Some (Ev ([47; 0xC3; 0xA9]%N) EtRename PtFile 1790000000000000001 None)).
Lemma sample_nul : paths_ok no_nul sample.
Proof.
  split; [unfold no_nul; cbn; intuition discriminate|]. intros p H. cbn in H. injection H as <-. unfold no_nul. cbn. intuition discriminate.
Qed.
Lemma sample_utf8 : paths_ok valid_utf8 sample.
Proof.
  split.
  - exists (lit "/d/a"). apply (decode_sound 100); [cbn; lia|reflexivity].
  - intros p H. cbn in H. injection H as <-. exists [47; 0xE9]%N. apply (decode_sound 100); [cbn; lia|reflexivity].
Qed.

(** ** C48: the C view *)
(** Paths with a NUL, which no file system has, cannot be shown. *)
Theorem C48_view_mirrors_partial : forall e, paths_ok no_nul e -> c_mirrors (view_of e) e.
Proof. exact view_mirrors. Qed.
Print Assumptions C48_view_mirrors_partial.
Example C48_example : c_mirrors (view_of sample) sample /\ v_assoc (view_of sample) = Some [47; 0xC3; 0xA9]%N /\ v_effect (view_of sample) = 0%Z.
Proof. split; [apply C48_view_mirrors_partial, sample_nul|split; reflexivity]. Qed.

(** On Windows, for paths of fewer than 4095 bytes in UTF-8. *)
Theorem C48_windows_view_mirrors_partial : forall wide e, faithful wide ->
  paths_ok (fun us => exists cs, is_utf16 us cs /\ ~ In 0%N cs /\ (N.of_nat (length (utf8 cs)) < 4095)%N) e ->
  exists v, view_of_win wide e = Ok (Some v) /\ c_mirrors_win v e.
Proof. exact win_ok. Qed.
Print Assumptions C48_windows_view_mirrors_partial.
(** A path of 4095 bytes: a write past the buffer.  A longer one: no event. *)
Theorem C48_long_windows_paths_refuted : forall wide cs e, faithful wide -> is_utf16 (ev_path e) cs -> ~ In 0%N cs ->
  (N.of_nat (length (utf8 cs)) = 4095%N -> view_of_win wide e = Undef OobWrite) /\
  ((4095 < N.of_nat (length (utf8 cs)))%N -> view_of_win wide e = Ok None).
Proof. exact win_bad. Qed.
Print Assumptions C48_long_windows_paths_refuted.

(** A faithful conversion exists: decode UTF-16, write UTF-8. *)
Fixpoint from_utf16 (us : text) : list N :=
  match us with
  | [] => []
  | u :: r =>
      if ((u <? 0xD800) || (0xE000 <=? u))%N then u :: from_utf16 r
      else match r with [] => [] | v :: r' => ((u - 0xD800) * 1024 + (v - 0xDC00) + 0x10000)%N :: from_utf16 r' end
  end.
Lemma from_utf16_ok cs : Forall scalar cs -> from_utf16 (utf16 cs) = cs.
Proof.
  induction 1 as [|c cs Hc _ IH]; [reflexivity|]. unfold utf16 in *. cbn [flat_map]. unfold scalar in Hc. unfold utf16_char at 1. destruct (N.ltb_spec c 0x10000) as [H|H].
  - cbn [app from_utf16]. replace ((c <? 0xD800) || (0xE000 <=? c))%N with true by lia. now rewrite IH.
  - cbn [app from_utf16]. replace ((0xD800 + (c - 0x10000) / 1024 <? 0xD800) || (0xE000 <=? 0xD800 + (c - 0x10000) / 1024))%N with false by lia.
    rewrite IH. f_equal. lia.
Qed.
Definition wide_of (us : text) (room : N) : option text :=
  let bs := utf8 (from_utf16 us) in if (N.of_nat (length bs) + 1 <=? room)%N then Some (bs ++ [0%N]) else None.
Lemma wide_of_faithful : faithful wide_of.
Proof. intros cs room S _. unfold wide_of. now rewrite from_utf16_ok. Qed.
Example C48_windows_example : exists v, view_of_win wide_of (Ev [67; 58; 92; 0xE9]%N EtCreate PtFile 7 None) = Ok (Some v) /\ v_path v = [67; 58; 92; 0xC3; 0xA9]%N.
Proof. eexists. split; reflexivity. Qed.
Example C48_long_windows_example : exists cs, Forall scalar cs /\ ~ In 0%N cs /\ N.of_nat (length (utf8 cs)) = 4095%N.
Proof.
  exists (repeat 97%N (Z.to_nat 4095)).
  assert (U : forall n, utf8 (repeat 97%N n) = repeat 97%N n) by (intros n; induction n as [|n IH]; [reflexivity|]; unfold utf8 in *; cbn [repeat flat_map]; rewrite IH; reflexivity).
  split; [|split].
  - apply Forall_forall. intros c Hc. apply repeat_spec in Hc. subst. left. lia.
  - intros Hc. apply repeat_spec in Hc. discriminate.
  - rewrite U, repeat_length. now rewrite Z_nat_N.
Qed.

(** ** C49: closing from C *)
(** Calls on handles that were opened go wrong in one way only: a close of a handle
    that was closed with success before. *)
Theorem C49_only_reuse_is_unsafe_partial : forall cs l e, opened_before 0 cs -> c_run [] cs = (l, e) ->
  (exists ws, e = Ok ws) \/
  (e = Undef UseAfterFree /\ exists i r t rest, cs = map fst l ++ CClose (Some i) r t :: rest /\ closed_ok i l).
Proof. exact only_reuse. Qed.
Print Assumptions C49_only_reuse_is_unsafe_partial.
(** Freed are exactly the watchers whose close returned true. *)
Theorem C49_closed_is_freed : forall cs l ws, c_run [] cs = (l, Ok ws) -> forall i, nth_error ws i = Some CFreed <-> closed_ok i l.
Proof. intros cs l ws R i. rewrite (run_freed _ _ _ _ R i). split; [intros [H|H]; [destruct i; discriminate|exact H]|now right]. Qed.
Print Assumptions C49_closed_is_freed.
(** The first close of an opened watcher whose request to stop can be made answers what the
    watching thread returned; before it, closes answer false and do no harm. *)
Lemma c_run_snoc cs : forall ws l ws' c, c_run ws cs = (l, Ok ws') ->
  c_run ws (cs ++ [c]) = match c_step ws' c with Ok (w2, r) => (l ++ [(c, r)], Ok w2) | Undef u => (l, Undef u) | Crash => (l, Crash) | Fuel => (l, Fuel) end.
Proof.
  induction cs as [|d cs IH]; intros ws l ws' c E; cbn [c_run app] in *.
  - injection E as <- <-. now destruct (c_step ws c) as [[? ?]|u| |].
  - destruct (c_step ws d) as [[w1 r1]|u| |]; try discriminate. destruct (c_run w1 cs) as [l1 e1] eqn:E1. injection E as <- ->.
    rewrite (IH _ _ _ c E1). now destruct (c_step ws' c) as [[? ?]|u| |].
Qed.
Theorem C49_first_close_answers : forall cs l ws i r t, c_run [] cs = (l, Ok ws) -> (i < opens cs)%nat ->
  (forall t', ~ In (CClose (Some i) true t') cs) ->
  exists ws', c_run [] (cs ++ [CClose (Some i) r t]) = (l ++ [(CClose (Some i) r t, r && t)], Ok ws').
Proof.
  intros cs l ws i r t E Hi Hn. rewrite (c_run_snoc _ _ _ _ _ E).
  assert (K : nth_error ws i = Some (CLive true)).
  { revert E. assert (Z : (i < opens cs + length (@nil cwatch))%nat) by (cbn; lia). assert (V : forall v, nth_error (@nil cwatch) i = Some v -> v = CLive true) by (destruct i; discriminate).
    clear Hi r t. revert l Z V. generalize (@nil cwatch). revert ws. induction cs as [|c cs IH]; intros ws w0 l Z V E; cbn [c_run] in E.
    - injection E as _ <-. cbn in Z. destruct (nth_error w0 i) as [v|] eqn:En; [now rewrite (V v)|apply nth_error_None in En; lia].
    - destruct (c_step w0 c) as [[w1 r1]|u| |] eqn:S; try discriminate. destruct (c_run w1 cs) as [l1 e1] eqn:E1. injection E as <- ->.
      assert (Hn' : forall t', ~ In (CClose (Some i) true t') cs) by (intros t' H; apply (Hn t'); now right).
      refine (IH Hn' ws w1 l1 _ _ E1).
      + destruct c as [|[j|] rl th]; cbn [c_step] in S.
        * injection S as <- _. rewrite app_length. unfold opens in *. cbn in Z |- *. lia.
        * assert (L : length w1 = length w0).
          { assert (P : forall k (a : cwatch) m, length (put k a m) = length m) by (clear; intros k a m; revert k; induction m as [|x m IH]; intros [|k]; cbn; auto).
            destruct (nth_error w0 j) as [[v|]|]; try discriminate. destruct (cpp_close v rl th) as [[|] v']; injection S as <- _; apply P. }
          rewrite L. exact Z.
        * injection S as <- _. exact Z.
      + intros v Hv. destruct c as [|[j|] rl th]; cbn [c_step] in S.
        * injection S as <- _. destruct (Nat.lt_ge_cases i (length w0)) as [Hlt|Hge]; [rewrite nth_error_app1 in Hv by exact Hlt; now apply V|].
          rewrite nth_error_app2 in Hv by exact Hge. destruct (i - length w0)%nat as [|k]; cbn in Hv; [congruence|destruct k; discriminate].
        * assert (P : forall k (a : cwatch) m, nth_error (put k a m) i = if Nat.eqb k i then match nth_error m i with Some _ => Some a | None => None end else nth_error m i).
          { clear. intros k a m. revert k i. induction m as [|x m IH]; intros [|k] [|i]; cbn; auto. now destruct (Nat.eqb k i). }
          destruct (nth_error w0 j) as [[v0|]|] eqn:Ej; try discriminate.
          destruct (Nat.eqb_spec j i) as [->|Hji].
          -- pose proof (V _ Ej) as [= ->]. destruct rl; [exfalso; apply (Hn th); now left|].
             cbn in S. injection S as <- _. rewrite P, Nat.eqb_refl, Ej in Hv. congruence.
          -- destruct (cpp_close v0 rl th) as [[|] v']; injection S as <- _; rewrite P in Hv; destruct (Nat.eqb_spec j i); try contradiction; now apply V.
        * injection S as <- _. now apply V. }
  cbn [c_step]. rewrite K. unfold cpp_close. destruct r, t; eexists; reflexivity.
Qed.
Print Assumptions C49_first_close_answers.
Example C49_first_close_example : let cs := [COpen; COpen; CClose (Some 1%nat) false true; CClose (Some 0%nat) true false] in
  (1 < opens cs)%nat /\ (forall t', ~ In (CClose (Some 1%nat) true t') cs) /\
  c_run [] cs = ([(COpen, true); (COpen, true); (CClose (Some 1%nat) false true, false); (CClose (Some 0%nat) true false, false)], Ok [CLive false; CLive true]).
Proof. cbv zeta. split; [cbn; lia|]. split; [intros t' H; cbn in H; decompose [or] H; try discriminate; contradiction|reflexivity]. Qed.
Theorem C49_null_is_refused : forall ws cs r t b, In (CClose None r t, b) (fst (c_run ws cs)) -> b = false.
Proof. intros ws cs. apply null_false. Qed.
Print Assumptions C49_null_is_refused.
(** A second close after a successful one uses freed memory. *)
Theorem C49_closing_twice_refuted : forall cs l ws i r t, c_run [] cs = (l, Ok ws) -> closed_ok i l ->
  snd (c_run [] (cs ++ [CClose (Some i) r t])) = Undef UseAfterFree.
Proof. exact reuse_bad. Qed.
Print Assumptions C49_closing_twice_refuted.
(** A watcher whose thread ended badly is never freed, however often it is closed. *)
Theorem C49_failed_watchers_leak_refuted : forall answers,
  let closes := map (fun a => CClose (Some 0%nat) (fst a) (snd a)) ((true, false) :: answers) in
  c_run [] (COpen :: closes) = ((COpen, true) :: map (fun c => (c, false)) closes, Ok [CLive false]).
Proof. intros answers. cbn. pose proof (leak_closes answers) as H. cbn in H. now rewrite H. Qed.
Print Assumptions C49_failed_watchers_leak_refuted.
Example C49_example :
  c_run [] [COpen; COpen; CClose (Some 1%nat) true true; CClose None true true; CClose (Some 0%nat) true true]
  = ([(COpen, true); (COpen, true); (CClose (Some 1%nat) true true, true); (CClose None true true, false); (CClose (Some 0%nat) true true, true)], Ok [CFreed; CFreed]).
Proof. reflexivity. Qed.

(** ** C50: Rust events *)
Theorem C50_rust_events_mirror_partial : forall e, paths_ok no_nul e -> paths_ok valid_utf8 e -> mirrors (rust_event (view_of e)) e.
Proof. intros e N V. apply rust_mirrors; [now apply view_mirrors|exact V]. Qed.
Print Assumptions C50_rust_events_mirror_partial.
Theorem C50_other_paths_refuted : forall e, no_nul (ev_path e) -> ~ valid_utf8 (ev_path e) -> b_path (rust_event (view_of e)) = [].
Proof. intros e NN V. cbn. unfold rust_str. rewrite c_str_id by exact NN. replace (decode (ev_path e)) with (@None (list N)); [reflexivity|]. symmetry. now apply decode_none. Qed.
Print Assumptions C50_other_paths_refuted.
Example C50_example : rust_event (view_of sample) = BEv 1790000000000000001 (lit "/d/a") (Some [47; 0xE9]%N) EtRename PtFile.
Proof. reflexivity. Qed.
Example C50_refuted_example : no_nul [47; 0xFF]%N /\ ~ valid_utf8 [47; 0xFF]%N.
Proof. split; [unfold no_nul; cbn; intuition discriminate|]. apply decode_none. reflexivity. Qed.

(** ** C51: the Rust watcher *)
(** Not closed by hand: the drop closes, once, and frees if that succeeds. *)
Theorem C51_drop_closes_once_partial : forall drop,
  closes_of 0 (rust_calls 0 [] drop) = 1%nat /\
  exists b ws, c_run [CLive true] (rust_calls 0 [] drop) = ([(CClose (Some 0%nat) (fst drop) (snd drop), b)], Ok ws) /\
    (b = true <-> fst drop = true /\ snd drop = true) /\ (b = true <-> ws = [CFreed]).
Proof. intros [[] []]; (split; [reflexivity|]); do 2 eexists; (split; [reflexivity|]); cbn; intuition discriminate. Qed.
Print Assumptions C51_drop_closes_once_partial.
(** Closed by hand with success: the drop (or the next close) uses freed memory. *)
Theorem C51_close_then_drop_refuted : forall before after drop, Forall (fun a => fst a = false) before ->
  snd (c_run [CLive true] (rust_calls 0 (before ++ (true, true) :: after) drop)) = Undef UseAfterFree.
Proof. exact rust_many. Qed.
Print Assumptions C51_close_then_drop_refuted.
Example C51_example : c_run [CLive true] (rust_calls 0 [(true, true)] (true, true)) = ([(CClose (Some 0%nat) true true, true)], Undef UseAfterFree).
Proof. reflexivity. Qed.

(** ** C52: Python events *)
Theorem C52_python_events_mirror_partial : forall e, paths_ok no_nul e -> paths_ok valid_utf8 e -> assoc_path e <> Some [] ->
  exists b, py_event (view_of e) = Some b /\ mirrors b e.
Proof. intros e N V A. apply py_mirrors; [now apply view_mirrors|exact V|exact A]. Qed.
Print Assumptions C52_python_events_mirror_partial.
(** A path that is not UTF-8: the event is lost. *)
Theorem C52_other_paths_refuted : forall e, paths_ok no_nul e -> ~ paths_ok valid_utf8 e -> py_event (view_of e) = None.
Proof. intros e N V. eapply py_refuses; [now apply view_mirrors|exact V]. Qed.
Print Assumptions C52_other_paths_refuted.
Example C52_example : py_event (view_of sample) = Some (BEv 1790000000000000001 (lit "/d/a") (Some [47; 0xE9]%N) EtRename PtFile).
Proof. reflexivity. Qed.
Example C52_refuted_example : let e := Ev [47; 0xFF]%N EtModify PtFile 1 None in paths_ok no_nul e /\ ~ paths_ok valid_utf8 e.
Proof.
  split; [split; [apply C50_refuted_example|intros p H; discriminate]|]. intros [V _]. exact (proj2 C50_refuted_example V).
Qed.

(** ** C53: the Python watcher *)
(** One thread: whatever is done, one C close for the first close, exit or deletion
    and none after; nothing undefined. *)
Definition closing (o : pyop) : bool := match o with PyEnter => false | _ => true end.
Theorem C53_one_thread_closes_once_partial : forall h ops,
  closes_of h (py_calls (Some h) ops) = (if existsb closing ops then 1 else 0)%nat /\
  length (py_calls (Some h) ops) = (if existsb closing ops then 1 else 0)%nat.
Proof.
  intros h ops. induction ops as [|o ops IH]; [now split|]. destruct o; cbn; [exact IH| | |]; rewrite py_calls_none; cbn; now rewrite Nat.eqb_refl.
Qed.
Print Assumptions C53_one_thread_closes_once_partial.
Theorem C53_one_thread_is_safe_partial : forall ops, exists l ws, c_run [CLive true] (py_calls (Some 0%nat) ops) = (l, Ok ws).
Proof.
  induction ops as [|o ops IH]; [do 2 eexists; reflexivity|]. destruct o as [|r t|r t|r t]; cbn; [exact IH| | |]; rewrite py_calls_none; destruct r, t; cbn; do 2 eexists; reflexivity.
Qed.
Print Assumptions C53_one_thread_is_safe_partial.
(** Two threads closing: both may call, and the second uses freed memory. *)
Theorem C53_two_threads_refuted : forall h, exists cs,
  clos_refl_trans _ pystep (Some h, [PyLook; PyLook], []) (None, [PyDone; PyDone], cs) /\
  closes_of h cs = 2%nat /\ (h = 0%nat -> snd (c_run [CLive true] cs) = Undef UseAfterFree).
Proof.
  intros h. exists [CClose (Some h) true true; CClose (Some h) true true]. split; [|split; [cbn; now rewrite Nat.eqb_refl|now intros ->]].
  eapply rt_trans; [apply rt_step; exact (Py_look (Some h) [] [PyLook] [])|]. cbn [app].
  eapply rt_trans; [apply rt_step; exact (Py_look (Some h) [PyCall h] [] [])|]. cbn [app].
  eapply rt_trans; [apply rt_step; exact (Py_call (Some h) [] h [PyCall h] [] true true)|]. cbn [app].
  eapply rt_trans; [apply rt_step; exact (Py_call (Some h) [PyClear] h [] _ true true)|]. cbn [app].
  eapply rt_trans; [apply rt_step; exact (Py_clear (Some h) [] [PyClear] _)|]. cbn [app].
  apply rt_step. exact (Py_clear None [PyDone] [] _).
Qed.
Print Assumptions C53_two_threads_refuted.
Example C53_example : py_calls (Some 0%nat) [PyEnter; PyClose true true; PyExit true true; PyDel true true] = [CClose (Some 0%nat) true true].
Proof. reflexivity. Qed.

(** ** C54: Node events *)
Theorem C54_node_events_mirror_partial : forall lossy e, paths_ok no_nul e -> paths_ok valid_utf8 e ->
  (Z.abs (ev_time e) <= 2 ^ 53)%Z -> js_mirrors (js_event lossy (view_of e)) e.
Proof. intros lossy e N V T. apply js_ok; [now apply view_mirrors|exact V|exact T]. Qed.
Print Assumptions C54_node_events_mirror_partial.
(** Without the bound on the time: everything else is right, and the time is off by
    at most half a unit in the last place of a double. *)
Theorem C54_node_times_are_near_partial : forall lossy e, paths_ok no_nul e -> paths_ok valid_utf8 e ->
  exists t, js_mirrors (JsEv (ev_time e) (j_path (js_event lossy (view_of e))) (j_assoc (js_event lossy (view_of e)))
                             (j_effect (js_event lossy (view_of e))) (j_ptype (js_event lossy (view_of e)))) e /\
  j_time (js_event lossy (view_of e)) = t /\ (Z.abs (t - ev_time e) * 2 <= 2 ^ Z.max 0 (Z.log2 (Z.abs (ev_time e)) - 52))%Z.
Proof.
  intros lossy e N V. eexists. split; [|split; [reflexivity|apply to_double_near]].
  set (e0 := match e with Ev p f t _ a => Ev p f t 0 a end).
  assert (H : js_mirrors (js_event lossy (view_of e0)) e0).
  { apply C54_node_events_mirror_partial; [destruct e; exact N|destruct e; exact V|]. unfold e0. destruct e; cbn; lia. }
  destruct e as [p f t tm a]. destruct H as (_ & H2 & H3 & H4 & H5). split; [reflexivity|]. split; [exact H2|]. split; [exact H3|]. split; [exact H4|exact H5].
Qed.
Print Assumptions C54_node_times_are_near_partial.
(** Times from 2006 to 2043: only multiples of 256 ns survive. *)
Theorem C54_times_today_refuted : forall lossy e, (2 ^ 60 <= ev_time e < 2 ^ 61)%Z -> (ev_time e mod 256 <> 0)%Z ->
  j_time (js_event lossy (view_of e)) <> ev_time e.
Proof.
  intros lossy e H M E. cbn in E. apply M. rewrite <- E. apply (to_double_multiple (ev_time e) 8); lia.
Qed.
Print Assumptions C54_times_today_refuted.
Example C54_example : js_event (fun t => t) (view_of sample)
  = JsEv 1790000000000000000 (lit "/d/a") (Some [47; 0xE9]%N) (Some "rename"%string) (Some "file"%string).
Proof. reflexivity. Qed.

(** ** C55: the queue to the JavaScript thread *)
Theorem C55_callbacks_in_order_partial : forall A (s : jstate A), jreach jstart s -> subseq (map snd (j_called s)) (j_made s).
Proof. intros A s R. eapply subseq_front. apply (ji_subseq _ (jinv_reach s R)). Qed.
Print Assumptions C55_callbacks_in_order_partial.
(** If the queue was never full when an event came, nothing is lost: what was made is
    what was called and what is in the queue, and the queue can always be emptied. *)
Theorem C55_nothing_lost_below_capacity_partial : forall A (s : jstate A), jreach jstart s -> j_leaked s = [] ->
  map snd (j_called s) ++ j_queue s = j_made s /\
  (j_phase s <> JClosing -> exists t, jreach s t /\ j_made t = j_made s /\ map snd (j_called t) = j_made s).
Proof.
  intros A s R L. pose proof (jinv_reach s R) as I. split; [now apply (ji_all _ I)|]. intros P. destruct s as [p q m c k]. cbn in *. subst k.
  destruct (drains q p m c [] P) as (c' & R'). exists (J p [] m c' []). split; [exact R'|]. split; [reflexivity|]. cbn.
  pose proof (ji_all _ (jinv_reach _ (jreach_trans _ _ _ R R')) eq_refl) as E. cbn in E. now rewrite app_nil_r in E.
Qed.
Print Assumptions C55_nothing_lost_below_capacity_partial.
(** The queue holds up to 1024 events; an event is lost only when 1024 are waiting. *)
Theorem C55_queue_is_bounded : forall A (s : jstate A), jreach jstart s ->
  (length (j_queue s) <= Z.to_nat 1024)%nat /\
  forall t, jstep s t -> j_leaked t <> j_leaked s -> length (j_queue s) = Z.to_nat 1024.
Proof.
  intros A s R. assert (H : (length (j_queue s) <= Z.to_nat 1024)%nat).
  { remember jstart as s0 eqn:E0. induction R as [s|s t u H IH S]; subst; [cbn [j_queue length jstart]; lia|]. specialize (IH eq_refl).
    inversion S; subst; unfold queue_size in *; cbn [j_queue length] in *; rewrite ?app_length; cbn [length]; lia. }
  split; [exact H|]. intros t S K. inversion S; subst; cbn [j_queue j_leaked] in *; try (now contradiction K). unfold queue_size in *. lia.
Qed.
Print Assumptions C55_queue_is_bounded.
(** While the watcher is open, events can come faster than they are taken; one that
    finds the queue full never reaches the callback. *)
Theorem C55_full_queue_refuted : forall A (e : A) (s : jstate A), jreach jstart s -> j_phase s <> JClosed ->
  exists t, jreach s t /\ j_leaked t <> [] /\ forall u, jreach t u -> (length (j_called u) < length (j_made u))%nat.
Proof.
  intros A e s R P. destruct s as [p q m c k]. destruct (jlose e p q m c k P) as (q' & m' & k' & R' & K).
  exists (J p q' m' c k'). split; [exact R'|]. split; [exact K|]. intros u R''. eapply lost_forever; [eapply jreach_trans; [exact R|exact R']|exact K|exact R''].
Qed.
Print Assumptions C55_full_queue_refuted.
Example C55_example : exists s, jreach (@jstart nat) s /\ j_made s = [1; 2]%nat /\ map snd (j_called s) = [1]%nat /\ j_queue s = [2]%nat /\ j_leaked s = [].
Proof.
  assert (Q : forall n : nat, (n <= 3)%nat -> (n < queue_size)%nat) by (intros n Hn; unfold queue_size; lia).
  eexists. split.
  - eapply JR1; [eapply JR1; [eapply JR1; [apply JR0|]|]|].
    + apply (J_made JOpen [] [] [] [] 1%nat); [discriminate|apply Q; cbn; lia].
    + cbn [app]. apply (J_made JOpen [1%nat] [1%nat] [] [] 2%nat); [discriminate|apply Q; cbn; lia].
    + cbn [app]. apply (J_call JOpen 1%nat [2%nat]). discriminate.
  - repeat split.
Qed.

(** ** C58: the path to watch *)
(** The path reaches the library as its UTF-8; Node: up to 4095 bytes. *)
Theorem C58_path_is_passed_on_partial : forall cs, Forall scalar cs -> ~ In 0%N cs ->
  rust_open cs = Ok (utf8 cs) /\ py_open cs = Some (utf8 cs) /\
  ((N.of_nat (length (utf8 cs)) <= 4095)%N -> node_open cs = utf8 cs).
Proof.
  intros cs S Z. split; [|split].
  - unfold rust_open. destruct (existsb (N.eqb 0) cs) eqn:E; [apply existsb_nul in E; contradiction|]. now rewrite c_str_id by now apply utf8_nul.
  - unfold py_open. rewrite (proj2 (forallb_scalar cs) S). now rewrite c_str_id by now apply utf8_nul.
  - intros L. unfold node_open. rewrite fit_ok by (unfold node_path_room; lia). now apply c_str_id, utf8_nul.
Qed.
Print Assumptions C58_path_is_passed_on_partial.
(** Longer paths: Node watches another path. *)
Theorem C58_long_paths_in_node_refuted : forall cs, (4095 < N.of_nat (length (utf8 cs)))%N -> node_open cs <> utf8 cs.
Proof.
  intros cs L E. pose proof (fit_len cs node_path_room) as F. pose proof (c_str_len (fit node_path_room cs)) as G.
  assert (K : length (node_open cs) = length (utf8 cs)) by now rewrite E. unfold node_open, node_path_room in *. lia.
Qed.
Print Assumptions C58_long_paths_in_node_refuted.
(** A NUL in the path: Rust stops the program instead of returning the error,
    Python watches the part before it. *)
Theorem C58_nul_refuted : forall a b, Forall scalar (a ++ 0%N :: b) -> ~ In 0%N a ->
  rust_open (a ++ 0%N :: b) = Crash /\ py_open (a ++ 0%N :: b) = Some (utf8 a).
Proof.
  intros a b S Z. split.
  - unfold rust_open. replace (existsb (N.eqb 0) (a ++ 0%N :: b)) with true; [reflexivity|]. symmetry. apply existsb_nul, in_or_app. right. now left.
  - unfold py_open. rewrite (proj2 (forallb_scalar _) S). f_equal. unfold utf8. rewrite flat_map_app. cbn [flat_map].
    change (utf8_char 0) with [0%N]. cbn [app]. now apply c_str_cut, utf8_nul.
Qed.
Print Assumptions C58_nul_refuted.
Example C58_example : node_open [47; 0x1F600]%N = [47; 0xF0; 0x9F; 0x98; 0x80]%N /\ py_open [47; 0xD800]%N = None.
Proof. split; [apply C58_path_is_passed_on_partial|reflexivity]; [repeat constructor; unfold scalar; lia|cbn; intuition discriminate|cbn; lia]. Qed.

(** ** C59: the Node watcher *)
(** However often close is called: one native close for the first call. *)
Theorem C59_native_close_once : forall h calls, length (ts_closes (Some h) calls) = (match calls with [] => 0 | _ => 1 end)%nat /\
  closes_of h (ts_closes (Some h) calls) = (match calls with [] => 0 | _ => 1 end)%nat.
Proof.
  assert (E : forall calls, ts_closes None calls = []) by (intros calls; induction calls as [|[r t] l IH]; cbn; auto).
  intros h [|[r t] calls]; [now split|]. cbn. rewrite E. cbn. now rewrite Nat.eqb_refl.
Qed.
Print Assumptions C59_native_close_once.
(** Callbacks after close has returned: possible for every event the watcher still
    makes, the last one among them. *)
Theorem C59_callbacks_after_close_refuted : forall A (e : A), exists s, jreach jstart s /\ j_phase s = JClosed /\ j_called s = [(JClosed, e)].
Proof.
  intros A e. eexists. split.
  - eapply JR1; [eapply JR1; [eapply JR1; [eapply JR1; [apply JR0|]|]|]|].
    + apply J_close.
    + apply (J_made JClosing [] [] [] [] e); [discriminate|unfold queue_size; cbn [length]; lia].
    + apply J_closed.
    + cbn [app]. apply J_call. discriminate.
  - now split.
Qed.
Print Assumptions C59_callbacks_after_close_refuted.
(** What is called after close was made before it returned. *)
Theorem C59_no_new_events_after_close : forall A (s t : jstate A), jreach s t -> j_phase s = JClosed -> j_made t = j_made s /\ j_phase t = JClosed.
Proof.
  intros A s t R P. induction R as [s|s t u R IH S]; [now split|]. destruct (IH P) as [M Q]. inversion S; subst; cbn in *; try congruence; now split.
Qed.
Print Assumptions C59_no_new_events_after_close.
Example C59_example : ts_closes (Some 0%nat) [(true, true); (true, true)] = [CClose (Some 0%nat) true true].
Proof. reflexivity. Qed.

(** ** C60: Python's JSON *)
Theorem C60_python_json_partial : forall b, plain (b_path b) = true -> (forall a, b_assoc b = Some a -> plain a = true /\ a <> []) ->
  read_json (py_json b) = Some (py_event_as_json b).
Proof. exact py_json_reads. Qed.
Print Assumptions C60_python_json_partial.
(** A path with a quote: not JSON. *)
Theorem C60_quotes_refuted : exists b, b_assoc b = None /\ read_json (py_json b) = None.
Proof. exists (BEv 1 (lit "/a""b") None EtCreate PtFile). split; reflexivity. Qed.
Print Assumptions C60_quotes_refuted.
(** A path with a backslash: JSON of another path. *)
Theorem C60_backslashes_refuted : exists b ms, b_path b = lit "/a\tb" /\ read_json (py_json b) = Some (JObj ms) /\
  In (lit "path_name", JStr [47; 97; 9; 98]%N) ms.
Proof.
  exists (BEv 1 (lit "/a\tb") None EtCreate PtFile). eexists. split; [reflexivity|]. split; [vm_compute; reflexivity|]. right. now left.
Qed.
Print Assumptions C60_backslashes_refuted.
Example C60_example : py_json (BEv (-5) (lit "/a") (Some (lit "/b")) EtRename PtDir)
  = lit "{""effect_time"":-5,""path_name"":""/a"",""associated_path_name"":""/b"",""effect_type"":""rename"",""path_type"":""dir""}".
Proof. reflexivity. Qed.

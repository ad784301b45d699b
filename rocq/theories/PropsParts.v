(** Theorems C86, C89, C92 and C95: parts of C35, C49, C10 and C61 that hold without
    conditions, as properties of their own. *)
From Verif Require Sys LinuxWatch LinuxSpec PropsLinux SemabinModel WindowsModel PropsWindows PropsWatch.
From Verif Require Import Base EventModel BindModel BindSpec PropsBind.

(** ** C86: nothing is closed that is not open (Linux) *)
Theorem C86_nothing_closed_twice :
  forall s fuel path il tr o r, LinuxWatch.linux_watch s fuel path il tr = (o, r) ->
    LinuxSpec.no_bad_close o /\ forall b, r = Ok b -> LinuxSpec.streams_balanced o.
Proof.
  intros s fuel path il tr o r E. split; [exact (proj1 (PropsLinux.C35_no_leak_no_double_close_partial _ _ _ _ _ _ _ E))|].
  intros b ->. exact (PropsLinux.C35_directory_streams_balanced _ _ _ _ _ _ _ E).
Qed.
Print Assumptions C86_nothing_closed_twice.
(** Runs with closes: [PropsLinux.C35_example]. *)

(** ** C89: C handles *)
(** Calls on handles that were opened: all goes well if and only if no call
    is about a handle after a close of it returned true; the calls up to the first
    such are made, and are the only ones. *)
Lemma run_prefix cs : forall ws l e, c_run ws cs = (l, e) -> forall l1 l2, l = l1 ++ l2 -> exists ws1, c_run ws (map fst l1) = (l1, Ok ws1) /\ exists cs2, cs = map fst l1 ++ cs2 /\ c_run ws1 cs2 = (l2, e).
Proof.
  induction cs as [|c cs IH]; intros ws l e E l1 l2 El; cbn [c_run] in E.
  - injection E as <- <-. destruct l1; [|discriminate]. destruct l2; [|discriminate]. exists ws. split; [reflexivity|]. exists []. auto.
  - destruct l1 as [|x l1].
    + exists ws. split; [reflexivity|]. exists (c :: cs). cbn in El. subst l2. split; [reflexivity|exact E].
    + destruct (c_step ws c) as [[ws' r]|u| |] eqn:Es; try (injection E as <- <-; discriminate).
      destruct (c_run ws' cs) as [l' e'] eqn:Er. injection E as <- <-. injection El as <- El.
      destruct (IH _ _ _ Er _ _ El) as (ws1 & A & cs2 & -> & B). exists ws1. split.
      * cbn [map fst c_run]. now rewrite Es, A.
      * exists cs2. auto.
Qed.
Theorem C89_safe_unless_used_after_close :
  forall cs l e, opened_before 0 cs -> c_run [] cs = (l, e) ->
    ((exists ws, e = Ok ws) <-> forall cs1 c cs2 i, cs = cs1 ++ c :: cs2 -> call_handle c = Some i -> ~ closed_ok i (fst (c_run [] cs1))) /\
    (forall l1 c r l2 i, l = l1 ++ (c, r) :: l2 -> call_handle c = Some i -> ~ closed_ok i l1).
Proof.
  intros cs l e O E.
  assert (Used : forall l1 c r l2 i, l = l1 ++ (c, r) :: l2 -> call_handle c = Some i -> ~ closed_ok i l1).
  { intros l1 c r l2 i El Hc Hi. destruct (run_prefix _ _ _ _ E _ _ El) as (ws1 & A & cs2 & Ec & B).
    destruct cs2 as [|c2 cs2]; [discriminate|]. cbn [c_run] in B.
    assert (c2 = c). { destruct (c_step ws1 c2) as [[ws' r']|u| |]; try discriminate. destruct (c_run ws' cs2). now injection B as <- _ _ _. } subst c2.
    apply (C49_closed_is_freed _ _ _ A) in Hi. destruct c as [|[j|] rl th]; try discriminate. injection Hc as ->. cbn [c_step] in B. rewrite Hi in B. discriminate. }
  split; [|exact Used]. split.
  - intros (ws & ->) cs1 c cs2 i Ec Hc Hi.
    assert (Full : forall cs ws0 l ws, c_run ws0 cs = (l, Ok ws) -> map fst l = cs).
    { clear. induction cs as [|c cs IH]; intros ws0 l ws E; cbn [c_run] in E; [now injection E as <- <-|].
      destruct (c_step ws0 c) as [[ws' r]|u| |]; try discriminate. destruct (c_run ws' cs) as [l' e'] eqn:Er. injection E as <- ->. cbn. f_equal. eauto. }
    pose proof (Full _ _ _ _ E) as F. rewrite Ec in F.
    assert (Sp : exists l1 r l2, l = l1 ++ (c, r) :: l2 /\ map fst l1 = cs1).
    { clear -F. revert cs1 F. induction l as [|[c0 r0] l IH]; intros cs1 F; [destruct cs1; discriminate|].
      destruct cs1 as [|c1 cs1]; cbn in F; injection F as <- F; [exists [], r0, l; auto|].
      destruct (IH _ F) as (l1 & r & l2 & -> & <-). exists ((c0, r0) :: l1), r, l2. auto. }
    destruct Sp as (l1 & r & l2 & El & <-). destruct (run_prefix _ _ _ _ E _ _ El) as (ws1 & A & _). rewrite A in Hi. eapply Used; eauto.
  - intros H. destruct (C49_only_reuse_is_unsafe_partial _ _ _ O E) as [Hok|(-> & i & rl & th & rest & Ec & Hi)]; [exact Hok|].
    exfalso. apply (H _ _ _ i Ec eq_refl). destruct (run_prefix _ _ _ _ E l [] (eq_sym (app_nil_r l))) as (ws1 & A & _). rewrite A. exact Hi.
Qed.
Print Assumptions C89_safe_unless_used_after_close.
(** A watcher whose thread fails is closed three times, another one once: all is well. *)
Example C89_example : let cs := [COpen; COpen; CClose (Some 0%nat) true false; CClose (Some 0%nat) true false; CClose (Some 1%nat) true true; CClose (Some 0%nat) false true] in
  opened_before 0 cs /\ c_run [] cs = ([(COpen, true); (COpen, true); (CClose (Some 0%nat) true false, false); (CClose (Some 0%nat) true false, false);
    (CClose (Some 1%nat) true true, true); (CClose (Some 0%nat) false true, false)], Ok [CLive false; CFreed]).
Proof. cbn. split; [repeat split; lia|reflexivity]. Qed.

(** ** C92: a stop request is not forgotten (Darwin, generic) *)
Theorem C92_stop_not_forgotten :
  forall pl cs w w' i r v, pl <> SemabinModel.Linux true -> pl <> SemabinModel.Linux false ->
    SemabinModel.sreach pl (SemabinModel.sem_start cs) w -> In (SemabinModel.Release, SemabinModel.released) (SemabinModel.answers w) ->
    nth_error (SemabinModel.threads w) i = Some (SemabinModel.Thread None (SemabinModel.Query :: r)) ->
    SemabinModel.sreach pl w w' -> nth_error (SemabinModel.threads w') i = Some (SemabinModel.Thread (Some (SemabinModel.Ret v)) (SemabinModel.Query :: r)) -> v = SemabinModel.released.
Proof.
  intros pl cs w w' i r v H1 H2. apply PropsWatch.C10_sticky_partial. destruct pl as [[|]| |]; auto; congruence.
Qed.
Print Assumptions C92_stop_not_forgotten.
(** Met by [PropsWatch.C10_example]. *)

(** ** C95: Windows: the event token and the completion port are closed once *)
Theorem C95_token_and_port_closed_once :
  forall s fuel path o b hs, WindowsModel.win_life s fuel path = (o, Ok b, hs) ->
    NoDup hs /\ In WindowsModel.HToken hs /\ (In WindowsModel.HPort hs <-> In (WindowsModel.NPort true) o).
Proof.
  intros s fuel path o b hs H. destruct (PropsWindows.C61_token_and_port_closed_partial _ _ _ _ _ _ H) as [[-> N]|[-> P]].
  - split; [repeat constructor; intros []|]. split; [now left|]. split; [intros [[=]|[]]|contradiction].
  - split; [repeat constructor; [intros [[=]|[]]|intros []]|]. split; [now left|]. split; [auto|intros _; right; now left].
Qed.
Print Assumptions C95_token_and_port_closed_once.
(** Met by [PropsWindows.C61_example]. *)

(** ** C90: Node callbacks *)
Theorem C90_in_order_and_bounded :
  forall A (s : jstate A), jreach jstart s ->
    subseq (map snd (j_called s)) (j_made s) /\ (length (j_queue s) <= Z.to_nat 1024)%nat /\
    (j_leaked s = [] -> map snd (j_called s) ++ j_queue s = j_made s).
Proof.
  intros A s H. split; [now apply C55_callbacks_in_order_partial|]. split; [now apply (C55_queue_is_bounded A s H)|].
  intros L. exact (proj1 (C55_nothing_lost_below_capacity_partial A s H L)).
Qed.
Print Assumptions C90_in_order_and_bounded.
(** Met by [PropsBind.C55_example]. *)

(** C152: closing a Python watcher from several threads ([PyManyModel]). *)
From Verif Require Import Base EventModel SemabinModel WatchModel WatchSpec ManyModel PropsMany PyManyModel.

(** ** What is asked *)
Definition in_native (t : ppc) : Prop := match t with PClose _ | PDelete _ => True | _ => False end.
(** The watch is deleted and a thread is in a native call on it, or the watching thread still goes on. *)
Definition use_after_free (w : pworld) : Prop :=
  p_alive w = false /\ ((exists t, In t (p_threads w) /\ in_native t) \/ ~ exists b, p_watch w = WDone b).
(** As seen from class watch. *)
Definition native (w : pworld) : mworld := MWorld (p_sem w) (p_watch w) (map in_watch (p_threads w)) (p_valid w) (p_log w).

(** ** One at a time *)
Definition fits (w : pworld) (t : ppc) : Prop :=
  match t with
  | PIdle => p_attr w = true /\ p_alive w = true /\ p_calls w = 0%nat /\ p_deletes w = 0%nat \/
             p_attr w = false /\ p_calls w = 1%nat
  | PTested => p_attr w = true /\ p_alive w = true /\ p_calls w = 0%nat /\ p_deletes w = 0%nat
  | PClose _ => p_attr w = true /\ p_alive w = true /\ p_calls w = 1%nat /\ p_deletes w = 0%nat
  | PDelete _ => p_attr w = true /\ p_alive w = true /\ p_calls w = 1%nat /\ p_deletes w = 0%nat /\ p_valid w = false
  | PSet => p_calls w = 1%nat
  end.
Definition p_only (ts : list ppc) (t : ppc) : Prop := exists a b, ts = a ++ t :: b /\ Forall (eq PIdle) (a ++ b).
Definition in_order (w : pworld) : Prop :=
  (exists t, fits w t /\ (p_threads w = [] /\ t = PIdle \/ p_only (p_threads w) t)) /\
  (p_deletes w <= 1)%nat /\ (p_alive w = false -> p_valid w = false).
Lemma p_only_at a t b u : p_only (a ++ t :: b) u -> t = PIdle /\ (u = PIdle -> Forall (eq PIdle) (a ++ b)) \/ (t = u /\ Forall (eq PIdle) (a ++ b)).
Proof.
  intros (c & d & E & F).
  assert (G : u = PIdle -> Forall (eq PIdle) (a ++ b)).
  { intros ->. assert (X : Forall (eq PIdle) (a ++ t :: b)) by (rewrite E; apply Forall_app in F as [? ?]; apply Forall_app; auto).
    apply Forall_app in X as [X Y]. inversion Y; subst. apply Forall_app; auto. }
  apply Forall_app in F as [Fc Fd].
  assert (H : t = PIdle \/ t = u /\ a = c /\ b = d).
  { clear G. revert c E Fc. induction a as [|x a IH]; intros c E Fc; destruct c as [|y c]; cbn [app] in E.
    - injection E as <- <-. auto.
    - injection E as <- E. inversion Fc; subst. now left.
    - injection E as <- <-. left. rewrite Forall_forall in Fd. symmetry. apply Fd. apply in_elt.
    - injection E as <- E. inversion Fc as [|? ? Hy Fc']; subst. destruct (IH c E Fc') as [H|(H1 & -> & ->)]; auto. }
  destruct H as [H|(-> & -> & ->)]; [left; auto|right]. split; [reflexivity|]. apply Forall_app; auto.
Qed.
Lemma p_alone a t b u : (t = PIdle -> Forall (eq PIdle) (a ++ b)) -> a ++ t :: b = [] /\ u = PIdle \/ p_only (a ++ t :: b) u -> Forall (eq PIdle) (a ++ b) /\ u = t.
Proof.
  intros Al [[H _]|H]; [destruct a; discriminate H|]. destruct (p_only_at _ _ _ _ H) as [[-> _]|[-> F]]; [|auto].
  pose proof (Al eq_refl) as F. split; [exact F|]. destruct H as (c & d & E & Fcd).
  assert (X : Forall (eq PIdle) (a ++ PIdle :: b)) by (apply Forall_app in F as [? ?]; apply Forall_app; auto).
  rewrite E in X. rewrite Forall_forall in X. symmetry. apply X. apply in_elt.
Qed.
Lemma idle_native ts : Forall (eq PIdle) ts -> Forall (eq CIdle) (map in_watch ts).
Proof. intros F. rewrite Forall_forall in *. intros x Hx. apply in_map_iff in Hx as (t & <- & Ht). now rewrite <- (F t Ht). Qed.
Lemma map_native a t b : map in_watch (a ++ t :: b) = map in_watch a ++ in_watch t :: map in_watch b.
Proof. rewrite map_app. reflexivity. Qed.

Section One.
  Variables (pl : platform) (runs : text -> list act -> option bool -> Prop).
  Lemma thread_goes m k a t b vd l m' t' vd' l' w0 : Forall (eq PIdle) (a ++ b) -> c_step pl k m vd t m' vd' t' l' ->
    m_reach pl runs true w0 (MWorld m k (map in_watch a ++ t :: map in_watch b) vd l) ->
    m_reach pl runs true w0 (MWorld m' k (map in_watch a ++ t' :: map in_watch b) vd' (l ++ l')).
  Proof.
    intros F C R. eapply MReach1; [exact R|]. apply MS_thread; [|exact C]. intros _ _. rewrite <- map_app. now apply idle_native.
  Qed.
  Lemma one_at_a_time n w : p_reach pl runs true (p_constructed n) w -> in_order w /\ m_reach pl runs true (m_constructed n) (native w).
  Proof.
    intros R. remember (p_constructed n) as w0 eqn:E0. induction R as [w0|w0 w w' R IH S]; subst w0.
    { split.
      - split; [|split; [cbn; lia|discriminate]]. exists PIdle. split; [left; repeat split|]. cbn [p_threads p_constructed].
        destruct n as [|n]; [now left|right]. exists [], (repeat PIdle n). split; [reflexivity|]. apply Forall_forall. intros x Hx. symmetry. eapply repeat_spec; eauto.
      - unfold native. cbn [p_sem p_watch p_threads p_valid p_log p_constructed]. replace (map in_watch (repeat PIdle n)) with (repeat CIdle n) by (induction n as [|n IH]; [reflexivity|cbn; now f_equal]). constructor. }
    destruct (IH eq_refl) as (((u & Hf & Hu) & Hd & Ha) & Hr). clear IH.
    pose proof (settles _ _ _ _ Hr) as (_ & I2 & I3 & I4 & I5).
    destruct S as [m k ts vd l al at_ c d m' k' l' W|m k a t b vd l al at_ c d t' al' at' c' d' Al P|m k a t b vd l at_ c d m' t' vd' l' al' d' P];
      unfold native in *; cbn [p_sem p_watch p_threads p_valid p_log p_alive p_attr p_calls p_deletes m_sem m_watch m_threads m_valid m_log] in *.
    - split; [|eapply MReach1; [exact Hr|now constructor]]. split; [|split; [exact Hd|exact Ha]]. exists u. split; [exact Hf|exact Hu].
    - destruct (p_alone _ _ _ _ (fun E => Al eq_refl E) Hu) as [F ->]. clear Hu Al.
      assert (On : forall x w, p_threads w = a ++ x :: b -> p_threads w = [] /\ x = PIdle \/ p_only (p_threads w) x) by (intros x w' ->; right; exists a, b; auto).
      split.
      + split; [exists t'; split; [|now apply On]|]; unfold fits in *; inversion P; subst; cbn [p_valid p_alive p_attr p_calls p_deletes] in *; auto; intuition (congruence || lia).
      + rewrite map_native in Hr |- *. inversion P; subst; exact Hr.
    - assert (F : Forall (eq PIdle) (a ++ b) /\ u = t).
      { apply p_alone; [|exact Hu]. intros ->. inversion P. }
      destruct F as [F ->]. clear Hu.
      assert (On : forall x w, p_threads w = a ++ x :: b -> p_threads w = [] /\ x = PIdle \/ p_only (p_threads w) x) by (intros x w' ->; right; exists a, b; auto).
      rewrite map_native in *. assert (Was : forall x, in_watch t = x -> In x (map in_watch a ++ in_watch t :: map in_watch b)) by (intros x <-; apply in_elt).
      split.
      + split; [exists t'; split; [|now apply On]|]; unfold fits in *; inversion P; subst; cbn [p_valid p_alive p_attr p_calls p_deletes in_watch] in *.
        * intuition.
        * intuition.
        * destruct (I3 v (Was _ eq_refl)) as [_ Hv]. intuition.
        * assert (vd' = false) by (destruct Hf as (_ & _ & _ & _ & Hv); match goal with H : c_step _ _ _ _ _ _ _ _ _ |- _ => inversion H; subst; congruence end). intuition.
        * intuition.
        * split; [lia|discriminate].
        * split; [lia|discriminate].
        * split; [lia|discriminate].
        * split; [lia|discriminate].
        * split; [lia|intuition].
      + inversion P; subst; cbn [in_watch] in *.
        * eapply thread_goes; eassumption.
        * eapply thread_goes; [exact F|constructor|exact Hr].
        * eapply thread_goes; [exact F|constructor|exact Hr].
        * eapply thread_goes; eassumption.
        * eapply thread_goes; [exact F|constructor|exact Hr].
  Qed.
End One.

(** ** C152 *)
(** The claim: threads may close a Python watcher as they like.  It holds if no two are in close() at
    once: nothing is used after it was freed, the future is never used by two, and the watch is closed
    through wtr_watcher_close at most once, and once when [_watcher] is None. *)
Theorem C152_python_close_one_thread_at_a_time_partial : forall pl runs n w, p_reach pl runs true (p_constructed n) w ->
  ~ use_after_free w /\ ~ future_race (native w) /\ (p_calls w <= 1)%nat /\ (p_deletes w <= 1)%nat /\
  (p_attr w = false -> p_calls w = 1%nat).
Proof.
  intros pl runs n w R. destruct (one_at_a_time pl runs n w R) as (((u & Hf & Hu) & Hd & Ha) & Hr).
  destruct (settles _ _ _ _ Hr) as (_ & I2 & _). cbn [native m_valid m_watch] in I2.
  split; [|split; [exact (proj1 (C151_close_one_thread_at_a_time_partial _ _ _ _ Hr))|]].
  - intros [Hx [(t & Ht & Hn)|No]]; [|apply No, I2, Ha, Hx].
    destruct Hu as [[E _]|(a & b & E & F)]; rewrite E in Ht; [destruct Ht|].
    assert (t = u).
    { rewrite Forall_forall in F. apply in_app_or in Ht. destruct Ht as [H|[H|H]]; [|now symmetry|];
      exfalso; rewrite <- (F t) in Hn; try (apply in_or_app; auto); destruct Hn. }
    subst t. destruct u; try destruct Hn; unfold fits in Hf; intuition congruence.
  - unfold fits in Hf. destruct u; intuition (congruence || lia).
Qed.
Print Assumptions C152_python_close_one_thread_at_a_time_partial.

(** Once a close() has returned and no other is going on, threads may call it as they like: they do nothing. *)
Theorem C152_python_after_the_first_close_partial : forall pl runs n w w', p_reach pl runs true (p_constructed n) w ->
  p_attr w = false -> Forall (eq PIdle) (p_threads w) -> p_reach pl runs false w w' ->
  ~ use_after_free w' /\ ~ future_race (native w') /\ Forall (eq PIdle) (p_threads w') /\ p_calls w' = 1%nat /\ p_deletes w' = p_deletes w.
Proof.
  intros pl runs n w w' R0 At Id R. destruct (C152_python_close_one_thread_at_a_time_partial _ _ _ _ R0) as (H1 & _ & _ & _ & H2).
  assert (X : p_attr w' = false /\ Forall (eq PIdle) (p_threads w') /\ p_calls w' = 1%nat /\ p_deletes w' = p_deletes w /\
    (p_alive w' = false -> exists b, p_watch w' = WDone b)).
  { destruct (one_at_a_time pl runs n w R0) as ((_ & _ & Ha) & Hr). destruct (settles _ _ _ _ Hr) as (_ & I2 & _). cbn [native m_valid m_watch] in I2.
    assert (I : p_alive w = false -> exists b, p_watch w = WDone b) by (intros Hx; now apply I2, Ha).
    assert (H3 : p_calls w = 1%nat) by now apply H2.
    clear - At Id R H3 I. induction R as [w|w w1 w2 R IH S]; [auto|]. destruct (IH At Id I H3) as (B1 & B2 & B3 & B4 & B5). clear IH.
    destruct S as [m k ts vd l al at_ c d m' k' l' W|m k a t b vd l al at_ c d t' al' at' c' d' _ P|m k a t b vd l at_ c d m' t' vd' l' al' d' P];
      cbn [p_sem p_watch p_threads p_valid p_log p_alive p_attr p_calls p_deletes] in *.
    - split; [exact B1|]. split; [exact B2|]. split; [exact B3|]. split; [exact B4|]. intros Hx. destruct (B5 Hx) as (b & E). destruct (proj2 (w_not_closed _ _ _ _ _ _ _ _ W) b E).
    - assert (t = PIdle) as -> by (rewrite Forall_forall in B2; symmetry; apply B2, in_elt). inversion P; subst; [auto|discriminate].
    - assert (t = PIdle) as -> by (rewrite Forall_forall in B2; symmetry; apply B2, in_elt). inversion P. }
  destruct X as (_ & B2 & B3 & B4 & B5). split; [|split; [|auto]].
  - intros [Hx [(t & Ht & Hn)|No]]; [|exact (No (B5 Hx))]. rewrite Forall_forall in B2. rewrite <- (B2 t Ht) in Hn. destruct Hn.
  - intros (i & j & x & y & _ & _ & Hj & _ & Hy). cbn [native m_threads] in Hj. apply nth_error_In in Hj.
    pose proof (idle_native _ B2) as Fn. rewrite Forall_forall in Fn. rewrite <- (Fn y Hj) in Hy. destruct Hy.
Qed.
Print Assumptions C152_python_after_the_first_close_partial.

(** ** Two at once *)
Section Two.
  Variables (pl : platform) (runs : text -> list act -> option bool -> Prop) (alone : bool) (w0 : pworld).
  Notation reach := (p_reach pl runs alone w0).
  Lemma p_watch_goes m k ts vd l al at_ c d m' k' l' : reach (PWorld m k ts vd l al at_ c d) -> w_step pl runs false vd m k m' k' l' ->
    reach (PWorld m' k' ts vd (l ++ l') al at_ c d).
  Proof. intros R W. eapply PReach1; [exact R|]. now constructor. Qed.
  Lemma p_watch_checks abs p m' q m k ts vd l al at_ c d : goes pl m p m' q -> k = WCheck abs p -> reach (PWorld m k ts vd l al at_ c d) ->
    reach (PWorld m' (WCheck abs q) ts vd l al at_ c d).
  Proof.
    intros G. revert k. induction G as [m p|m p a x b q S G IH]; intros k -> R; [exact R|]. eapply IH; [reflexivity|].
    pose proof (p_watch_goes _ _ _ _ _ _ _ _ _ _ _ _ R (W_check pl runs false vd m abs p a x S)) as R1. now rewrite app_nil_r in R1.
  Qed.
  Lemma p_first m k t u vd l al at_ c d t' al' at' c' d' : reach (PWorld m k [t; u] vd l al at_ c d) -> (alone = true -> t = PIdle -> PIdle = u) ->
    py_step al at_ c d t t' al' at' c' d' -> reach (PWorld m k [t'; u] vd l al' at' c' d').
  Proof. intros R Al P. eapply PReach1; [exact R|]. apply (PS_python pl runs alone m k [] t [u]); [|exact P]. intros H1 H2. constructor; [now apply Al|constructor]. Qed.
  Lemma p_second m k t u vd l al at_ c d u' al' at' c' d' : reach (PWorld m k [t; u] vd l al at_ c d) -> (alone = true -> u = PIdle -> PIdle = t) ->
    py_step al at_ c d u u' al' at' c' d' -> reach (PWorld m k [t; u'] vd l al' at' c' d').
  Proof. intros R Al P. eapply PReach1; [exact R|]. apply (PS_python pl runs alone m k [t] u []); [|exact P]. intros H1 H2. constructor; [now apply Al|constructor]. Qed.
  Lemma p_native m k t u vd l at_ c d m' t' vd' l' al' d' : reach (PWorld m k [t; u] vd l true at_ c d) ->
    native_step pl k m d vd t m' vd' t' l' al' d' -> reach (PWorld m' k [t'; u] vd' (l ++ l') al' at_ c d').
  Proof. intros R P. eapply PReach1; [exact R|]. now apply (PS_native pl runs alone m k [] t [u]). Qed.
  Lemma p_releases m k p m' q u vd l at_ c d : goes pl m p m' q -> reach (PWorld m k [PClose (CRelease p); u] vd l true at_ c d) ->
    reach (PWorld m' k [PClose (CRelease q); u] vd l true at_ c d).
  Proof.
    intros G. induction G as [m p|m p a x b q S G IH]; intros R; [exact R|]. apply IH.
    assert (C : native_step pl k m d vd (PClose (CRelease p)) a vd (PClose (CRelease x)) [] true d) by (constructor; [now constructor|discriminate]).
    pose proof (p_native _ _ _ _ _ _ _ _ _ _ _ _ _ _ _ R C) as R1. now rewrite app_nil_r in R1.
  Qed.
  Lemma p_releases_too m k p m' q u vd l at_ c d : goes pl m p m' q -> reach (PWorld m k [PDelete (CRelease p); u] vd l true at_ c d) ->
    reach (PWorld m' k [PDelete (CRelease q); u] vd l true at_ c d).
  Proof.
    intros G. induction G as [m p|m p a x b q S G IH]; intros R; [exact R|]. apply IH.
    assert (C : native_step pl k m d vd (PDelete (CRelease p)) a vd (PDelete (CRelease x)) [] true d) by (constructor; [now constructor|discriminate]).
    pose proof (p_native _ _ _ _ _ _ _ _ _ _ _ _ _ _ _ R C) as R1. now rewrite app_nil_r in R1.
  Qed.
End Two.
Lemma new_pending pl : goes pl sem_new QStart sem_new (Ret pending).
Proof. destruct pl; (eapply Goes1; [|apply Goes0]); [now constructor|apply D_q|apply O_q]. Qed.
Lemma new_released pl : exists m, goes pl sem_new RStart m (Ret released) /\ is m = released /\ stop_visible pl m.
Proof.
  destruct pl as [b| |].
  - exists (set_is (signalled sem_new) released). split; [|split; [reflexivity|cbn; lia]]. eapply Goes1; [apply L_r_first; discriminate|]. eapply Goes1; [constructor|]. eapply Goes1; [constructor|]. constructor.
  - exists (signalled (set_is sem_new released)). split; [|split; [reflexivity|now left]]. eapply Goes1; [now constructor|]. eapply Goes1; [constructor|]. constructor.
  - exists (set_is sem_new released). split; [|split; reflexivity]. eapply Goes1; [constructor|]. constructor.
Qed.
(** The whole close() of the first thread, with the second anywhere ([u]) and the calls made till then counted. *)
Lemma first_closes pl (runs : text -> list act -> option bool -> Prop) alone w0 m m1 abs u l at_ c : runs abs [AStop] (Some true) -> goes pl m RStart m1 (Ret released) -> is m1 = released -> stop_visible pl m1 ->
  p_reach pl runs alone w0 (PWorld m (WAdapt abs) [PClose CIdle; u] true l true at_ c 0) ->
  exists m2 l2, p_reach pl runs alone w0 (PWorld m2 (WDone true) [PSet; u] false l2 false at_ c 1).
Proof.
  intros Hr G I1 Vis R. destruct (can_release pl m1 (or_intror I1)) as (m2 & G2 & _).
  eapply p_native in R; [|apply N_close; [apply C_begin|discriminate]]. eapply p_releases in R; [|exact G].
  eapply p_watch_goes in R; [|apply (W_adapt pl runs false); exact Hr]. eapply p_watch_goes in R; [|apply W_stop; exact Vis].
  eapply p_watch_goes in R; [|apply W_ended]. eapply p_watch_goes in R; [|apply (W_die pl runs false _ _ _ _ _ 2)]. eapply p_watch_goes in R; [|apply W_return].
  eapply p_native in R; [|apply N_close; [apply C_valid; discriminate|discriminate]]. eapply p_native in R; [|apply N_close; [apply C_has|discriminate]].
  eapply p_native in R; [|apply N_close; [apply C_got; reflexivity|discriminate]]. eapply p_native in R; [|apply N_closed].
  eapply p_native in R; [|apply N_delete; [apply C_begin|discriminate]]. eapply p_releases_too in R; [|exact G2].
  eapply p_native in R; [|apply N_delete; [apply C_valid; discriminate|discriminate]]. eapply p_native in R; [|apply N_delete; [apply C_has_not|discriminate]].
  eapply p_native in R; [|apply N_deleted]. eexists. eexists. exact R.
Qed.
Lemma p_begins pl runs alone w0 ts vd l al at_ c d abs : p_reach pl runs alone w0 (PWorld sem_new WStart ts vd l al at_ c d) ->
  exists l2, p_reach pl runs alone w0 (PWorld sem_new (WAdapt abs) ts vd l2 al at_ c d).
Proof.
  intros R. eapply p_watch_goes in R; [|apply (W_good pl runs false _ _ abs)]. eapply (p_watch_checks pl runs alone w0 abs) in R; [|apply new_pending|reflexivity].
  eapply p_watch_goes in R; [|apply W_checked]. eapply p_watch_goes in R; [|apply (W_live pl runs false _ _ _ _ 1)]. eapply p_watch_goes in R; [|apply W_return].
  eexists. exact R.
Qed.
(** With two threads the claim is false, on every platform and with every adapter that can end in order: the
    one may test [_watcher] and call wtr_watcher_close while, or even after, the other closed and deleted the watch. *)
Theorem C152_python_close_from_several_threads_refuted : forall pl (runs : text -> list act -> option bool -> Prop) abs, runs abs [AStop] (Some true) ->
  exists w, p_reach pl runs false (p_constructed 2) w /\ p_calls w = 2%nat /\ p_deletes w = 1%nat /\ use_after_free w /\
    p_threads w = [PSet; PClose CIdle].
Proof.
  intros pl runs abs Hr. destruct (new_released pl) as (m1 & G1 & I1 & Vis). pose proof (PReach0 pl runs false (p_constructed 2)) as R.
  cbn [p_constructed repeat] in R. unfold p_constructed in R at 2. cbn [repeat] in R. eapply p_begins in R. destruct R as (l & R).
  eapply p_first in R; [|intros X; discriminate X|apply P_some; reflexivity]. eapply p_first in R; [|discriminate|apply P_call; reflexivity].
  eapply p_second in R; [|intros X; discriminate X|apply P_some; reflexivity].
  eapply first_closes in R; [|exact Hr|exact G1|exact I1|exact Vis]. destruct R as (m2 & l2 & R).
  eapply p_second in R; [|discriminate|apply P_call; reflexivity].
  eexists. split; [exact R|]. split; [reflexivity|]. split; [reflexivity|]. split; [|reflexivity].
  split; [reflexivity|]. left. exists (PClose CIdle). split; [right; left; reflexivity|exact Coq.Init.Logic.I].
Qed.
Print Assumptions C152_python_close_from_several_threads_refuted.

(** One thread closes; then both call close() at once and find nothing to do. *)
Example C152_example : let runs := fun (_ : text) st r => st = [AStop] /\ r = Some true in
  exists w, p_reach (Linux false) runs true (p_constructed 2) w /\ p_attr w = false /\ Forall (eq PIdle) (p_threads w) /\ p_calls w = 1%nat /\ p_deletes w = 1%nat.
Proof.
  intros runs. destruct (new_released (Linux false)) as (m1 & G1 & I1 & Vis). pose proof (PReach0 (Linux false) runs true (p_constructed 2)) as R.
  unfold p_constructed in R at 2. cbn [repeat] in R. eapply (p_begins _ _ _ _ _ _ _ _ _ _ _ (lit "/w")) in R. destruct R as (l & R).
  eapply p_first in R; [|reflexivity|apply P_some; reflexivity]. eapply p_first in R; [|discriminate|apply P_call; reflexivity].
  eapply first_closes in R; [|split; reflexivity|exact G1|exact I1|exact Vis]. destruct R as (m2 & l2 & R).
  eapply p_first in R; [|discriminate|apply P_set]. eexists. split; [exact R|]. cbn [p_attr p_threads p_calls p_deletes]. repeat constructor.
Qed.

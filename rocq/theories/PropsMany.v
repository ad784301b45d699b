(** C151: close() from several threads ([ManyModel]). *)
From Verif Require Import Base EventModel SemabinModel WatchModel WatchSpec ManyModel.

(** ** What is asked *)
(** Two calls on the future at once, one of which (get) changes it: a data race ([res.on.data.races]). *)
Definition calls_future (t : cpc) : Prop := match t with CValid _ | CGet _ => True | _ => False end.
Definition changes_future (t : cpc) : Prop := match t with CGet _ => True | _ => False end.
Definition future_race (w : mworld) : Prop :=
  exists i j t u, i <> j /\ nth_error (m_threads w) i = Some t /\ nth_error (m_threads w) j = Some u /\ calls_future t /\ changes_future u.

(** ** One at a time *)
(** What the owner of [WatchModel] does when the one thread in close() is at [t]. *)
Definition as_owner (vd : bool) (t : cpc) : opc :=
  match t with
  | CIdle => OIdle
  | CRelease p => OClose false p
  | CValid v => if vd then OWait false v else ORet false v false
  | CGet v => OWait false v
  | CRet v b => ORet false v b
  end.
Definition only (ts : list cpc) (t : cpc) : Prop := exists a b, ts = a ++ t :: b /\ Forall (eq CIdle) (a ++ b).
Definition shown_by (w : mworld) (t : cpc) (o : opc) : Prop :=
  o = as_owner (m_valid w) t /\ (m_threads w = [] /\ t = CIdle \/ only (m_threads w) t) /\ match t with CGet _ => m_valid w = true | _ => True end.
Lemma only_idle ts : Forall (eq CIdle) ts -> ts = [] \/ only ts CIdle.
Proof. destruct ts as [|t ts]; intros H; [now left|right]. inversion H; subst. exists [], ts. auto. Qed.
Lemma only_at a t b u : only (a ++ t :: b) u -> t = CIdle \/ (t = u /\ Forall (eq CIdle) (a ++ b)).
Proof.
  intros (c & d & E & F). apply Forall_app in F as [Fc Fd].
  revert c E Fc. induction a as [|x a IH]; intros c E Fc; destruct c as [|y c]; cbn [app] in E.
  - injection E as <- <-. right. auto.
  - injection E as <- E. inversion Fc; subst. now left.
  - injection E as <- <-. left. rewrite Forall_forall in Fd. symmetry. apply Fd. apply in_elt.
  - injection E as <- E. inversion Fc as [|? ? Hy Fc']; subst. destruct (IH c E Fc') as [H|[H1 H2]]; [now left|right]. split; [exact H1|]. constructor; [reflexivity|exact H2].
Qed.
Lemma only_all_idle ts : only ts CIdle -> Forall (eq CIdle) ts.
Proof. intros (a & b & -> & F). apply Forall_app in F as [Fa Fb]. apply Forall_app. auto. Qed.
Lemma only_here a t b : Forall (eq CIdle) (a ++ b) -> only (a ++ t :: b) t.
Proof. intros F. exists a, b. auto. Qed.

(** A thread that makes a step is the only one in close(). *)
Lemma alone_then a t b u : (t = CIdle -> Forall (eq CIdle) (a ++ b)) -> a ++ t :: b = [] /\ u = CIdle \/ only (a ++ t :: b) u -> Forall (eq CIdle) (a ++ b) /\ u = t.
Proof.
  intros Al [[H _]|H]; [destruct a; discriminate H|]. destruct (only_at _ _ _ _ H) as [->|[-> F]]; [|auto].
  pose proof (Al eq_refl) as F. split; [exact F|]. destruct H as (c & d & E & Fcd).
  assert (X : Forall (eq CIdle) (a ++ CIdle :: b)) by (apply Forall_app in F as [? ?]; apply Forall_app; auto).
  rewrite E in X. rewrite Forall_forall in X. symmetry. apply X. apply in_elt.
Qed.

Lemma simulated pl runs n w : m_reach pl runs true (m_constructed n) w ->
  exists t o, shown_by w t o /\ reach pl runs false constructed (World (m_sem w) (m_watch w) o (m_valid w) (m_log w)).
Proof.
  intros R. remember (m_constructed n) as w0 eqn:E0. induction R as [w0|w0 w w' R IH S]; subst w0.
  { exists CIdle, OIdle. split; [|constructor]. split; [reflexivity|]. split; [|exact Coq.Init.Logic.I]. cbn [m_threads m_constructed].
    destruct (only_idle (repeat CIdle n)) as [H|H]; auto. apply Forall_forall. intros x Hx. symmetry. eapply repeat_spec; eauto. }
  destruct (IH eq_refl) as (u & o & (Eo & Hu & Hg) & Hr). clear IH.
  assert (Go : forall w2 t o2, shown_by w2 t o2 -> step pl runs false (World (m_sem w) (m_watch w) o (m_valid w) (m_log w)) (World (m_sem w2) (m_watch w2) o2 (m_valid w2) (m_log w2)) ->
     exists t o, shown_by w2 t o /\ reach pl runs false constructed (World (m_sem w2) (m_watch w2) o (m_valid w2) (m_log w2))).
  { intros w2 t o2 H1 H2. exists t, o2. split; [exact H1|]. econstructor; eassumption. }
  destruct S as [m k ts vd l m' k' l' W|m k a t b vd l m' t' vd' l' Al C]; cbn [m_sem m_watch m_threads m_valid m_log] in *.
  - apply (Go (MWorld m' k' ts vd (l ++ l')) u o); [split; [exact Eo|split; [exact Hu|exact Hg]]|]. cbn. now constructor.
  - pose proof (alone_then _ _ _ _ (fun E => Al eq_refl E) Hu) as Ho.
    destruct Ho as [F ->]. clear Hu Al.
    assert (On : forall x, m_threads (MWorld m' k (a ++ x :: b) vd' (l ++ l')) = [] /\ x = CIdle \/ only (a ++ x :: b) x) by (intros x; right; now apply only_here).
    inversion C; subst; cbn [as_owner] in *.
    + apply (Go (MWorld m' k (a ++ CRelease RStart :: b) vd' (l ++ [LRequest])) (CRelease RStart) (OClose false RStart)); [split; [reflexivity|split; [apply On|exact Coq.Init.Logic.I]]|]. apply SW_owner. constructor.
    + apply (Go (MWorld m' k (a ++ CRelease p' :: b) vd' (l ++ [])) (CRelease p') (OClose false p')); [split; [reflexivity|split; [apply On|exact Coq.Init.Logic.I]]|]. apply SW_owner. now constructor.
    + apply (Go (MWorld m' k (a ++ CRet error false :: b) vd' (l ++ [LReleased error])) (CRet error false) (ORet false error false)); [split; [reflexivity|split; [apply On|exact Coq.Init.Logic.I]]|]. apply SW_owner. constructor. now left.
    + apply (Go (MWorld m' k (a ++ CValid v :: b) vd' (l ++ [LReleased v])) (CValid v) (if vd' then OWait false v else ORet false v false)); [split; [reflexivity|split; [apply On|exact Coq.Init.Logic.I]]|].
      apply SW_owner. destruct vd'; constructor; [assumption|now right].
    + exists (CGet v), (OWait false v). split; [split; [reflexivity|split; [apply On|reflexivity]]|]. cbn [m_sem m_watch m_valid m_log]. rewrite app_nil_r. exact Hr.
    + exists (CRet v false), (ORet false v false). split; [split; [reflexivity|split; [apply On|exact Coq.Init.Logic.I]]|]. cbn [m_sem m_watch m_valid m_log]. rewrite app_nil_r. exact Hr.
    + apply (Go (MWorld m' (WDone b0) (a ++ CRet v b0 :: b) false (l ++ [])) (CRet v b0) (ORet false v b0)); [split; [reflexivity|split; [apply On|exact Coq.Init.Logic.I]]|]. apply SW_owner. now constructor.
    + apply (Go (MWorld m' k (a ++ CIdle :: b) vd' (l ++ [LClosed v b0])) CIdle OIdle); [split; [reflexivity|split; [apply On|exact Coq.Init.Logic.I]]|]. apply SW_owner. constructor.
Qed.

(** ** C151 *)
(** The claim: any number of threads may call close().  It holds if no two are in it at once: then
    the future is never used by two, and what happens is what one owner can make happen, so that
    everything proved of the lives of a watcher holds. *)
Theorem C151_close_one_thread_at_a_time_partial : forall pl runs n w, m_reach pl runs true (m_constructed n) w ->
  ~ future_race w /\ exists o, reach pl runs false constructed (World (m_sem w) (m_watch w) o (m_valid w) (m_log w)).
Proof.
  intros pl runs n w R. destruct (simulated pl runs n w R) as (t & o & (_ & H & _) & Hr). split; [|eauto].
  intros (i & j & x & y & Hij & Hi & Hj & Hx & Hy). destruct H as [[E _]|(a & b & E & F)]; rewrite E in *; [destruct i; discriminate Hi|].
  assert (One : forall k z, nth_error (a ++ t :: b) k = Some z -> calls_future z -> k = length a).
  { intros k z Hk Hz. destruct (Nat.lt_trichotomy k (length a)) as [L|[L|L]]; [|exact L|]; exfalso.
    - rewrite nth_error_app1 in Hk by exact L. apply nth_error_In in Hk. rewrite Forall_forall in F. rewrite <- (F z) in Hz; [destruct Hz|]. apply in_or_app. now left.
    - rewrite nth_error_app2 in Hk by lia. destruct (k - length a) as [|d] eqn:D; [lia|]. cbn [nth_error] in Hk. apply nth_error_In in Hk. rewrite Forall_forall in F.
      rewrite <- (F z) in Hz; [destruct Hz|]. apply in_or_app. now right. }
  apply Hij. rewrite (One i x Hi Hx), (One j y Hj); [reflexivity|]. destruct y; try contradiction. exact Coq.Init.Logic.I.
Qed.
Print Assumptions C151_close_one_thread_at_a_time_partial.

(** ** After the first *)
(** A close() has returned, its release() having met no error. *)
Definition closed_once (w : mworld) : Prop := exists v b, v <> error /\ In (LClosed v b) (m_log w).
Definition settled (w : mworld) : Prop :=
  (m_valid w = true -> ~ closed_once w) /\
  (m_valid w = false -> exists b, m_watch w = WDone b) /\
  (forall v, In (CRet v true) (m_threads w) -> ~ closed_once w /\ m_valid w = false) /\
  (forall v b, In (CRet v b) (m_threads w) -> v <> error -> m_valid w = false) /\
  (forall v, In (CGet v) (m_threads w) -> m_valid w = true).
Lemma in_one a t b x : Forall (eq CIdle) (a ++ b) -> In x (a ++ t :: b) -> x <> CIdle -> x = t.
Proof.
  intros F H No. rewrite Forall_forall in F. apply in_app_or in H.
  destruct H as [H|[->|H]]; [|reflexivity|]; exfalso; apply No; symmetry; apply F, in_or_app; auto.
Qed.
Lemma w_not_closed pl runs vd m k m' k' l : w_step pl runs false vd m k m' k' l -> (forall v b, v <> error -> In (LClosed v b) l -> vd = false) /\ (forall b, k <> WDone b).
Proof.
  intros W. split; [intros v b Hv H|intros b E]; destruct W; try discriminate E; cbn in H; intuition congruence.
Qed.
Lemma settles pl runs n w : m_reach pl runs true (m_constructed n) w -> settled w.
Proof.
  intros R. remember (m_constructed n) as w0 eqn:E0. induction R as [w0|w0 w w' R IH S]; subst w0.
  { assert (Id : forall t, In t (m_threads (m_constructed n)) -> t = CIdle) by (intros t H; eapply repeat_spec; exact H).
    split; [intros _ (v & b & _ & [])|]. split; [discriminate|]. repeat split; intros; match goal with H : In _ _ |- _ => apply Id in H; discriminate H end. }
  specialize (IH eq_refl). destruct (simulated _ _ _ _ R) as (u & o & (_ & Hu & _) & _). destruct IH as (I1 & I2 & I3 & I4 & I5).
  destruct S as [m k ts vd l m' k' l' W|m k a t b vd l m' t' vd' l' Al C]; unfold settled, closed_once in *; cbn [m_sem m_watch m_threads m_valid m_log] in *.
  - destruct (w_not_closed _ _ _ _ _ _ _ _ W) as [W1 W2].
    assert (Z : forall v b, v <> error -> In (LClosed v b) (l ++ l') -> In (LClosed v b) l).
    { intros v b Hv H. apply in_app_or in H as [H|H]; [exact H|]. destruct (I2 (W1 v b Hv H)) as (b' & E). destruct (W2 b' E). }
    split; [|split; [|split; [|split]]]; auto.
    + intros Hd (v & b & Hv & H). apply (I1 Hd). exists v, b. auto.
    + intros Hd. destruct (I2 Hd) as (b & E). destruct (W2 b E).
    + intros v Hi. destruct (I3 v Hi) as [No Hd]. split; [|exact Hd]. intros (v' & b & Hv & H). apply No. exists v', b. auto.
  - destruct (alone_then _ _ _ _ (fun E => Al eq_refl E) Hu) as [F _]. clear Al Hu.
    assert (One : forall x, In x (a ++ t' :: b) -> x <> CIdle -> x = t') by (intros x Hx Nx; exact (in_one a t' b x F Hx Nx)).
    assert (Was : In t (a ++ t :: b)) by apply in_elt.
    assert (Z : (forall v b, v <> error -> ~ In (LClosed v b) l') -> (exists v b, v <> error /\ In (LClosed v b) (l ++ l')) -> exists v b, v <> error /\ In (LClosed v b) l).
    { intros No (v & y & Hv & H). apply in_app_or in H as [H|H]; [|destruct (No v y Hv H)]. exists v, y. auto. }
    split; [|split; [|split; [|split]]].
    + intros Hd X. assert (D : vd = true) by (inversion C; congruence). apply (I1 D).
      inversion C; subst; try discriminate; try (apply Z; [cbn; intros ? ? ?; intuition congruence|exact X]).
      destruct X as (v' & y & Hv & H). apply in_app_or in H as [H|[H|[]]]; [exists v', y; auto|]. injection H as <- <-.
      pose proof (I4 _ _ Was Hv). congruence.
    + intros Hd. inversion C; subst; try (now apply I2). now exists b0.
    + intros v Hi. apply One in Hi; [|discriminate]. subst t'. inversion C; subst. split; [intros X|reflexivity].
      apply (I1 (I5 _ Was)), Z; [cbn; auto|exact X].
    + intros v y Hi Hv. apply One in Hi; [|discriminate]. subst t'. inversion C; subst; try reflexivity. congruence.
    + intros v Hi. apply One in Hi; [|discriminate]. subst t'. inversion C; subst; reflexivity.
Qed.
(** Once a close() has so returned, threads may call close() as they like: no two use the future, every
    call returns false and there is nothing else to be seen. *)
Theorem C151_after_the_first_close_partial : forall pl runs n w w', m_reach pl runs true (m_constructed n) w ->
  (exists v b, v <> error /\ In (LClosed v b) (m_log w)) -> m_reach pl runs false w w' ->
  ~ future_race w' /\ exists l, m_log w' = m_log w ++ l /\
    forall e, In e l -> e = LRequest \/ (exists v, e = LReleased v) \/ exists v, e = LClosed v false.
Proof.
  intros pl runs n w w' R0 Hc R. pose proof (settles _ _ _ _ R0) as (I1 & I2 & I3 & I4 & I5).
  assert (Hd : m_valid w = false) by (destruct (m_valid w); [destruct (I1 eq_refl Hc)|reflexivity]).
  assert (X : m_valid w' = false /\ (exists b, m_watch w' = WDone b) /\ (forall v, ~ In (CRet v true) (m_threads w')) /\ (forall v, ~ In (CGet v) (m_threads w')) /\
    exists l, m_log w' = m_log w ++ l /\ forall e, In e l -> e = LRequest \/ (exists v, e = LReleased v) \/ exists v, e = LClosed v false).
  { clear R0. induction R as [w|w w1 w2 R IH S].
    { split; [exact Hd|]. split; [now apply I2|]. split; [intros v H; exact (proj1 (I3 v H) Hc)|]. split; [intros v H; rewrite (I5 v H) in Hd; discriminate Hd|].
      exists []. split; [symmetry; apply app_nil_r|intros e []]. }
    destruct (IH Hc I1 I2 I3 I4 I5 Hd) as (H1 & (b & H2) & H3 & H4 & l & H5 & H6). clear IH.
    destruct S as [m k ts vd l0 m' k' l' W|m k a t c vd l0 m' t' vd' l' _ C]; cbn [m_sem m_watch m_threads m_valid m_log] in *; subst.
    { destruct (proj2 (w_not_closed _ _ _ _ _ _ _ _ W) b eq_refl). }
    assert (Was : In t (a ++ t :: c)) by apply in_elt.
    assert (Old : forall x, In x (a ++ t' :: c) -> x = t' \/ In x (a ++ t :: c)).
    { intros x Hx. apply in_app_or in Hx as [Hx|[->|Hx]]; [right|now left|right]; apply in_or_app; [now left|right; now right]. }
    split; [inversion C; congruence|]. split; [now exists b|].
    split; [intros v Hx; apply Old in Hx as [<-|Hx]; [inversion C; subst; exact (H4 _ Was)|exact (H3 v Hx)]|].
    split; [intros v Hx; apply Old in Hx as [<-|Hx]; [inversion C|exact (H4 v Hx)]|].
    exists (l ++ l'). split; [symmetry; apply app_assoc|]. intros e He. apply in_app_or in He as [He|He]; [now apply H6|].
    inversion C; subst; cbn in He; try contradiction; destruct He as [<-|[]]; eauto.
    destruct b0; [destruct (H3 _ Was)|eauto]. }
  destruct X as (_ & _ & _ & H4 & Hl). split; [|exact Hl].
  intros (i & j & x & y & _ & _ & Hj & _ & Hy). destruct y; try contradiction. exact (H4 v (nth_error_In _ _ Hj)).
Qed.
Print Assumptions C151_after_the_first_close_partial.

(** ** Two at once *)
Section Two.
  Variables (pl : platform) (runs : text -> list act -> option bool -> Prop) (alone : bool) (w0 : mworld).
  Lemma first_goes k m t u vd l m' t' vd' l' : m_reach pl runs alone w0 (MWorld m k [t; u] vd l) -> (alone = true -> t = CIdle -> CIdle = u) ->
    c_step pl k m vd t m' vd' t' l' -> m_reach pl runs alone w0 (MWorld m' k [t'; u] vd' (l ++ l')).
  Proof. intros R Al C. eapply MReach1; [exact R|]. apply (MS_thread pl runs alone m k [] t [u] vd l m' t' vd' l'); [|exact C]. intros H1 H2. constructor; [now apply Al|constructor]. Qed.
  Lemma second_goes k m t u vd l m' u' vd' l' : m_reach pl runs alone w0 (MWorld m k [t; u] vd l) -> (alone = true -> u = CIdle -> CIdle = t) ->
    c_step pl k m vd u m' vd' u' l' -> m_reach pl runs alone w0 (MWorld m' k [t; u'] vd' (l ++ l')).
  Proof. intros R Al C. eapply MReach1; [exact R|]. apply (MS_thread pl runs alone m k [t] u [] vd l m' u' vd' l'); [|exact C]. intros H1 H2. constructor; [now apply Al|constructor]. Qed.
  Lemma watch_goes k m ts vd l m' k' l' : m_reach pl runs alone w0 (MWorld m k ts vd l) -> w_step pl runs false vd m k m' k' l' ->
    m_reach pl runs alone w0 (MWorld m' k' ts vd (l ++ l')).
  Proof. intros R W. eapply MReach1; [exact R|]. now constructor. Qed.
End Two.
Inductive goes (pl : platform) : sem -> pc -> sem -> pc -> Prop :=
| Goes0 m p : goes pl m p m p
| Goes1 m p a x b q : sem_step pl m p a x -> goes pl a x b q -> goes pl m p b q.
Lemma can_release pl m : is m = pending \/ is m = released -> exists m', goes pl m RStart m' (Ret released) /\ is m' = released.
Proof.
  intros [H|H].
  - destruct pl as [b| |].
    + exists (set_is (signalled m) released). split; [|reflexivity]. eapply Goes1; [apply L_r_first; rewrite H; discriminate|]. eapply Goes1; [constructor|]. eapply Goes1; [constructor|]. constructor.
    + exists (signalled (set_is m released)). split; [|reflexivity]. eapply Goes1; [now constructor|]. eapply Goes1; [constructor|]. constructor.
    + exists (set_is m released). split; [|reflexivity]. eapply Goes1; [constructor|]. constructor.
  - destruct pl as [b| |].
    + exists m. split; [|exact H]. eapply Goes1; [now constructor|]. constructor.
    + exists m. split; [|exact H]. eapply Goes1; [constructor; rewrite H; discriminate|]. constructor.
    + exists (set_is m released). split; [|reflexivity]. eapply Goes1; [constructor|]. constructor.
Qed.
Section Release.
  Variables (pl : platform) (runs : text -> list act -> option bool -> Prop) (alone : bool) (w0 : mworld).
  Lemma first_releases k m p m' q u vd l : goes pl m p m' q -> m_reach pl runs alone w0 (MWorld m k [CRelease p; u] vd l) ->
    m_reach pl runs alone w0 (MWorld m' k [CRelease q; u] vd l).
  Proof.
    intros G. induction G as [m p|m p a x b q S G IH]; intros R; [exact R|]. apply IH.
    assert (C : c_step pl k m vd (CRelease p) a vd (CRelease x) []) by now constructor.
    pose proof (first_goes _ _ _ _ _ _ _ _ _ _ _ _ _ _ R (fun _ E => match E with end) C) as R1. now rewrite app_nil_r in R1.
  Qed.
  Lemma second_releases k m p m' q t vd l : goes pl m p m' q -> m_reach pl runs alone w0 (MWorld m k [t; CRelease p] vd l) ->
    m_reach pl runs alone w0 (MWorld m' k [t; CRelease q] vd l).
  Proof.
    intros G. induction G as [m p|m p a x b q S G IH]; intros R; [exact R|]. apply IH.
    assert (C : c_step pl k m vd (CRelease p) a vd (CRelease x) []) by now constructor.
    pose proof (second_goes _ _ _ _ _ _ _ _ _ _ _ _ _ _ R (fun _ E => match E with end) C) as R1. now rewrite app_nil_r in R1.
  Qed.
End Release.
(** With two threads in close() the claim is false on every platform, with every adapter: both find the future valid and call get(). *)
Theorem C151_close_from_several_threads_refuted : forall pl runs,
  exists w, m_reach pl runs false (m_constructed 2) w /\ m_threads w = [CGet released; CGet released] /\ future_race w.
Proof.
  intros pl runs. destruct (can_release pl sem_new (or_introl eq_refl)) as (m1 & G1 & I1). destruct (can_release pl m1 (or_intror I1)) as (m2 & G2 & _).
  pose proof (MReach0 pl runs false (m_constructed 2)) as R. cbn [m_constructed repeat] in R.
  assert (No : forall P : Prop, false = true -> P) by discriminate.
  eapply first_goes in R; [|intros X; discriminate X|apply C_begin]. eapply first_releases in R; [|exact G1].
  eapply second_goes in R; [|intros X; discriminate X|apply C_begin]. eapply second_releases in R; [|exact G2].
  eapply first_goes in R; [|intros X; discriminate X|apply C_valid; discriminate]. eapply first_goes in R; [|intros X; discriminate X|apply C_has].
  eapply second_goes in R; [|intros X; discriminate X|apply C_valid; discriminate]. eapply second_goes in R; [|intros X; discriminate X|apply C_has].
  eexists. split; [exact R|]. split; [reflexivity|]. exists 0%nat, 1%nat, (CGet released), (CGet released). repeat split. discriminate.
Qed.
Print Assumptions C151_close_from_several_threads_refuted.

(** Two threads, one after the other: the first ends the watcher and gets its result, the second false. *)
Example C151_example : exists w, m_reach Other (fun _ st r => st = [AStop] /\ r = Some true) true (m_constructed 2) w /\
  m_threads w = [CIdle; CIdle] /\
  m_log w = [LLook (Some (lit "/w")) (Some true); LCheck pending; LCb (live_event true (lit "/w") 1); LWatch (lit "/w");
    LRequest; LStop; LCb (die_event true (lit "/w") 2); LReleased released; LClosed released true;
    LRequest; LReleased released; LClosed released false].
Proof.
  set (runs := fun (_ : text) st r => _). pose proof (MReach0 Other runs true (m_constructed 2)) as R. cbn [m_constructed repeat] in R.
  eapply watch_goes in R; [|apply (W_good Other runs false _ _ (lit "/w"))]. eapply watch_goes in R; [|apply W_check, O_q]. eapply watch_goes in R; [|apply W_checked].
  eapply watch_goes in R; [|apply (W_live Other runs false _ _ _ _ 1)]. eapply watch_goes in R; [|apply W_return].
  eapply watch_goes in R; [|apply (W_adapt Other runs false _ _ _ [AStop] (Some true)); split; reflexivity].
  eapply first_goes in R; [|reflexivity|apply C_begin]. eapply first_goes in R; [|discriminate|apply C_release, O_r].
  eapply watch_goes in R; [|apply W_stop; reflexivity]. eapply watch_goes in R; [|apply W_ended]. eapply watch_goes in R; [|apply (W_die Other runs false _ _ _ _ _ 2)].
  eapply watch_goes in R; [|apply W_return].
  eapply first_goes in R; [|discriminate|apply C_valid; discriminate]. eapply first_goes in R; [|discriminate|apply C_has]. eapply first_goes in R; [|discriminate|apply C_got; reflexivity].
  eapply first_goes in R; [|discriminate|apply C_closed].
  eapply second_goes in R; [|reflexivity|apply C_begin]. eapply second_goes in R; [|discriminate|apply C_release, O_r]. eapply second_goes in R; [|discriminate|apply C_valid; discriminate].
  eapply second_goes in R; [|discriminate|apply C_has_not]. eapply second_goes in R; [|discriminate|apply C_closed].
  eexists. split; [exact R|]. split; [reflexivity|]. reflexivity.
Qed.

(** After that both call at once. *)
Example C151_after_example : exists w w', m_reach Other (fun _ st r => st = [AStop] /\ r = Some true) true (m_constructed 2) w /\
  (exists v b, v <> error /\ In (LClosed v b) (m_log w)) /\ m_reach Other (fun _ st r => st = [AStop] /\ r = Some true) false w w' /\
  m_threads w' = [CRelease RStart; CRelease RStart].
Proof.
  destruct C151_example as (w & R & T & L). destruct w as [m k ts vd l]. cbn [m_threads m_log] in *. subst.
  eexists. eexists. split; [exact R|]. split; [exists released, true; split; [discriminate|cbn; tauto]|].
  match goal with |- m_reach ?pl ?runs _ ?w _ /\ _ => pose proof (MReach0 pl runs false w) as R2 end.
  eapply first_goes in R2; [|intros X; discriminate X|apply C_begin]. eapply second_goes in R2; [|intros X; discriminate X|apply C_begin].
  split; [exact R2|reflexivity].
Qed.

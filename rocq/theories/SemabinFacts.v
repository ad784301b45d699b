(** Facts about the stop flag (C10, C11). *)
From Verif Require Import Base SemabinModel.
Local Open Scope nat_scope.

Lemma sreach_trans pl a b c : sreach pl a b -> sreach pl b c -> sreach pl a c.
Proof. intros H1 H2. induction H2; [exact H1|]. econstructor; [apply IHsreach; exact H1|eassumption]. Qed.

(** Replacing one element. *)
Lemma nth_mid {A} (l1 : list A) x l2 i :
  nth_error (l1 ++ x :: l2) i = if i =? length l1 then Some x else if i <? length l1 then nth_error l1 i else nth_error l2 (i - S (length l1)).
Proof.
  destruct (Nat.eqb_spec i (length l1)) as [->|Hn].
  - rewrite nth_error_app2, Nat.sub_diag by lia. reflexivity.
  - destruct (Nat.ltb_spec i (length l1)).
    + now apply nth_error_app1.
    + rewrite nth_error_app2 by lia. replace (i - length l1) with (S (i - S (length l1))) by lia. reflexivity.
Qed.

(** ** Sticky on Darwin and elsewhere *)
Definition no_eventfd (pl : platform) : Prop := pl = Darwin \/ pl = Other.

(** Every call's progress is of its own kind. *)
Definition t_ok (t : thread) : Prop :=
  match doing t with
  | None => True
  | Some p => match todo t with
              | [] => False
              | Release :: _ => match p with RStart | RSignal => True | Ret v => v = released | _ => False end
              | Query :: _ => match p with QStart | Ret _ => True | _ => False end
              end
  end.
(** The thread's release has taken effect. *)
Definition rel_done (t : thread) : Prop :=
  match todo t with Release :: _ => match doing t with Some (Ret _) | Some RSignal => True | _ => False end | _ => False end.

Record sticky_inv (w : sworld) : Prop := {
  si_threads : Forall t_ok (threads w);
  si_done : forall t, In t (threads w) -> rel_done t -> is (shared w) = released;
  si_answer : forall v, In (Release, v) (answers w) -> is (shared w) = released;
  si_error : is (shared w) <> error;
}.

Lemma sticky_step pl w w' : no_eventfd pl -> sstep pl w w' -> sticky_inv w -> sticky_inv w'.
Proof.
  intros Hpl H. inversion H as [m ts1 t ts2 m' t' an ans Ht]; subst; clear H.
  intros [Ith Id Ia Ie]. cbn in *.
  apply Forall_app in Ith as [Ith1 Ith2]. apply Forall_cons_iff in Ith2 as [It Ith2].
  assert (Id0 : rel_done t -> is m = released) by (apply Id, in_elt).
  assert (Id1 : forall x, In x ts1 \/ In x ts2 -> rel_done x -> is m = released).
  { intros x Hx. apply Id. rewrite in_app_iff. cbn. tauto. }
  assert (Hm : is m = released -> is m' = released).
  { inversion Ht as [| ? ? ? ? ? Hs |]; subst; auto. destruct Hpl as [->| ->]; inversion Hs; subst; cbn; auto. }
  assert (Ht' : t_ok t' /\ (rel_done t' -> is m' = released) /\ is m' <> error /\ (forall v, In (Release, v) an -> is m' = released)).
  { inversion Ht as [? c ? | ? ? ? ? cs Hs | ? ? c ?]; subst.
    - destruct c; cbn; repeat split; auto; tauto.
    - unfold t_ok in It. cbn in It. destruct cs as [|[] cs]; [tauto| |]; destruct Hpl as [->| ->]; inversion Hs; subst; cbn in *; repeat split;
        try tauto; try congruence; auto.
      destruct (is m'); congruence.
    - cbn in *. split; [exact I|]. split; [|split; [exact Ie|]].
      + unfold rel_done; cbn. destruct cs as [|[] ?]; tauto.
      + intros v0 [[= -> ->]|[]]. apply Id0. exact I. }
  destruct Ht' as (Hok & Hd & He & Hr). split; cbn.
  - apply Forall_app. auto.
  - intros x Hx Hxd. apply in_app_iff in Hx as [Hx|[<-|Hx]]; [|now apply Hd|]; eapply Hm, Id1; eauto.
  - intros v Hv. apply in_app_iff in Hv as [Hv|Hv]; [eapply Hm, Ia, Hv|eapply Hr, Hv].
  - exact He.
Qed.

Lemma sticky_start cs : sticky_inv (sem_start cs).
Proof.
  split; cbn; try discriminate; try tauto.
  - rewrite Forall_map. apply Forall_forall. intros; exact I.
  - intros t Ht. apply in_map_iff in Ht as (c & <- & _). unfold rel_done; cbn. destruct c as [|[] ?]; tauto.
Qed.

Lemma sticky_reach pl w w' : no_eventfd pl -> sreach pl w w' -> sticky_inv w -> sticky_inv w'.
Proof. intros Hpl H. induction H; intros I; [exact I|]. eapply sticky_step; eauto. Qed.

(** A query of thread [i] begun when released. *)
Definition query_phase (r : list call) (t : thread) : Prop :=
  t = Thread None (Query :: r) \/ t = Thread (Some QStart) (Query :: r) \/
  t = Thread (Some (Ret released)) (Query :: r) \/ length (todo t) <= length r.

Lemma query_step pl w w' i r : no_eventfd pl -> sstep pl w w' -> is (shared w) = released ->
  (exists t, nth_error (threads w) i = Some t /\ query_phase r t) ->
  is (shared w') = released /\ exists t, nth_error (threads w') i = Some t /\ query_phase r t.
Proof.
  intros Hpl H Hr (x & Hx & Hq). inversion H as [m ts1 t ts2 m' t' an ans Ht]; subst; clear H. cbn in *.
  rewrite nth_mid in *. split.
  { inversion Ht as [| ? ? ? ? ? Hs |]; subst; auto. destruct Hpl as [->| ->]; inversion Hs; subst; cbn; auto. }
  destruct (Nat.eqb i (length ts1)); [|eauto]. injection Hx as ->. exists t'. split; [reflexivity|].
  unfold query_phase in *. destruct Hq as [->|[->|[->|Hl]]].
  - inversion Ht; subst. auto.
  - inversion Ht as [| ? ? ? ? ? Hs |]; subst. destruct Hpl as [->| ->]; inversion Hs; subst; rewrite Hr; auto.
  - inversion Ht as [| ? ? ? ? ? Hs |]; subst; [destruct Hpl as [->| ->]; inversion Hs|]. right; right; right. cbn; lia.
  - right; right; right. inversion Ht; subst; cbn in *; lia.
Qed.

Lemma sticky_query pl cs w w' i r v : no_eventfd pl ->
  sreach pl (sem_start cs) w -> In (Release, released) (answers w) ->
  nth_error (threads w) i = Some (Thread None (Query :: r)) ->
  sreach pl w w' -> nth_error (threads w') i = Some (Thread (Some (Ret v)) (Query :: r)) -> v = released.
Proof.
  intros Hpl Hw Ha Hi Hw' Hv.
  assert (Hr : is (shared w) = released).
  { eapply si_answer; [eapply sticky_reach; eauto using sticky_start|exact Ha]. }
  assert (Q : is (shared w') = released /\ exists t, nth_error (threads w') i = Some t /\ query_phase r t).
  { clear Hv Hw Ha. induction Hw'; [split; [exact Hr|]; eexists; split; [exact Hi|left; reflexivity]|].
    destruct IHHw' as [H1 H2]; auto. eapply query_step; eauto. }
  destruct Q as (_ & t & Ht & Hq). rewrite Hv in Ht. injection Ht as <-.
  destruct Hq as [[=]|[[=]|[[=]|Hl]]]; [congruence|cbn in Hl; lia].
Qed.

(** ** Exactly one signal on Darwin *)
Definition at_signal (t : thread) : nat := match doing t with Some RSignal => 1 | _ => 0 end.
Definition sum (l : list nat) : nat := fold_right plus 0 l.
Lemma sum_app a b : sum (a ++ b) = sum a + sum b.
Proof. unfold sum in *. induction a; simpl; [reflexivity|]. rewrite IHa. lia. Qed.

Definition owed (m : sem) : nat := match is m with pending => 0 | _ => 1 end.
Lemma darwin_step w w' : sstep Darwin w w' ->
  signals (shared w) + sum (map at_signal (threads w)) = owed (shared w) ->
  signals (shared w') + sum (map at_signal (threads w')) = owed (shared w').
Proof.
  intros H. inversion H as [m ts1 t ts2 m' t' an ans Ht]; subst; clear H. cbn.
  rewrite !map_app, !sum_app. cbn. intros E.
  inversion Ht as [? c ?| ? ? ? ? ? Hs |]; subst; cbn in *; [destruct c; cbn; exact E| |exact E].
  inversion Hs; subst; cbn in *; unfold owed in *; cbn in *; try lia.
  all: try (rewrite H in *; lia).
Qed.

Lemma darwin_signals cs w : sreach Darwin (sem_start cs) w ->
  signals (shared w) + sum (map at_signal (threads w)) = owed (shared w).
Proof.
  intros H. remember (sem_start cs) as w0. induction H; subst; [|eapply darwin_step; eauto].
  cbn. rewrite map_map. cbn. clear. induction cs; cbn; auto.
Qed.

Definition finished (w : sworld) : Prop := Forall (fun t => doing t = None /\ todo t = []) (threads w).

(** The calls not answered yet and the answers make up all calls. *)
Definition releases (cs : list call) : nat := length (filter (fun c => match c with Release => true | _ => false end) cs).
Lemma releases_app a b : releases (a ++ b) = releases a + releases b.
Proof. unfold releases. now rewrite filter_app, app_length. Qed.
Lemma sum_cons a l : sum (a :: l) = a + sum l. Proof. reflexivity. Qed.
Lemma releases_step pl w w' : sstep pl w w' ->
  sum (map (fun t => releases (todo t)) (threads w')) + releases (map fst (answers w')) =
  sum (map (fun t => releases (todo t)) (threads w)) + releases (map fst (answers w)).
Proof.
  intros H. inversion H as [m ts1 t ts2 m' t' an ans Ht]; subst; clear H. cbn [threads answers].
  rewrite !map_app, !sum_app, releases_app. cbn [map]. rewrite !sum_cons.
  inversion Ht as [| |? ? c cs]; subst; cbn [todo map fst]; cbv beta; cbn [todo].
  1-2: change (releases []) with 0; rewrite Nat.add_0_r; reflexivity.
  change (c :: cs) with ([c] ++ cs). rewrite releases_app. unfold answer in *. lia.
Qed.
Lemma releases_reach pl cs w : sreach pl (sem_start cs) w ->
  sum (map (fun t => releases (todo t)) (threads w)) + releases (map fst (answers w)) = sum (map releases cs).
Proof.
  intros H. remember (sem_start cs) as w0. induction H; subst.
  - cbn. rewrite map_map. cbn. change (releases []) with 0. rewrite Nat.add_0_r. reflexivity.
  - erewrite releases_step by eassumption. auto.
Qed.

Lemma darwin_exactly_once cs w : sreach Darwin (sem_start cs) w -> finished w -> In Release (concat cs) ->
  signals (shared w) = 1.
Proof.
  intros H Hf Hin. pose proof (darwin_signals _ _ H) as E. pose proof (releases_reach _ _ _ H) as R.
  assert (E1 : sum (map at_signal (threads w)) = 0).
  { clear -Hf. unfold finished in Hf. induction Hf as [|t ts [H _] ? IH]; [reflexivity|]. cbn. unfold at_signal at 1. now rewrite H. }
  assert (E2 : sum (map (fun t => releases (todo t)) (threads w)) = 0).
  { clear -Hf. unfold finished in Hf. induction Hf as [|t ts [_ H] ? IH]; [reflexivity|]. cbn. now rewrite H. }
  assert (E3 : 0 < sum (map releases cs)).
  { clear -Hin. induction cs as [|c cs IH]; [destruct Hin|]. cbn [concat map] in *. rewrite sum_cons.
    apply in_app_iff in Hin as [Hin|Hin]; [|specialize (IH Hin); lia].
    assert (0 < releases c); [|lia]. clear -Hin. induction c as [|x c IHc]; [destruct Hin|]. change (x :: c) with ([x] ++ c).
    rewrite releases_app. destruct Hin as [->|Hin]; [cbn; lia|]. specialize (IHc Hin). lia. }
  assert (Hr : exists v, In (Release, v) (answers w)).
  { assert (Hp : 0 < releases (map fst (answers w))) by lia. clear -Hp. unfold releases in Hp.
    induction (answers w) as [|[c v] l IH]; [cbn in Hp; lia|]. destruct c; [exists v; now left|].
    destruct IH as [v' ?]; [exact Hp|]. exists v'. now right. }
  destruct Hr as [v Hr].
  assert (Hi : is (shared w) = released).
  { eapply si_answer; [eapply sticky_reach; [left; reflexivity|exact H|apply sticky_start]|exact Hr]. }
  unfold owed in E. rewrite Hi in E. lia.
Qed.

(** ** Linux: one closing thread, one query (the use made of it by [watch]) *)
Definition closer_and_query (n : nat) (q : list call) : sworld := sem_start [repeat Release n; q].

(** The state of the pair, when the calls on the eventfd do not fail: not
    released; written but not stored; released. *)
Inductive phase : sem -> option pc -> option pc -> list call -> Prop :=
| PhA t u q : In t [None; Some RStart; Some RWrite] -> In u [None; Some QStart; Some (Ret pending)] ->
    phase (Sem pending 0 0) t u q
| PhB u q : In u [None; Some QStart; Some (Ret pending)] ->
    phase (Sem pending 1 1) (Some (RStore released)) u q
| PhC n t u q : In t [None; Some RStart; Some (Ret released)] ->
    (n = 1 /\ (q = [Query] /\ In u [None; Some QStart; Some QRead] \/ u = Some (Ret pending) \/ q = [] /\ u = None)
     \/ n = 0 /\ (In u [Some (QStore released); Some (Ret released)] \/ q = [] /\ u = None)) ->
    phase (Sem released n 1) t u q.

Inductive linux_inv : sworld -> Prop :=
| LI m t u k q ans : phase m t u q -> (q = [] /\ u = None \/ q = [Query]) ->
    (forall v, In (Release, v) ans -> v = released /\ is m = released) ->
    linux_inv (SW m [Thread t (repeat Release k); Thread u q] ans).

Lemma two_split {A} (l1 : list A) x l2 a b : l1 ++ x :: l2 = [a; b] ->
  (l1 = [] /\ x = a /\ l2 = [b]) \/ (l1 = [a] /\ x = b /\ l2 = []).
Proof.
  destruct l1 as [|y l1]; cbn; [intros [= <- <-]; auto|]. destruct l1 as [|z l1]; cbn; [intros [= <- <- <-]; auto|].
  destruct l1; discriminate.
Qed.

Ltac ins := repeat match goal with
  | H : In _ (_ :: _) |- _ => cbn in H
  | H : In _ [] |- _ => destruct H
  | H : _ \/ _ |- _ => destruct H
  | H : _ /\ _ |- _ => destruct H
  | H : False |- _ => destruct H
  | H : Some _ = Some _ |- _ => injection H; clear H; intros
  | H : Some _ = None |- _ => discriminate
  | H : QStore _ = QStore _ |- _ => injection H; clear H; intros
  | H : RStore _ = RStore _ |- _ => injection H; clear H; intros
  | H : Ret _ = Ret _ |- _ => injection H; clear H; intros
  | H : None = Some _ |- _ => discriminate
  | H : [] = _ :: _ |- _ => discriminate
  | H : _ :: _ = [] |- _ => discriminate
  end; subst; try discriminate.

Lemma linux_inv_split m ts ans : linux_inv (SW m ts ans) ->
  exists t u k q, ts = [Thread t (repeat Release k); Thread u q] /\ phase m t u q /\ (q = [] /\ u = None \/ q = [Query]) /\
    forall v, In (Release, v) ans -> v = released /\ is m = released.
Proof. intros H. inversion H; subst. exists t, u, k, q. auto. Qed.

Lemma tstep_inv pl m d td m' x' an : tstep pl m (Thread d td) m' x' an ->
  (d = None /\ exists c cs, td = c :: cs /\ m' = m /\ x' = Thread (Some (entry_of c)) (c :: cs) /\ an = []) \/
  (exists p p', d = Some p /\ sem_step pl m p m' p' /\ x' = Thread (Some p') td /\ an = []) \/
  (exists v c cs, d = Some (Ret v) /\ td = c :: cs /\ m' = m /\ x' = Thread None cs /\ an = [(c, v)]).
Proof. intros H. inversion H; subst; [left|right; left|right; right]; eauto 9. Qed.

Lemma repeat_cons_inv k (c : call) cs : repeat Release k = c :: cs -> exists k', c = Release /\ cs = repeat Release k' /\ k = S k'.
Proof. destruct k; [discriminate|]. intros [= <- <-]. eauto. Qed.

Lemma linux_inv_step w w' : sstep (Linux false) w w' -> linux_inv w -> linux_inv w'.
Proof.
  intros H. inversion H as [m ts1 x ts2 m' x' an ans Ht E1 E2]; subst; clear H.
  intros Hi. apply linux_inv_split in Hi as (t & u & k & q & Ets & Hp & Hq & Ha).
  apply two_split in Ets as [(-> & -> & ->)|(-> & -> & ->)]; cbn [app];
    apply tstep_inv in Ht as [(-> & c & cs & Ec & -> & -> & ->)|[(p & p' & -> & Hst & -> & ->)|(v & c & cs & -> & Ec & -> & -> & ->)]].
  - rewrite app_nil_r. apply repeat_cons_inv in Ec as (k' & -> & -> & ->).
    apply (LI m _ _ (S k')); auto. inversion Hp; ins; constructor; cbn; auto 12.
  - rewrite app_nil_r. apply LI; auto; try (intuition congruence).
    + inversion Hp; subst; inversion Hst; ins; ins; try discriminate; cbn in *; try congruence; unfold set_is; cbn; (apply PhA || apply PhB || apply PhC); cbn; auto 12.
    + intros v Hv. destruct (Ha v Hv) as [-> Hr]. split; [reflexivity|]. inversion Hst; subst; cbn; auto; inversion Hp; ins; cbn in *; congruence.
  - apply repeat_cons_inv in Ec as (k' & -> & -> & ->).
    apply (LI m _ _ k'); auto.
    + inversion Hp; ins; constructor; cbn; auto 12.
    + intros v' Hv. apply in_app_iff in Hv as [Hv|[[= <-]|[]]]; [now apply Ha|]. inversion Hp; ins; auto.
  - subst q. destruct Hq as [([=] & _)|[= -> ->]]. rewrite app_nil_r. apply LI; auto; try (intuition congruence).
    inversion Hp; ins; constructor; cbn; auto 12; discriminate.
  - rewrite app_nil_r. apply LI; auto; try (intuition congruence).
    + inversion Hp; subst; inversion Hst; ins; ins; try discriminate; cbn in *; try congruence; try lia; unfold set_is; cbn; (apply PhA || apply PhB || apply PhC); cbn; auto 12.
    + intros v Hv. destruct (Ha v Hv) as [-> Hr]. split; [reflexivity|]. inversion Hst; subst; cbn; auto; inversion Hp; ins; cbn in *; congruence.
  - subst q. destruct Hq as [([=] & _)|[= -> ->]].
    apply LI; auto; try (intuition congruence).
    + inversion Hp; ins; constructor; cbn; auto 12.
    + intros v' Hv. apply in_app_iff in Hv as [Hv|[[=]|[]]]; now apply Ha.
Qed.

Lemma linux_inv_reach n q w : (q = [] \/ q = [Query]) -> sreach (Linux false) (closer_and_query n q) w -> linux_inv w.
Proof.
  intros Hq H. remember (closer_and_query n q) as w0. induction H; subst; [|eapply linux_inv_step; eauto].
  unfold closer_and_query, sem_start. cbn. apply LI; try tauto; [|intros v []]. constructor; cbn; auto.
Qed.

Lemma linux_signals n q w : (q = [] \/ q = [Query]) -> sreach (Linux false) (closer_and_query n q) w ->
  signals (shared w) <= 1 /\ (forall v, In (Release, v) (answers w) -> signals (shared w) = 1).
Proof.
  intros Hq H. apply linux_inv_reach in H; auto. destruct H as [m t u k q' ans Hp _ Ha]. cbn.
  split; [inversion Hp; cbn; lia|]. intros v Hv. destruct (Ha v Hv) as [-> Hr]. inversion Hp; subst; cbn in *; congruence.
Qed.

(** A query begun after a release was answered. *)
Lemma linux_first_query_step w w' : sstep (Linux false) w w' -> linux_inv w ->
  is (shared w) = released ->
  (exists t, nth_error (threads w) 1 = Some t /\ doing t <> Some (Ret pending)) ->
  is (shared w') = released /\ exists t, nth_error (threads w') 1 = Some t /\ doing t <> Some (Ret pending).
Proof.
  intros H Hi Hr (y & Hy & Hn). inversion H as [m ts1 x ts2 m' x' an ans Ht E1 E2]; subst; clear H.
  apply linux_inv_split in Hi as (t & u & k & q & Ets & Hp & Hq & Ha).
  apply two_split in Ets as [(-> & -> & ->)|(-> & -> & ->)]; cbn in *; injection Hy as <-; cbn in *;
    apply tstep_inv in Ht as [(-> & c & cs & Ec & -> & -> & ->)|[(p & p' & -> & Hst & -> & ->)|(v & c & cs & -> & Ec & -> & -> & ->)]].
  - eauto.
  - split; [|eauto]. inversion Hp; subst; inversion Hst; ins; ins; cbn in *; congruence.
  - eauto.
  - split; auto. eexists; split; [reflexivity|]. cbn. destruct c; discriminate.
  - inversion Hp; subst; inversion Hst; ins; ins; cbn in *; (split; [try congruence; try lia|eexists; (split; [reflexivity|]); cbn; try congruence; try lia]).
  - split; auto. eexists; split; [reflexivity|]. discriminate.
Qed.

Lemma linux_first_query n w w' v : sreach (Linux false) (closer_and_query n [Query]) w ->
  In (Release, released) (answers w) -> nth_error (threads w) 1 = Some (Thread None [Query]) ->
  sreach (Linux false) w w' -> nth_error (threads w') 1 = Some (Thread (Some (Ret v)) [Query]) -> v = released.
Proof.
  intros Hw Ha Hi Hw' Hv. pose proof (linux_inv_reach n [Query] w (or_intror eq_refl) Hw) as I0.
  assert (Hr : is (shared w) = released).
  { destruct I0 as [m t u k q ans Hp Hq Hans]. cbn in *. now apply (Hans released). }
  assert (Q : linux_inv w' /\ is (shared w') = released /\ exists t, nth_error (threads w') 1 = Some t /\ doing t <> Some (Ret pending)).
  { clear Hv Ha Hw. induction Hw'; [split; [exact I0|split; [exact Hr|]]; eexists; split; [exact Hi|discriminate]|].
    destruct IHHw' as (J & R & T); auto. split; [eapply linux_inv_step; eauto|]. eapply linux_first_query_step; eauto. }
  destruct Q as (J & R & t & Ht & Hn). rewrite Hv in Ht. injection Ht as <-. cbn in Hn.
  destruct J as [m t u k q ans Hp Hq Hans]. cbn in *. injection Hv as -> ->. inversion Hp; ins; cbn in *; try congruence.
Qed.

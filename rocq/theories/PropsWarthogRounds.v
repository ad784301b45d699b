(** Theorem C161: each time that the fallback adapter wakes up it looks at the watched path anew
    (include/wtr/watcher.hpp:1995-2188). *)
From Verif Require Import Base EventModel InotifySpec Mon WarthogModel WarthogSpec PropsWarthog PropsWarthogWhole.

(** What has been asked since the last question whether to end. *)
Definition go (acc : list wobs) (x : wobs) : list wobs := match x with WState _ => [] | _ => acc ++ [x] end.
Definition since_waking (o : list wobs) : list wobs := fold_left go o [].
(** The watched path was listed, or it is a regular file now and was looked at as one. *)
Definition looked_at (root : text) (m : list wobs) : Prop :=
  (exists es th, In (WWalk root es th) m) \/ (In (WIsDir root (Some false)) m /\ In (WIsReg root (Some true)) m).

Definition calm (o : list wobs) : Prop := forall b, ~ In (WState b) o.
Lemma calm_app a b : calm a -> calm b -> calm (a ++ b).
Proof. intros A B x H. apply in_app_or in H as [H|H]; [exact (A x H)|exact (B x H)]. Qed.
Lemma since_calm a o : calm o -> since_waking (a ++ o) = since_waking a ++ o.
Proof.
  unfold since_waking. rewrite fold_left_app. generalize (fold_left go a []). induction o as [|x o IH]; intros l C; [symmetry; apply app_nil_r|].
  cbn [fold_left]. rewrite IH; [|intros b H; apply (C b); now right]. destruct x as [| |b| | | | | |]; cbn; try (now rewrite <- app_assoc). exfalso. apply (C b). now left.
Qed.
Lemma looked_more root a b : looked_at root b -> looked_at root (a ++ b).
Proof.
  intros [(es & th & H)|[H1 H2]]; [left; exists es, th|right; split]; apply in_or_app; now right.
Qed.

Section S.
  Variable s : wfs.
  Variable root : text.
  Definition emits {A} (m : pm wobs A) (Q : A -> list wobs -> Prop) : Prop :=
    forall tr, calm (fst (m tr)) /\ forall a, snd (m tr) = Ok a -> Q a (fst (m tr)).
  Definition calmly {A} (m : pm wobs A) : Prop := emits m (fun _ _ => True).
  Lemma e_bind {A B} (Q : A -> list wobs -> Prop) (R : B -> list wobs -> Prop) (m : pm wobs A) (k : A -> pm wobs B) :
    emits m Q -> (forall a, emits (k a) (fun b o2 => forall o1, Q a o1 -> R b (o1 ++ o2))) -> emits (pbind m k) R.
  Proof.
    intros Hm Hk tr. destruct (Hm tr) as [H1 H2]. unfold pbind. destruct (m tr) as [o1 [a|u| |]]; cbn [fst snd] in *; try (split; [exact H1|discriminate]).
    destruct (Hk a (tr ++ o1)) as [H3 H4]. destruct (k a (tr ++ o1)) as [o2 r]. cbn [fst snd] in *. split; [now apply calm_app|].
    intros b E. exact (H4 b E o1 (H2 a eq_refl)).
  Qed.
  Lemma e_weaken {A} (Q R : A -> list wobs -> Prop) (m : pm wobs A) : emits m Q -> (forall a o, Q a o -> R a o) -> emits m R.
  Proof. intros H W tr. destruct (H tr) as [H1 H2]. split; [exact H1|]. intros a E. apply W. now apply H2. Qed.
  Lemma c_bind {A B} (m : pm wobs A) (k : A -> pm wobs B) : calmly m -> (forall a, calmly (k a)) -> calmly (pbind m k).
  Proof. intros H K. eapply e_bind; [exact H|]. intros a. eapply e_weaken; [apply K|]. auto. Qed.
  Lemma c_ret {A} (a : A) : calmly (pret a).
  Proof. intros tr. split; [intros b []|auto]. Qed.
  Lemma c_end {A} (r : out A) : calmly (fun _ : list wobs => ([], r)).
  Proof. intros tr. split; [intros b []|auto]. Qed.
  Definition no_state (x : wobs) : Prop := match x with WState _ => False | _ => True end.
  Lemma c_ask {A} (f : list wobs -> A) ob : (forall a, no_state (ob a)) -> calmly (ask f ob).
  Proof. intros H tr. cbn. split; [|auto]. intros b [E|[]]. specialize (H (f tr)). now rewrite E in H. Qed.
  Lemma e_throw {A} (f : list wobs -> option A) ob : (forall a, no_state (ob a)) -> emits (or_throw (ask f ob)) (fun a o => In (ob (Some a)) o).
  Proof.
    intros H tr. unfold or_throw, pbind, ask, pret, pcrash. cbn. assert (C : calm [ob (f tr)]) by (intros b [E|[]]; specialize (H (f tr)); now rewrite E in H).
    destruct (f tr) as [a|]; cbn; (split; [exact C|]); [|discriminate]. intros a' [= <-]. now left.
  Qed.
  Lemma c_throw {A} (f : list wobs -> option A) ob : (forall a, no_state (ob a)) -> calmly (or_throw (ask f ob)).
  Proof. intros H. eapply e_weaken; [now apply e_throw|]. auto. Qed.
  Lemma c_send p f t : calmly (w_send s p f t).
  Proof.
    unfold w_send. apply c_bind; [apply c_ask; intros; exact Coq.Init.Logic.I|]. intros n tr. cbn. split; [intros b [E|[]]; discriminate E|auto].
  Qed.
  Lemma e_file p b : emits (scan_file s p b) (fun r o => fst r = true -> In (WIsReg p (Some true)) o).
  Proof.
    unfold scan_file. eapply e_bind; [apply c_throw; intros; exact Coq.Init.Logic.I|]. intros ex.
    apply e_weaken with (Q := fun r o => fst r = true -> In (WIsReg p (Some true)) o); [|intros a o H o1 _ E; apply in_or_app; right; now apply H].
    eapply e_bind with (Q := fun r o => r = true -> In (WIsReg p (Some true)) o).
    { destruct ex; [eapply e_weaken; [apply e_throw; intros; exact Coq.Init.Logic.I|]; intros a o H ->; exact H|]. intros tr. cbn. split; [intros x []|]. now intros a [= <-]. }
    intros [|]; [|intros tr; cbn; split; [intros x []|]; now intros a [= <-]].
    apply e_weaken with (Q := fun _ _ => True); [|intros r o _ o1 H E; apply in_or_app; left; now apply H].
    apply c_bind; [apply c_ask; intros; exact Coq.Init.Logic.I|]. intros [t|].
    - destruct (tfind p b) as [t0|]; [destruct (t0 =? t)%Z; [apply c_ret|]|]; (apply c_bind; [apply c_send|intros []; apply c_ret]).
    - apply c_bind; [apply c_send|]. intros []. apply c_ret.
  Qed.
  Lemma c_file p b : calmly (scan_file s p b).
  Proof. eapply e_weaken; [apply e_file|]. auto. Qed.
  Lemma c_each body : (forall p b, calmly (body p b)) -> forall es b, calmly (weach body es b).
  Proof. intros H. induction es as [|e es IH]; intros b; [apply c_ret|]. cbn [weach]. apply c_bind; auto. Qed.
  Lemma e_walk body b : (forall p b, calmly (body p b)) -> emits (for_walk s root body b) (fun _ o => exists es th, In (WWalk root es th) o).
  Proof.
    intros H. unfold for_walk. eapply e_bind with (Q := fun r o => In (WWalk root (fst r) (snd r)) o).
    - intros tr. cbn. split; [intros x [E|[]]; discriminate E|]. intros a [= <-]. now left.
    - intros [es th]. cbn [fst snd]. apply e_weaken with (Q := fun _ _ => True).
      + apply c_bind; [now apply c_each|]. intros b'. destruct th; [exact (c_end Crash)|apply c_ret].
      + intros a o _ o1 H1. exists es, th. apply in_or_app. now left.
  Qed.
  Lemma c_walk body b : (forall p b, calmly (body p b)) -> calmly (for_walk s root body b).
  Proof. intros H. eapply e_weaken; [now apply e_walk|]. auto. Qed.
  Lemma e_scan b : emits (scan s root b) (fun r o => fst r = true -> looked_at root o).
  Proof.
    unfold scan. eapply e_bind with (Q := fun (r : bool * bucket) o => if fst r then exists es th, In (WWalk root es th) o else In (WIsDir root (Some false)) o).
    - unfold scan_directory. eapply e_bind; [apply e_throw; intros; exact Coq.Init.Logic.I|]. intros [|]; cbn.
      + eapply e_bind.
        * apply e_walk. intros p b'. apply c_bind; [apply c_file|]. intros r. apply c_ret.
        * intros b' tr. cbn. split; [intros x []|]. intros a [= <-] o1 (es & th & H) o2 _. exists es, th. cbn. rewrite app_nil_r. apply in_or_app. now right.
      + intros tr. cbn. split; [intros x []|]. intros a [= <-] o1 H. rewrite app_nil_r. exact H.
    - intros [[|] b']; cbn [fst snd].
      + intros tr. cbn. split; [intros x []|]. intros a [= <-] o1 H _. rewrite app_nil_r. now left.
      + eapply e_weaken; [apply e_file|]. intros a o H o1 H1 E. right. split; apply in_or_app; [now left|right; now apply H].
  Qed.
  Lemma c_prune todo : forall b, calmly (prune_from s root todo b).
  Proof.
    induction todo as [|[p t] todo IH]; intros b; cbn [prune_from]; [apply c_ret|].
    apply c_bind; [apply c_throw; intros; exact Coq.Init.Logic.I|]. intros [|]; [apply IH|].
    apply c_bind; [apply c_throw; intros; exact Coq.Init.Logic.I|]. intros r. apply c_bind.
    { destruct r; [apply c_ret|]. apply c_bind; [apply c_throw; intros; exact Coq.Init.Logic.I|]. intros [|]; [apply c_ret|].
      apply c_bind; [apply c_throw; intros; exact Coq.Init.Logic.I|]. intros l. apply c_ret. }
    intros t'. apply c_bind; [apply c_send|]. intros []. apply IH.
  Qed.
  Lemma c_tend b : calmly (tend_bucket s root b).
  Proof.
    destruct b as [|x b]; cbn [tend_bucket]; [|apply c_ret]. apply c_bind.
    - unfold populate. apply c_bind; [apply c_throw; intros; exact Coq.Init.Logic.I|]. intros [|]; cbn [negb]; [|apply c_ret].
      apply c_bind; [apply c_throw; intros; exact Coq.Init.Logic.I|]. intros [|]; cbn [negb].
      2:{ apply c_bind; [apply c_throw; intros; exact Coq.Init.Logic.I|]. intros a. exact (c_end (Undef MissingReturn)). }
      apply c_bind; [|intros b'; apply c_ret]. apply c_walk. intros p b. apply c_bind; [apply c_ask; intros; exact Coq.Init.Logic.I|].
      intros [t|]; [apply c_ret|]. apply c_bind; [apply c_throw; intros; exact Coq.Init.Logic.I|]. intros a. apply c_ret.
    - intros [[|] b']; cbn [fst snd]; [apply c_ret|]. apply c_bind; [apply c_prune|]. intros b2. apply c_ret.
  Qed.

  Definition rounds (o : list wobs) : Prop := forall a b rest, o = a ++ WState b :: rest -> a <> [] -> looked_at root (since_waking a).
  Lemma rounds_calm tr o : rounds tr -> calm o -> rounds (tr ++ o).
  Proof.
    intros R. revert tr R. induction o as [|x o IH]; intros tr R C; [now rewrite app_nil_r|].
    change (x :: o) with ([x] ++ o). rewrite app_assoc. apply IH; [|intros b H; apply (C b); now right].
    intros a b rest E N. destruct (exists_last (l := WState b :: rest)) as (r & z & Er); [discriminate|]. rewrite Er, app_assoc in E.
    apply app_inj_tail in E as [Eo Ez]. subst z tr. destruct r as [|u r]; cbn in Er.
    - injection Er as E1 _. exfalso. apply (C b). left. now symmetry.
    - injection Er as E1 _. subst u. exact (R a b r eq_refl N).
  Qed.
  Lemma k_loop fuel : forall b tr, rounds tr -> (tr <> [] -> looked_at root (since_waking tr)) -> rounds (tr ++ fst (warthog_loop s fuel root b tr)).
  Proof.
    induction fuel as [|n IH]; intros b tr R L; [cbn; now rewrite app_nil_r|]. cbn [warthog_loop].
    unfold pbind at 1, ask. cbn [fst snd].
    set (tr1 := tr ++ [WState (wf_pending s tr)]).
    assert (R1 : rounds tr1).
    { intros a x rest E N. destruct (exists_last (l := WState x :: rest)) as (r & z & Er); [discriminate|]. unfold tr1 in E. rewrite Er, app_assoc in E.
      apply app_inj_tail in E as [Eo Ez]. destruct r as [|u r]; cbn in Er.
      - rewrite app_nil_r in Eo. subst a. now apply L.
      - injection Er as E1 _. subst u. exact (R a x r Eo N). }
    assert (S1 : since_waking tr1 = []) by (unfold tr1, since_waking; now rewrite fold_left_app).
    destruct (wf_pending s tr); cbn [negb]; [|cbn; exact R1].
    match goal with |- rounds (tr ++ fst (let '(o, r) := ?m tr1 in _)) => cut (rounds (tr1 ++ fst (m tr1))); [destruct (m tr1) as [oo rr]; cbn [fst snd]; unfold tr1; now rewrite <- app_assoc|] end.
    destruct (c_tend b tr1) as [C1 _]. unfold pbind at 1. destruct (tend_bucket s root b tr1) as [o1 [[r1 b1]|u| |]]; cbn [fst snd] in *; try (now apply rounds_calm).
    destruct r1; cbn [negb]; [|cbn; rewrite app_nil_r; now apply rounds_calm].
    unfold pbind at 1. destruct (e_scan b1 (tr1 ++ o1)) as [C2 Q2]. destruct (scan s root b1 (tr1 ++ o1)) as [o2 [[r2 b2]|u| |]]; cbn [fst snd] in *;
      try (apply rounds_calm; [exact R1|now apply calm_app]).
    destruct r2; cbn [negb]; [|cbn; rewrite app_nil_r; apply rounds_calm; [exact R1|now apply calm_app]].
    assert (C : calm (o1 ++ o2)) by now apply calm_app.
    assert (L2 : looked_at root (since_waking (tr1 ++ o1 ++ o2))).
    { rewrite since_calm by exact C. apply (looked_more root (since_waking tr1)), (looked_more root o1 o2). exact (Q2 _ eq_refl eq_refl). }
    pose proof (IH b2 (tr1 ++ o1 ++ o2) (rounds_calm tr1 (o1 ++ o2) R1 C) (fun _ => L2)) as H. rewrite <- (app_assoc tr1 o1 o2).
    destruct (warthog_loop s n root b2 (tr1 ++ o1 ++ o2)) as [o3 r3]. cbn [fst snd] in *. rewrite <- !app_assoc in H. exact H.
  Qed.
End S.

(** In every run on every filesystem: from one question whether to end to the next. *)
Theorem C161_fallback_looks_each_time : forall s fuel root a b rest,
  fst (warthog_watch s fuel root []) = a ++ WState b :: rest -> a <> [] -> looked_at root (since_waking a).
Proof.
  intros s fuel root a b rest E N. assert (R0 : rounds root []) by (intros [|] b' r X; discriminate X).
  exact (k_loop s root fuel [] [] R0 (fun H => False_ind _ (H eq_refl)) a b rest E N).
Qed.
Print Assumptions C161_fallback_looks_each_time.

(** In the run of C104's example: the last question, and what was asked since the one before. *)
Definition c161_run := fst (warthog_watch (hist (lit "/w") 5 c104_h) 9 (lit "/w") []).
Example C161_example : c161_run = removelast c161_run ++ [WState false] /\ Nat.ltb 40 (length (removelast c161_run)) = true /\
  firstn 2 (since_waking (removelast c161_run)) = [WIsDir (lit "/w") (Some true); WWalk (lit "/w") [lit "/w/a"; lit "/w/b"] false].
Proof. vm_compute. repeat split. Qed.

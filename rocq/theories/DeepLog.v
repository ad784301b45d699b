(** What the log of the kernel of [DeepSpec] says. *)
From Verif Require Import Base EventModel Sys InotifySpec KernelSpec InotifyFacts KernelFacts KernelRun KernelWatch DeepSpec DeepFacts DeepRun.

(** Induction over all states. *)
Section Always.
  Variables (e : denv) (P : dkern -> Prop).
  Hypothesis P_start : P (de_start e).
  Hypothesis P_happen : forall k o, P k -> P (dhappen (de_max e) k o).
  Hypothesis P_mark : forall d k p, P k -> P (snd (dmarking d k p)).
  Hypothesis P_read : forall m w k, P k -> P (snd (dreading m w k)).
  Lemma always_happens os : forall k, P k -> P (dhappens (de_max e) k os).
  Proof. induction os as [|o os IH]; intros k H; [exact H|]. cbn. apply IH, P_happen, H. Qed.
  Lemma always_effect tr x k : P k -> P (deffect e tr x k).
  Proof.
    intros H. destruct x; try exact H; cbn [deffect]; [|now apply P_read].
    unfold dadding. destruct (negb _); [exact H|]. destruct (dasks_all _); [now apply P_mark|exact H].
  Qed.
  Lemma always_state tr : P (dstate e tr).
  Proof. induction tr as [|x tr IH] using rev_ind; [exact P_start|]. rewrite dstate_snoc. apply always_effect, always_happens, IH. Qed.
  Lemma always_at tr : P (dat_call e tr).
  Proof. apply always_happens, always_state. Qed.
End Always.

(** ** Where notices come from *)
Lemma posts_notices max nt f l : forall q, In (nt, f) (snd (posts max q l)) -> nt = Gap \/ exists s, In s l /\ snd s = nt.
Proof.
  induction l as [|s l IH]; intros q; cbn [posts]; [intros []|]. destruct (post_cases max q s) as [(f0 & -> & _)|[->| ->]].
  - specialize (IH q). destruct (posts max q l) as [q2 fs]. cbn [snd app]. intros [[= <- <-]|H]; [right; exists s; split; [now left|reflexivity]|].
    destruct (IH H) as [H'|(s' & H1 & H2)]; [now left|right; exists s'; split; [now right|exact H2]].
  - specialize (IH (q ++ [s])). destruct (posts max (q ++ [s]) l) as [q2 fs]. cbn [snd app]. intros [[= <- <-]|H]; [right; exists s; split; [now left|reflexivity]|].
    destruct (IH H) as [H'|(s' & H1 & H2)]; [now left|right; exists s'; split; [now right|exact H2]].
  - specialize (IH (q ++ [overflow])). destruct (posts max (q ++ [overflow]) l) as [q2 fs]. cbn [snd app].
    intros [[= <- <-]|[[= <- <-]|H]]; [right; exists s; split; [now left|reflexivity]|now left|].
    destruct (IH H) as [H'|(s' & H1 & H2)]; [now left|right; exists s'; split; [now right|exact H2]].
Qed.
Lemma on_watch_what k p kd dir c n what s : In s (on_watch k p kd dir c n what) -> exists wd, wd_at k p = Some wd /\ snd s = what (watched_as k wd).
Proof. unfold on_watch. destruct (wd_at k p) as [wd|]; [|intros []]. intros [<-|[]]. eauto. Qed.
Lemma drecords_about k o s mv o' a d : In s (drecords k o) -> snd s = About mv o' a d ->
  o' = o /\ exists wd, wd_at k (place_of o a) = Some wd /\ d = watched_as k wd.
Proof.
  intros H E. destruct o as [dd p n|p n|p n|p n first|dd p n p' n']; cbn [drecords] in H.
  1-3: apply on_watch_what in H as (wd & W & H); rewrite E in H; injection H as _ -> -> ->; split; [reflexivity|exists wd; auto].
  - assert (H' : In s (on_watch k p KDelete true 0 n (About 0 (DRmdir p n first) false)) \/ snd s = Itself).
    { destruct first; rewrite !in_app_iff in H; destruct H as [H|H]; try destruct H as [H|H]; auto; right; now apply on_watch_what in H as (? & _ & H). }
    destruct H' as [H'|H']; [|congruence]. apply on_watch_what in H' as (wd & W & H'); rewrite E in H'; injection H' as _ -> -> ->; split; [reflexivity|exists wd; auto].
  - rewrite !in_app_iff in H. destruct H as [H|[H|H]].
    + apply on_watch_what in H as (wd & W & H). rewrite E in H. injection H as _ -> -> ->. split; [reflexivity|exists wd; auto].
    + apply on_watch_what in H as (wd & W & H). rewrite E in H. injection H as _ -> -> ->. split; [reflexivity|exists wd; auto].
    + destruct dd; [|destruct H]. apply on_watch_what in H as (? & _ & H). congruence.
Qed.

(** ** A notice is about its own change, in a directory asked for, where it was unless moved *)
Record log_ok (k : dkern) : Prop := {
  lo_good : kgood k;
  lo_place : forall p wd P, In (p, Some wd) (dk_dirs k) -> In (wd, P) (dk_given k) -> p = P \/ moved_away (dk_log k) P;
  lo_log : forall x o ns y, dk_log k = x ++ (o, ns) :: y -> forall mv o' a d f, In (About mv o' a d, f) ns ->
    o' = o /\ (d = place_of o a \/ moved_away x d) /\ exists wd, In (wd, d) (dk_given k) }.
Lemma moved_more l l' P : moved_away l P -> moved_away (l ++ l') P.
Proof. intros (q & n & q' & n' & ns & H & H'). exists q, n, q', n', ns. split; [apply in_app_iff; now left|exact H']. Qed.
Lemma log_ok_start D F : log_ok (dk_start D F).
Proof.
  constructor; [apply kgood_start| |].
  - intros p wd P H. exfalso. apply in_map_iff in H as (x & H & _). discriminate.
  - intros x o ns y E. destruct x; discriminate.
Qed.
Lemma log_ok_happen max k o : log_ok k -> log_ok (dhappen max k o).
Proof.
  intros [I1 I2 I3]. pose proof (kgood_happen max k o I1) as J. unfold dhappen in *. destruct (dlegal k o); [|constructor; assumption].
  pose proof (fun nt f => posts_notices max nt f (drecords k o) (dk_queue k)) as Hf.
  destruct (posts max (dk_queue k) (drecords k o)) as [q f]. cbn [snd] in Hf. constructor; [exact J|..]; cbn [dk_dirs dk_given dk_log].
  - intros p wd P H HG. destruct o as [[|] q0 n|q0 n|q0 n|q0 n b|[|] q0 n q' n']; cbn [ddirs_after] in H.
    + apply in_app_iff in H as [H|[[=]|[]]]. destruct (I2 _ _ _ H HG); auto using moved_more.
    + destruct (I2 _ _ _ H HG); auto using moved_more.
    + destruct (I2 _ _ _ H HG); auto using moved_more.
    + destruct (I2 _ _ _ H HG); auto using moved_more.
    + apply filter_In in H as [H _]. destruct (I2 _ _ _ H HG); auto using moved_more.
    + apply in_map_iff in H as ([p0 w0] & [= <- ->] & H). destruct (I2 _ _ _ H HG) as [->|M]; [|right; now apply moved_more].
      unfold renamed. destruct (at_or_below (entry q0 n) P) eqn:B; [|now left]. right. exists q0, n, q', n', f. split; [apply in_app_iff; right; now left|exact B].
    + destruct (I2 _ _ _ H HG); auto using moved_more.
  - intros x o0 ns y E mv o' a d f0 Hin.
    apply app_cons_split in E as [(y' & E & _)|(x' & -> & E)]; [now apply (I3 x o0 ns y' E mv o' a d f0)|].
    destruct x' as [|? [|]]; try discriminate. injection E as <- <- <-. rewrite app_nil_r.
    destruct (Hf _ _ Hin) as [H|(s & H1 & H2)]; [discriminate|]. destruct (drecords_about _ _ _ _ _ _ _ H1 H2) as (-> & wd & W & ->). split; [reflexivity|].
    apply wd_at_in in W. pose proof (di_watch _ _ _ _ _ (kg_inv _ I1) _ _ W) as HP. apply watched_as_in in HP. split; [|eauto].
    destruct (I2 _ _ _ W HP) as [<-|M]; auto.
Qed.
Lemma log_ok_mark d k p : log_ok k -> log_ok (snd (dmarking d k p)).
Proof.
  intros [I1 I2 I3]. pose proof (kgood_marking d k p I1) as J. unfold dmarking in *. destruct (negb d && dir_at k p); [|constructor; assumption].
  destruct (wd_at k p) eqn:Hw; [constructor; assumption|]. destruct (dk_next k <? 2147483648)%Z eqn:L; [|constructor; assumption].
  constructor; [exact J|..]; cbn [snd dk_dirs dk_given dk_log].
  - intros q wd P H HG. apply in_map_iff in H as ([q0 w0] & H & H'). cbn in H. destruct (text_eqb q0 p) eqn:E.
    + apply text_eqb_eq in E. injection H as <- <-. subst q0. apply in_app_iff in HG as [HG|[[= <-]|[]]]; [|now left].
      apply (di_range _ _ _ _ _ (kg_inv _ I1)) in HG. lia.
    + injection H as -> ->. apply in_app_iff in HG as [HG|[[= <- <-]|[]]]; [eauto|]. apply (di_watch _ _ _ _ _ (kg_inv _ I1)) in H' as (P & H'). apply (di_range _ _ _ _ _ (kg_inv _ I1)) in H'. lia.
  - intros x o ns y E mv o' a dd f Hin. destruct (I3 x o ns y E mv o' a dd f Hin) as (H1 & H2 & wd & H3). split; [exact H1|]. split; [exact H2|]. exists wd. apply in_app_iff. now left.
Qed.
Lemma log_ok_read m w k : log_ok k -> log_ok (snd (dreading m w k)).
Proof.
  intros [I1 I2 I3]. pose proof (kgood_reading m w k I1) as J. unfold dreading in *. destruct (dk_queue k); [constructor; assumption|]. destruct (negb m); constructor; assumption.
Qed.

(** ** The log grows; a loss leaves an overflow record in the queue *)
Definition more (k k' : dkern) : Prop := exists l, dk_log k' = dk_log k ++ l.
Lemma more_refl k : more k k. Proof. exists []. now rewrite app_nil_r. Qed.
Lemma more_trans a b c : more a b -> more b c -> more a c.
Proof. intros (l & E) (l' & E'). exists (l ++ l'). now rewrite E', E, app_assoc. Qed.
Lemma more_happen max k o : more k (dhappen max k o).
Proof. unfold dhappen. destruct (dlegal k o); [|apply more_refl]. destruct (posts _ _ _) as [q f]. exists [(o, f)]. reflexivity. Qed.
Lemma more_happens max os : forall k, more k (dhappens max k os).
Proof. induction os as [|o os IH]; intros k; [apply more_refl|]. cbn. eapply more_trans; [apply more_happen|apply IH]. Qed.
Lemma same_log_mark d k p : dk_log (snd (dmarking d k p)) = dk_log k.
Proof. unfold dmarking. destruct (_ && _); [|reflexivity]. destruct (wd_at k p); [reflexivity|]. now destruct (_ <? _)%Z. Qed.
Lemma same_log_read m w k : dk_log (snd (dreading m w k)) = dk_log k.
Proof. unfold dreading. destruct (dk_queue k); [reflexivity|]. now destruct (negb m). Qed.
Lemma same_log_effect e tr x k : dk_log (deffect e tr x k) = dk_log k.
Proof.
  destruct x; try reflexivity; cbn [deffect]; [|apply same_log_read]. unfold dadding. destruct (negb _); [reflexivity|]. destruct (dasks_all _); [apply same_log_mark|reflexivity].
Qed.
Lemma more_state e o : forall tr, more (dstate e tr) (dstate e (tr ++ o)).
Proof.
  induction o as [|x o IH] using rev_ind; intros tr; [rewrite app_nil_r; apply more_refl|]. rewrite app_assoc, dstate_snoc.
  eapply more_trans; [apply IH|]. eapply more_trans; [apply (more_happens (de_max e) (de_ops e (tr ++ o)))|]. exists []. rewrite same_log_effect, app_nil_r. reflexivity.
Qed.
Lemma more_at e a x b : more (dat_call e a) (dstate e (a ++ x :: b)).
Proof.
  replace (a ++ x :: b) with ((a ++ [x]) ++ b) by (rewrite <- app_assoc; reflexivity). eapply more_trans; [|apply more_state]. rewrite dstate_snoc. exists []. now rewrite same_log_effect, app_nil_r.
Qed.
Lemma due_more k k' : more k k' -> exists l, due k' = due k ++ l.
Proof. intros (l & E). unfold due, recorded. rewrite E, flat_map_app, filter_app, map_app. eauto. Qed.

Definition flooded (q : list sent) : bool := existsb (fun x => overflows (fst x)) q.
Lemma flooded_app q q' : flooded q = true -> flooded (q ++ q') = true.
Proof. unfold flooded. rewrite !existsb_exists. intros (x & H & H'). exists x. split; [apply in_app_iff; now left|exact H']. Qed.
Lemma posts_flood max l : forall q, let '(q', f) := posts max q l in
  (exists t, q' = q ++ t) /\ (existsb is_lost f = true -> flooded q' = true).
Proof.
  induction l as [|s l IH]; intros q; cbn [posts]; [split; [exists []; now rewrite app_nil_r|discriminate]|].
  assert (Step : forall q1 f, (exists t, q1 = q ++ t) -> (existsb is_lost f = true -> flooded q1 = true) ->
    let '(q', f') := (let '(q2, fs) := posts max q1 l in (q2, f ++ fs)) in (exists t, q' = q ++ t) /\ (existsb is_lost f' = true -> flooded q' = true)).
  { intros q1 f (t1 & ->) Hf. specialize (IH (q ++ t1)). destruct (posts max (q ++ t1) l) as [q2 fs]. destruct IH as [(t & ->) IH]. split.
    - exists (t1 ++ t). now rewrite app_assoc.
    - rewrite existsb_app. intros H. apply orb_true_iff in H as [H|H]; [apply flooded_app; auto|auto]. }
  unfold post. destruct (max <=? length q)%nat.
  - destruct (existsb (fun x => overflows (fst x)) q) eqn:X; [apply (Step q [(snd s, Lost)]); [exists []; now rewrite app_nil_r|intros _; exact X]|].
    apply (Step (q ++ [overflow]) [(snd s, Lost); (Gap, Queued)]); [eauto|]. intros _. unfold flooded. apply existsb_exists. exists overflow. split; [apply in_app_iff; right; now left|reflexivity].
  - destruct (rev q); [apply (Step (q ++ [s]) [(snd s, Queued)]); [eauto|discriminate]|].
    destruct (_ && _); [apply (Step q [(snd s, Joined)]); [exists []; now rewrite app_nil_r|discriminate]|apply (Step (q ++ [s]) [(snd s, Queued)]); [eauto|discriminate]].
Qed.
Lemma losses_flood max os : forall k, (exists t, dk_queue (dhappens max k os) = dk_queue k ++ t) /\ (losses (dhappens max k os) <> losses k -> flooded (dk_queue (dhappens max k os)) = true).
Proof.
  induction os as [|o os IH]; intros k; [split; [exists []; now rewrite app_nil_r|intros H; now destruct H]|]. cbn.
  change (fold_left (dhappen max) os (dhappen max k o)) with (dhappens max (dhappen max k o) os). destruct (IH (dhappen max k o)) as [(t & Et) H].
  assert (St : (exists t, dk_queue (dhappen max k o) = dk_queue k ++ t) /\ (losses (dhappen max k o) <> losses k -> flooded (dk_queue (dhappen max k o)) = true)).
  { unfold dhappen. destruct (dlegal k o); [|split; [exists []; now rewrite app_nil_r|congruence]]. pose proof (posts_flood max (drecords k o) (dk_queue k)) as Hp.
    destruct (posts max (dk_queue k) (drecords k o)) as [q f]. destruct Hp as [Hp1 Hp2]. cbn [dk_queue]. split; [exact Hp1|]. intros Hl. apply Hp2.
    destruct (existsb is_lost f) eqn:X; [reflexivity|]. exfalso. apply Hl. unfold losses, recorded. cbn [dk_log]. rewrite flat_map_app, filter_app, app_length. cbn [flat_map snd]. rewrite app_nil_r.
    replace (filter is_lost f) with (@nil (notice * fate)); [cbn; lia|]. clear -X. induction f as [|z f IH]; [reflexivity|]. cbn in *. apply orb_false_iff in X as [-> X]. auto. }
  destruct St as [(t1 & E1) H1]. split; [exists (t1 ++ t); rewrite Et, E1, app_assoc; reflexivity|].
  intros Hl. destruct (Nat.eq_dec (losses (dhappen max k o)) (losses k)) as [En|Hn]; [apply H; congruence|]. rewrite Et. apply flooded_app. now apply H1.
Qed.
Lemma flooded_gap k : kgood k -> flooded (dk_queue k) = true -> In Gap (map snd (dk_queue k)).
Proof.
  intros I H. unfold flooded in H. apply existsb_exists in H as (x & Hx & Hk). pose proof (di_fits _ _ _ _ _ (kg_inv _ I)) as F. unfold everything in F. apply Forall_app in F as [_ F].
  rewrite Forall_forall in F. specialize (F x Hx). apply in_map_iff. exists x. split; [|exact Hx]. unfold fits, overflows in *.
  destruct (snd x) as [mv o a d| |]; [|destruct F as (F1 & F2 & _); destruct (k_kind (fst x)); congruence|reflexivity]. destruct F as (_ & _ & F & _). destruct (k_kind (fst x)); discriminate.
Qed.
Lemma told_gap ns l : told_of ns l -> In Gap ns -> In lost_warning l.
Proof.
  induction 1; intros H'; [destruct H'|..]; try (destruct H' as [H'|H']; [discriminate|]); auto; try (right; now auto).
  - destruct H' as [H'|H']; [discriminate|right; auto].
  - destruct H' as [H'|H']; [now left|right; auto].
Qed.

(** ** What becomes of a record *)
Lemma posts_joined max nt l : forall q, In (nt, Joined) (snd (posts max q l)) ->
  exists s l0, In s l /\ snd s = nt /\ In l0 (fst (posts max q l)) /\ fst l0 = fst s /\ is_modify (fst s) = true.
Proof.
  induction l as [|s l IH]; intros q; cbn [posts]; [intros []|].
  assert (Step : forall q1 f, post max q s = (q1, f) ->
     (exists t, q1 = q ++ t) /\ (In (nt, Joined) f -> snd s = nt /\ is_modify (fst s) = true /\ exists l0, In l0 q1 /\ fst l0 = fst s)).
  { intros q1 f. unfold post. destruct (max <=? length q)%nat.
    - destruct (existsb (fun x => overflows (fst x)) q); intros [= <- <-]; (split; [first [exists []; now rewrite app_nil_r|eauto]|]); intros H; repeat (destruct H as [H|H]; [discriminate|]); destruct H.
    - destruct (rev q) as [|l0 r] eqn:R; [intros [= <- <-]; split; [eauto|]; intros [H|[]]; discriminate|].
      destruct (same_rec (fst l0) (fst s) && is_modify (fst s)) eqn:X; intros [= <- <-]; [|split; [eauto|]; intros [H|[]]; discriminate].
      split; [exists []; now rewrite app_nil_r|]. intros [[= <-]|[]]. apply andb_true_iff in X as [X1 X2]. apply same_rec_eq in X1. split; [reflexivity|]. split; [exact X2|].
      exists l0. split; [|exact X1]. apply in_rev. rewrite R. now left. }
  destruct (post max q s) as [q1 f]. destruct (Step q1 f eq_refl) as [_ H2]. specialize (IH q1). pose proof (posts_flood max l q1) as Hp. destruct (posts max q1 l) as [q2 fs].
  destruct Hp as [(t & ->) _]. cbn [fst snd] in *. intros H. apply in_app_iff in H as [H|H].
  - destruct (H2 H) as (E & M & l0 & Hl & El). exists s, l0. split; [now left|]. split; [exact E|]. split; [apply in_app_iff; now left|auto].
  - destruct (IH H) as (s0 & l0 & A & B & C & C'). exists s0, l0. split; [now right|]. split; [exact B|]. split; [exact C|exact C'].
Qed.
Lemma posts_lost max nt l q : In (nt, Lost) (snd (posts max q l)) -> flooded (fst (posts max q l)) = true.
Proof.
  intros H. pose proof (posts_flood max l q) as P. destruct (posts max q l) as [q' f]. destruct P as [_ P]. apply P. apply existsb_exists. exists (nt, Lost). auto.
Qed.
Lemma modify_rec k o s : In s (drecords k o) -> is_modify (fst s) = true -> exists wd p n, wd_at k p = Some wd /\ o = DWrite p n /\ s = (rec_of wd KModify false 0 n, About 0 o false (watched_as k wd)).
Proof.
  intros H M.
  assert (X : forall p kd dir c n what, In s (on_watch k p kd dir c n what) -> kd = KModify /\ exists wd, wd_at k p = Some wd /\ s = (rec_of wd kd dir c n, what (watched_as k wd))).
  { intros p kd dir c n what Hs. unfold on_watch in Hs. destruct (wd_at k p) as [wd|]; [|destruct Hs]. destruct Hs as [<-|[]]. cbn in M. destruct kd; try discriminate. split; [reflexivity|eauto]. }
  destruct o as [d p n|p n|p n|p n b|d p n p' n']; cbn [drecords] in H.
  - apply X in H as [H _]; discriminate.
  - apply X in H as [_ (wd & W & ->)]. exists wd, p, n. auto.
  - apply X in H as [H _]; discriminate.
  - destruct b; rewrite !in_app_iff in H; destruct H as [H|H]; try destruct H as [H|H]; apply X in H as [H _]; discriminate.
  - rewrite !in_app_iff in H; destruct H as [H|[H|H]]; [apply X in H as [H _]; discriminate..|]. destruct d; [|destruct H]. apply X in H as [H _]; discriminate.
Qed.
Definition fate_ok (k : dkern) (n : notice) (f : fate) : Prop :=
  match f with
  | Queued => In n (due k)
  | Joined => match n with About _ c a d => exists mv' o' a', In (About mv' o' a' d) (due k) /\ alone o' a' d = alone c a d /\ effect_told o' = EtModify | _ => True end
  | Lost => In Gap (due k)
  end.
Definition fates_ok (k : dkern) : Prop := kgood k /\ forall n f, In (n, f) (recorded k) -> fate_ok k n f.
Lemma fate_more k k' n f : more k k' -> fate_ok k n f -> fate_ok k' n f.
Proof.
  intros M. destruct (due_more _ _ M) as (l & E). unfold fate_ok. rewrite E. destruct f; [intros; apply in_app_iff; now left| |intros; apply in_app_iff; now left].
  destruct n; auto. intros (mv' & o' & a' & H & H'). exists mv', o', a'. split; [apply in_app_iff; now left|exact H'].
Qed.
Lemma in_due k s : kgood k -> In s (dk_queue k) -> In (snd s) (due k).
Proof. intros I H. rewrite <- (kg_due _ I). apply in_map. apply in_app_iff. now right. Qed.
Lemma fates_happen max k o : fates_ok k -> fates_ok (dhappen max k o).
Proof.
  intros [I F]. pose proof (kgood_happen max k o I) as J. split; [exact J|]. pose proof (more_happen max k o) as M. unfold dhappen in *. destruct (dlegal k o); [|exact F].
  pose proof (fun nt => posts_joined max nt (drecords k o) (dk_queue k)) as Hj. pose proof (fun nt => posts_lost max nt (drecords k o) (dk_queue k)) as Hl.
  destruct (posts max (dk_queue k) (drecords k o)) as [q f]. cbn [fst snd] in *. set (k' := DK _ _ _ _ _ _ _ _) in *.
  intros n f0 H. unfold recorded in H. cbn [dk_log k'] in H. rewrite flat_map_app in H. apply in_app_iff in H as [H|H]; [apply (fate_more k); auto|].
  cbn in H. rewrite app_nil_r in H. destruct f0; cbn [fate_ok].
  - unfold due, recorded. apply in_map_iff. exists (n, Queued). split; [reflexivity|]. apply filter_In. split; [|reflexivity]. cbn [dk_log k']. rewrite flat_map_app. apply in_app_iff. right. cbn. now rewrite app_nil_r.
  - destruct (Hj _ H) as (s & l0 & Hs & <- & Hl0 & El & Hm). destruct (modify_rec _ _ _ Hs Hm) as (wd & p & nm & W & -> & ->). cbn [fst snd] in *.
    pose proof (di_fits _ _ _ _ _ (kg_inv _ J)) as Ft. rewrite Forall_forall in Ft. assert (Fl : fits (dk_given k') l0) by (apply Ft; unfold everything; apply in_app_iff; now right).
    pose proof (in_due k' l0 J Hl0) as Hd. unfold fits in Fl. rewrite El in Fl. destruct (snd l0) as [mv' o' a' d'| |]; [|destruct Fl as (Fl & _); discriminate|destruct Fl as (Fl & _); discriminate].
    destruct Fl as (F1 & F2 & F3 & F4 & _). cbn in F1, F2, F3, F4. injection F3 as F3.
    assert (d' = watched_as k wd) as ->.
    { apply (di_fun _ _ _ _ _ (kg_inv _ I) wd); [exact F1|]. apply watched_as_in. eauto. }
    exists mv', o', a'. split; [exact Hd|]. split; [|now symmetry]. unfold alone. cbn [name_of effect_told type_told]. rewrite <- F2, <- F3, <- F4. reflexivity.
  - specialize (Hl _ H). apply (flooded_gap k' J) in Hl. apply in_map_iff in Hl as (x & <- & Hx). now apply (in_due k' x J).
Qed.
Lemma fates_mark d k p : fates_ok k -> fates_ok (snd (dmarking d k p)).
Proof.
  intros [I F]. split; [now apply kgood_marking|]. unfold recorded, fate_ok, due, recorded in *. rewrite same_log_mark. exact F.
Qed.
Lemma fates_read m w k : fates_ok k -> fates_ok (snd (dreading m w k)).
Proof. intros [I F]. split; [now apply kgood_reading|]. unfold recorded, fate_ok, due, recorded in *. rewrite same_log_read. exact F. Qed.
Lemma fates_start D F : fates_ok (dk_start D F).
Proof. split; [apply kgood_start|]. intros n f []. Qed.

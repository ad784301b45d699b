(** Times: from the dating of events to their order. *)
From Coq Require Import Sorted.
From Verif Require Import Base EventModel TimeSpec.

Lemma quiet_nil : quiet [].
Proof. intros e []. Qed.
Lemma quiet_app a b : quiet a -> quiet b -> quiet (a ++ b).
Proof. intros Ha Hb e H. apply in_app_iff in H as [H|H]; auto. Qed.
Lemma dated_nil : dated [].
Proof. intros [|x a] e b H; discriminate. Qed.
Lemma dated_in_more e a b : dated_in e b -> dated_in e (a ++ b).
Proof.
  intros (x & y & -> & Q & A). exists (a ++ x), y. split; [now rewrite app_assoc|]. split; [exact Q|].
  intros z Hz. destruct (A z Hz) as (c & d & -> & Qd). exists (a ++ c), d. split; [now rewrite app_assoc|exact Qd].
Qed.
Lemma dated_app a b : dated a -> dated b -> dated (a ++ b).
Proof.
  intros Ha Hb x e y E. apply app_eq_app in E as (l & [[-> E]|[-> E]]).
  - destruct l as [|z l]; cbn in E.
    + symmetry in E. rewrite app_nil_r in *. assert (H : dated_in e []) by now apply (Hb [] e y). destruct H as (u & v & F & _). now destruct u.
    + injection E as <- ->. now apply (Ha x e l).
  - apply dated_in_more. now apply (Hb l e y).
Qed.
(** A part that tells nothing, and one that tells one event after its dating. *)
Lemma dated_silent l : (forall e, ~ In (Told e) l) -> dated l.
Proof. intros H a e b ->. exfalso. apply (H e). apply in_elt. Qed.
Lemma dated_in_quiet e l m : dated_in e l -> quiet m -> dated_in e (l ++ m).
Proof.
  intros (a & b & -> & Q & A) Hm. exists a, (b ++ m). split; [now rewrite <- app_assoc|]. split; [now apply quiet_app|exact A].
Qed.
Lemma dated_snoc l e : dated l -> dated_in e l -> dated (l ++ [Told e]).
Proof.
  intros H D a x b E. destruct b as [|y b] using rev_ind.
  - apply app_inj_tail in E as [-> [= ->]]. exact D.
  - rewrite app_comm_cons, app_assoc in E. apply app_inj_tail in E as [-> _]. now apply (H a x b).
Qed.

Lemma readings_app a b : readings (a ++ b) = readings a ++ readings b.
Proof. induction a as [|[] a IH]; cbn; congruence. Qed.
Lemma file_times_in l : forall a x b y c, file_times l = a ++ x :: b ++ y :: c ->
  exists l1 e1 l2 e2 l3, l = l1 ++ Told e1 :: l2 ++ Told e2 :: l3 /\ about_files e1 /\ about_files e2 /\ ev_time e1 = x /\ ev_time e2 = y.
Proof.
  assert (K1 : forall l b y c, file_times l = b ++ y :: c -> exists l2 e2 l3, l = l2 ++ Told e2 :: l3 /\ about_files e2 /\ ev_time e2 = y).
  { clear l. induction l as [|[t|e] l IH]; intros b y c E; cbn in E; [now destruct b| |].
    - destruct (IH _ _ _ E) as (l2 & e2 & l3 & -> & H). now exists (Read t :: l2), e2, l3.
    - assert (G : forall k, file_times l = k ++ y :: c -> exists l2 e2 l3, Told e :: l = l2 ++ Told e2 :: l3 /\ about_files e2 /\ ev_time e2 = y).
      { intros k F. destruct (IH _ _ _ F) as (l2 & e2 & l3 & -> & H). now exists (Told e :: l2), e2, l3. }
      destruct (ev_ptype e) eqn:P; try (now apply (G b)); (destruct b as [|z b]; cbn in E; injection E as E1 E2; [|now apply (G b)]);
        exists [], e, l; unfold about_files; rewrite P; now repeat split. }
  induction l as [|[t|e] l IH]; intros a x b y c E; cbn in E; [now destruct a| |].
  - destruct (IH _ _ _ _ _ E) as (l1 & e1 & l2 & e2 & l3 & -> & H). now exists (Read t :: l1), e1, l2, e2, l3.
  - assert (G : forall k, file_times l = k ++ x :: b ++ y :: c ->
      exists l1 e1 l2 e2 l3, Told e :: l = l1 ++ Told e1 :: l2 ++ Told e2 :: l3 /\ about_files e1 /\ about_files e2 /\ ev_time e1 = x /\ ev_time e2 = y).
    { intros k F. destruct (IH _ _ _ _ _ F) as (l1 & e1 & l2 & e2 & l3 & -> & H). now exists (Told e :: l1), e1, l2, e2, l3. }
    destruct (ev_ptype e) eqn:P; try (now apply (G a)); (destruct a as [|z a]; cbn in E; injection E as E1 E2; [|now apply (G a)]);
      destruct (K1 _ _ _ _ E2) as (l2 & e2 & l3 & -> & H1 & H2); exists [], e, l2, e2, l3; (split; [reflexivity|]);
      (split; [unfold about_files; now rewrite P|]); now repeat split.
Qed.

(** With a clock that does not go back, filesystem events come in the order of
    their times. *)
Lemma dated_order l : dated l -> never_back (readings l) -> never_back (file_times l).
Proof.
  intros D B a x b y c E. destruct (file_times_in _ _ _ _ _ _ E) as (l1 & e1 & l2 & e2 & l3 & -> & F1 & F2 & <- & <-).
  destruct (D l1 e1 (l2 ++ Told e2 :: l3) eq_refl) as (a1 & b1 & -> & _ & _).
  destruct (D ((a1 ++ Read (ev_time e1) :: b1) ++ Told e1 :: l2) e2 l3) as (a2 & b2 & E2 & Q & _).
  { rewrite <- !app_assoc. cbn. now rewrite <- ?app_assoc. }
  apply app_eq_app in E2 as (m & [[E3 E4]|[E3 E4]]).
  - exfalso. destruct m as [|z m].
    + discriminate E4.
    + cbn in E4. injection E4 as <- E4. apply (Q e1); [|exact F1]. rewrite E4. apply in_app_iff. right. now left.
  - destruct m as [|z m]; [discriminate E4|]. cbn in E4. injection E4 as <- E4. subst l2.
    rewrite !readings_app in B. cbn [readings] in B. rewrite !readings_app in B. cbn [readings] in B. rewrite <- !app_assoc in B. cbn [app] in B.
    apply (B (readings a1) _ (readings b1 ++ readings m) _ (readings b2 ++ readings l3)). rewrite <- !app_assoc. cbn. now rewrite ?readings_app.
Qed.

Lemma never_back_sorted l : StronglySorted Z.le l -> never_back l.
Proof.
  intros H a x b y c ->. induction a as [|z a IH]; cbn in H; inversion H as [|? ? S F]; subst.
  - rewrite Forall_forall in F. apply F. apply in_app_iff. right. now left.
  - now apply IH.
Qed.

(** Computations that leave observations, over any kind of observation: the
    same as in Sys, for the platforms other than Linux.  No code of /repo is
    modelled here. *)
From Verif Require Import Base.

Section Mon.
  Context {O : Type}.
  Definition pm (A : Type) := list O -> list O * out A.
  Definition pret {A} (a : A) : pm A := fun _ => ([], Ok a).
  Definition pundef {A} (u : ub) : pm A := fun _ => ([], Undef u).
  Definition pcrash {A} : pm A := fun _ => ([], Crash).
  Definition pfuel {A} : pm A := fun _ => ([], Fuel).
  Definition pbind {A B} (m : pm A) (k : A -> pm B) : pm B :=
    fun tr =>
      let (o1, r1) := m tr in
      match r1 with
      | Ok a => let (o2, r2) := k a (tr ++ o1) in (o1 ++ o2, r2)
      | Undef u => (o1, Undef u)
      | Crash => (o1, Crash)
      | Fuel => (o1, Fuel)
      end.
  (** One observation with its answer; an action without answer. *)
  Definition ask {A} (f : list O -> A) (ob : A -> O) : pm A := fun tr => let a := f tr in ([ob a], Ok a).
  Definition emit (ob : O) : pm unit := fun _ => ([ob], Ok tt).

  Lemma pbind_inv {A B} (m : pm A) (k : A -> pm B) tr o r :
    pbind m k tr = (o, r) ->
    (exists o1 a o2, m tr = (o1, Ok a) /\ k a (tr ++ o1) = (o2, r) /\ o = o1 ++ o2) \/
    (exists u, m tr = (o, Undef u) /\ r = Undef u) \/
    (m tr = (o, Crash) /\ r = Crash) \/
    (m tr = (o, Fuel) /\ r = Fuel).
  Proof.
    unfold pbind. destruct (m tr) as [o1 r1]. destruct r1 as [a|u| |]; cbn.
    - destruct (k a (tr ++ o1)) as [o2 r2] eqn:E. intros [= <- <-]. left. eauto 6.
    - intros [= <- <-]. right. left. eauto.
    - intros [= <- <-]. auto.
    - intros [= <- <-]. auto.
  Qed.
  Lemma pbind_ok {A B} (m : pm A) (k : A -> pm B) tr o1 a o2 r2 :
    m tr = (o1, Ok a) -> k a (tr ++ o1) = (o2, r2) -> pbind m k tr = (o1 ++ o2, r2).
  Proof. unfold pbind. intros -> ->. reflexivity. Qed.
  Lemma pbind_ret {A B} (a : A) (k : A -> pm B) tr : pbind (pret a) k tr = k a tr.
  Proof. unfold pbind, pret. rewrite app_nil_r. now destruct (k a tr). Qed.
  Lemma pbind_assoc {A B C} (m : pm A) (k : A -> pm B) (h : B -> pm C) tr :
    pbind (pbind m k) h tr = pbind m (fun a => pbind (k a) h) tr.
  Proof.
    unfold pbind. destruct (m tr) as [o1 [a|u| |]]; try reflexivity.
    destruct (k a (tr ++ o1)) as [o2 [b|u| |]]; try reflexivity.
    rewrite app_assoc. destruct (h b ((tr ++ o1) ++ o2)) as [o3 r]. now rewrite app_assoc.
  Qed.

  (** What holds of the observations a computation adds, whatever the outcome. *)
  Definition adds {A} (P : list O -> Prop) (m : pm A) : Prop := forall tr, P (fst (m tr)).
  Lemma adds_ret {A} (P : list O -> Prop) (a : A) : P [] -> adds P (pret a).
  Proof. intros H tr. exact H. Qed.
  Lemma adds_bind {A B} (P : list O -> Prop) (m : pm A) (k : A -> pm B) :
    (forall a b, P a -> P b -> P (a ++ b)) -> adds P m -> (forall a, adds P (k a)) -> adds P (pbind m k).
  Proof.
    intros Happ Hm Hk tr. unfold pbind. specialize (Hm tr). destruct (m tr) as [o1 [a|u| |]]; try exact Hm.
    cbn in Hm. specialize (Hk a (tr ++ o1)). destruct (k a (tr ++ o1)) as [o2 r2]. cbn in *. auto.
  Qed.
  Lemma adds_all_bind {A B} (Q : O -> Prop) (m : pm A) (k : A -> pm B) :
    adds (Forall Q) m -> (forall a, adds (Forall Q) (k a)) -> adds (Forall Q) (pbind m k).
  Proof. apply adds_bind. intros a b Ha Hb. now apply Forall_app. Qed.
  Lemma adds_all_ret {A} (Q : O -> Prop) (a : A) : adds (Forall Q) (pret a).
  Proof. apply adds_ret. constructor. Qed.
  Lemma adds_all_stop {A} (Q : O -> Prop) r : adds (Forall Q) (fun _ => ([], r) : list O * out A).
  Proof. intros tr. constructor. Qed.
  Lemma adds_all_ask {A} (Q : O -> Prop) (f : list O -> A) ob : (forall a, Q (ob a)) -> adds (Forall Q) (ask f ob).
  Proof. intros H tr. constructor; [apply H|constructor]. Qed.
  Lemma adds_all_emit (Q : O -> Prop) ob : Q ob -> adds (Forall Q) (emit ob).
  Proof. intros H tr. constructor; [exact H|constructor]. Qed.
End Mon.
Arguments pm O A : clear implicits.

Notation "x <- m ;; k" := (pbind m (fun x => k)) (at level 60, m at level 55, right associativity).
Notation "' p <- m ;; k" := (pbind m (fun x => match x with p => k end))
  (at level 60, p pattern, m at level 55, right associativity).
Notation "m ;;; k" := (pbind m (fun _ => k)) (at level 60, right associativity).

(** Maps keyed by text ([std::unordered_map<std::string, T>]). *)
Definition tmap (A : Type) := list (text * A).
Fixpoint tfind {A} (k : text) (m : tmap A) : option A :=
  match m with [] => None | (j, a) :: m' => if text_eqb k j then Some a else tfind k m' end.
Definition terase {A} (k : text) (m : tmap A) : tmap A := filter (fun e => negb (text_eqb k (fst e))) m.
(** [m[k] = a]. *)
Definition tset {A} (k : text) (a : A) (m : tmap A) : tmap A := (k, a) :: terase k m.

Lemma tfind_terase {A} k j (m : tmap A) : tfind k (terase j m) = if text_eqb k j then None else tfind k m.
Proof.
  unfold terase. induction m as [|[i a] m IH]; cbn [filter tfind fst]; [now destruct (text_eqb k j)|].
  destruct (text_eqb j i) eqn:E; cbn [negb tfind].
  - apply text_eqb_eq in E as ->. rewrite IH. destruct (text_eqb k i); reflexivity.
  - rewrite IH. destruct (text_eqb k i) eqn:E1; [|reflexivity]. apply text_eqb_eq in E1 as ->.
    destruct (text_eqb i j) eqn:E2; [|reflexivity]. apply text_eqb_eq in E2 as ->. rewrite text_eqb_refl in E. discriminate.
Qed.
Lemma tfind_tset {A} k j (a : A) m : tfind k (tset j a m) = if text_eqb k j then Some a else tfind k m.
Proof. unfold tset. cbn [tfind]. destruct (text_eqb k j) eqn:E; [reflexivity|]. now rewrite tfind_terase, E. Qed.

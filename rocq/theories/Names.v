(** Facts for C144 and C147: a property of texts that every directory, every name and
    their joining has is one of every path in the changes that are owed. *)
From Verif Require Import Base EventModel InotifySpec KernelSpec KernelFacts KernelRun.
From Verif Require Import WatchFacts.

Definition names_of (o : op) : list text :=
  match o with
  | Make _ _ n | Write _ n | Remove _ n | RemoveDir _ n _ | MoveOut _ n | MoveIn _ _ n => [n]
  | Rename _ n n' => [n; n']
  end.
Lemma has_in p l : has p l = true -> In p l.
Proof. unfold has. intros H. apply existsb_exists in H as (q & Hq & E). apply text_eqb_eq in E. now subst. Qed.
Section Names.
  Variable good : text -> Prop.
  Hypothesis good_entry : forall p n, good p -> good n -> good (InotifySpec.entry p n).
  Fixpoint good_shape (s : InotifySpec.shape) : Prop :=
    match s with Sh p _ _ a => good p /\ match a with Some b => good_shape b | None => True end end.
  Variable e : env.
  Hypothesis names : forall tr o, In o (e_ops e tr) -> Forall good (names_of o).
  Record qinv (k : kern) : Prop := {
    qi_dirs : Forall good (kn_dirs k);
    qi_log : Forall (fun c => good_shape (change (fst c))) (kn_log k) }.
  Hypothesis start : qinv (e_start e).
  Lemma qinv_happen k o : qinv k -> Forall good (names_of o) -> qinv (happen k o).
  Proof.
    intros [A B] N. unfold happen. destruct (legal k o) eqn:L; [|now split].
    assert (P2 : good_shape (change o)).
    { rewrite Forall_forall in A.
      destruct o; cbn [legal change names_of good_shape] in *; rewrite !andb_true_iff in L;
        (assert (Hp : good p) by (apply A, has_in; tauto)); apply Forall_cons_iff in N as [N1 N2].
      1-4, 6-7: split; [apply good_entry; assumption|exact Coq.Init.Logic.I].
      apply Forall_cons_iff in N2 as [N2 _]. split; [|split; [|exact Coq.Init.Logic.I]]; apply good_entry; assumption. }
    constructor; cbn [kn_dirs kn_log].
    - destruct o as [[|]| | | | | |[|]]; cbn [dirs_after]; try exact A.
      + apply Forall_app. split; [exact A|]. constructor; [|constructor]. exact (proj1 P2).
      + unfold without. rewrite Forall_forall in *. intros q Hq. apply filter_In in Hq as [Hq _]. now apply A.
      + apply Forall_app. split; [exact A|]. constructor; [|constructor]. exact (proj1 P2).
    - apply Forall_app. split; [exact B|]. constructor; [exact P2|constructor].
  Qed.
  Lemma qinv_happens os : forall k, qinv k -> Forall (fun o => Forall good (names_of o)) os -> qinv (happens k os).
  Proof.
    induction os as [|o os IH]; intros k K H; [exact K|]. apply Forall_cons_iff in H as [H1 H2]. apply (IH (happen k o)); [|exact H2]. now apply qinv_happen.
  Qed.
  Lemma qinv_state tr : qinv (state e tr).
  Proof.
    induction tr as [|x tr IH] using rev_ind; [exact start|]. rewrite state_snoc.
    assert (K : qinv (at_call e tr)) by (apply qinv_happens; [exact IH|apply Forall_forall; intros o; apply names]).
    destruct x; cbn [effect_on]; try exact K.
    - unfold adding. destruct (negb _); [exact K|]. destruct (asks_all _); [|exact K]. unfold marking. destruct (negb _ && _); [|exact K].
      destruct (watched _ _); [exact K|]. destruct (_ <? _)%Z; [|exact K]. destruct K. now split.
    - unfold reading_of. destruct (_ =? _)%Z; [|exact K]. unfold reading. destruct (kn_queue _); [exact K|]. destruct K. now split.
  Qed.
  Lemma qinv_owed tr : Forall good_shape (owed (state e tr)).
  Proof.
    unfold owed. apply Forall_forall. intros s Hs. apply in_map_iff in Hs as (c & <- & Hc). apply filter_In in Hc as [Hc _].
    pose proof (qi_log _ (qinv_state tr)) as P. rewrite Forall_forall in P. now apply P.
  Qed.
End Names.

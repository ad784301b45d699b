(** Common ground: text, bytes, outcomes.  No code of /repo is modelled here. *)
From Coq Require Export String Ascii.
From Coq Require Export List NArith ZArith Lia Bool.
From Coq Require Export ZifyBool ZifyNat ZifyN.
Export ListNotations.
Global Open Scope list_scope.
Ltac Zify.zify_post_hook ::= Z.div_mod_to_equations.

(** Text is a list of code units: bytes where [char] is used, UTF-16 units on
    Windows, zero-extended units for the wide strings. *)
Definition text := list N.

(** String literals as text. *)
Definition lit (s : string) : text := map N_of_ascii (list_ascii_of_string s).

Fixpoint text_eqb (a b : text) : bool :=
  match a, b with
  | [], [] => true
  | x :: a', y :: b' => (x =? y)%N && text_eqb a' b'
  | _, _ => false
  end.

Lemma text_eqb_eq a b : text_eqb a b = true <-> a = b.
Proof.
  revert b; induction a as [|x a IH]; intros [|y b]; cbn; split; intro H;
    try congruence.
  - apply andb_prop in H as [H1 H2]. apply N.eqb_eq in H1. apply IH in H2. congruence.
  - injection H as -> ->. rewrite N.eqb_refl. cbn. now apply IH.
Qed.

Lemma text_eqb_refl a : text_eqb a a = true.
Proof. now apply text_eqb_eq. Qed.

Lemma text_eqb_neq a b : text_eqb a b = false <-> a <> b.
Proof.
  split; intros H.
  - intros ->. rewrite text_eqb_refl in H. discriminate.
  - destruct (text_eqb a b) eqn:E; [|reflexivity]. apply text_eqb_eq in E. contradiction.
Qed.

Definition text_eq_dec (a b : text) : {a = b} + {a <> b} := list_eq_dec N.eq_dec a b.

(** Kinds of undefined behaviour the model can run into. *)
Inductive ub :=
| OobRead          (* reads memory outside the object *)
| OobWrite         (* writes memory outside the object *)
| UninitRead       (* uses indeterminate memory *)
| MissingReturn    (* flows off the end of a non-void function *)
| UseAfterFree
| DoubleFree
| SignedOverflow.

(** Outcome of a computation: a value, undefined behaviour, [std::terminate],
    or fuel exhaustion (the computation is still running). *)
Inductive out (A : Type) :=
| Ok (a : A)
| Undef (u : ub)
| Crash
| Fuel.
Arguments Ok {A} a.
Arguments Undef {A} u.
Arguments Crash {A}.
Arguments Fuel {A}.

(** [flag w m]: the C expression [w & m] read as a truth value. *)
Definition flag (w m : N) : bool := negb (N.land w m =? 0)%N.

(** Association maps keyed by descriptors ([std::unordered_map<int, T>]). *)
Definition zmap (A : Type) := list (Z * A).

Fixpoint zfind {A} (k : Z) (m : zmap A) : option A :=
  match m with
  | [] => None
  | (k', a) :: m' => if (k =? k')%Z then Some a else zfind k m'
  end.

(** [unordered_map::emplace]: no effect when the key is present. *)
Definition zemplace {A} (k : Z) (a : A) (m : zmap A) : zmap A :=
  match zfind k m with
  | Some _ => m
  | None => (k, a) :: m
  end.

(** [unordered_map::erase] of the entry with this key, if any. *)
Definition zerase {A} (k : Z) (m : zmap A) : zmap A :=
  filter (fun e => negb (k =? fst e)%Z) m.

Lemma zfind_zemplace {A} k k' (a : A) m :
  zfind k (zemplace k' a m) =
  match zfind k m with
  | Some b => Some b
  | None => if (k =? k')%Z then Some a else None
  end.
Proof.
  unfold zemplace. destruct (zfind k' m) eqn:E.
  - destruct (Z.eqb_spec k k') as [->|]; [now rewrite E|]. now destruct (zfind k m).
  - cbn. destruct (Z.eqb_spec k k') as [->|]; [now rewrite E|]. now destruct (zfind k m).
Qed.

Lemma zfind_zerase {A} k k' (m : zmap A) :
  zfind k (zerase k' m) = if (k =? k')%Z then None else zfind k m.
Proof.
  unfold zerase in *. induction m as [|[j a] m IH]; cbn [filter zfind fst].
  - now destruct (k =? k')%Z.
  - destruct (Z.eqb_spec k' j) as [->|Hn]; cbn [negb zfind].
    + rewrite IH. destruct (Z.eqb_spec k j) as [->|]; reflexivity.
    + rewrite IH. destruct (Z.eqb_spec k j) as [->|]; [|reflexivity].
      destruct (Z.eqb_spec j k') as [->|]; [contradiction|reflexivity].
Qed.

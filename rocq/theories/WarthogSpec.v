(** Independent specification for the fallback adapter (C45-C47). *)
From Verif Require Import Base EventModel InotifySpec Mon WarthogModel.

(** The contents of the watched directory at some time: every entry with its
    path, whether it is a regular file, and its last write time ([None]: gone by
    the time it is asked for). *)
Record entry := { en_path : text; en_regular : bool; en_time : option Z }.
Definition contents := list entry.
Definition paths (c : contents) : list text := map en_path c.

(** What is shown for an entry, given what is known ([k]). *)
Definition news (k : text -> option Z) (e : entry) : list shape :=
  if en_regular e then
    match en_time e, k (en_path e) with
    | None, _ => [Sh (en_path e) EtDestroy PtFile None]
    | Some _, None => [Sh (en_path e) EtCreate PtFile None]
    | Some t, Some t0 => if (t0 =? t)%Z then [] else [Sh (en_path e) EtModify PtFile None]
    end
  else [].
(** What is known afterwards. *)
Definition learns (k : text -> option Z) (c : contents) (p : text) : option Z :=
  match find (fun e => text_eqb p (en_path e)) c with
  | Some e => if en_regular e then en_time e else k p
  | None => k p
  end.

(** At this point of the history, the filesystem has these contents below [root]. *)
Record agrees (s : wfs) (tr : list wobs) (root : text) (c : contents) : Prop := {
  ag_root : wf_exists s tr root = Some true /\ wf_isdir s tr root = Some true;
  ag_root_time : wf_time s tr root <> None;
  ag_walk : forall opts, wf_walk s tr opts root = (paths c, false);
  ag_exists : forall e, In e c -> wf_exists s tr (en_path e) = Some true;
  ag_regular : forall e, In e c -> wf_isreg s tr (en_path e) = Some (en_regular e);
  ag_time : forall e, In e c -> wf_time s tr (en_path e) = en_time e;
}.

(** The callback's events in a trace. *)
Fixpoint wcallbacks (o : list wobs) : list event :=
  match o with [] => [] | WCb e :: o' => e :: wcallbacks o' | _ :: o' => wcallbacks o' end.
Definition wshown (o : list wobs) : list shape := map shape_of (wcallbacks o).

(** The rounds begun so far. *)
Fixpoint rounds (o : list wobs) : nat :=
  match o with [] => 0 | WState true :: o' => S (rounds o') | _ :: o' => rounds o' end.

(** A filesystem that changes only between rounds: [h n] are the contents in
    round [n] (the first round is 1). *)
Definition changes_between_rounds (s : wfs) (root : text) (h : nat -> contents) : Prop :=
  (forall tr, agrees s tr root (h (rounds tr))) /\ forall n, NoDup (paths (h n)).

(** Below [root] there is a directory that may not be read: a walk ends there with
    an exception, unless it was asked to skip such directories (bit 1 of
    std::filesystem::directory_options). *)
Definition denied (s : wfs) (tr : list wobs) (root : text) : Prop :=
  forall opts, snd (wf_walk s tr opts root) = negb (N.testbit opts 1).

(** ** Whole histories (C104, C105) *)
(** Some round up to [k] found anything. *)
Definition begun (h : nat -> contents) (k : nat) : Prop := exists i, (1 <= i <= k)%nat /\ h i <> [].
(** Round [i] takes note of [e]: of regular files; and of everything if no round before
    found anything. *)
Definition noticed (h : nat -> contents) (i : nat) (e : entry) : Prop :=
  In e (h i) /\ (en_regular e = true \/ ~ begun h (i - 1)).
(** After round [k], [t] is the time last noted of [p]. *)
Definition remembered (h : nat -> contents) (k : nat) (p : text) (t : Z) : Prop :=
  exists i e, (1 <= i <= k)%nat /\ noticed h i e /\ en_path e = p /\ en_time e = Some t /\
    forall j e', (i < j <= k)%nat -> noticed h j e' -> en_path e' <> p.

(** What round [j] says of an entry. *)
Inductive says (h : nat -> contents) (j : nat) (e : entry) : list shape -> Prop :=
| says_first : ~ begun h (j - 1) -> says h j e []
| says_other : en_regular e = false -> says h j e []
| says_new : begun h (j - 1) -> en_regular e = true -> (forall t, ~ remembered h (j - 1) (en_path e) t) ->
    says h j e [Sh (en_path e) EtCreate PtFile None]
| says_changed t : begun h (j - 1) -> en_regular e = true -> remembered h (j - 1) (en_path e) t -> en_time e <> Some t ->
    says h j e [Sh (en_path e) EtModify PtFile None]
| says_same t : remembered h (j - 1) (en_path e) t -> en_time e = Some t -> says h j e [].
(** What it says of several, in their order; and what the first [k] rounds say. *)
Inductive round_says (h : nat -> contents) (j : nat) : contents -> list shape -> Prop :=
| round_nil : round_says h j [] []
| round_cons e c a b : says h j e a -> round_says h j c b -> round_says h j (e :: c) (a ++ b).
Inductive rounds_say (h : nat -> contents) : nat -> list shape -> Prop :=
| rounds_none : rounds_say h 0 []
| rounds_more k a b : rounds_say h k a -> round_says h (S k) (h (S k)) b -> rounds_say h (S k) (a ++ b).

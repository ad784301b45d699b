(** Theorems C133: the program devel/src/portable-destructive-rename.  Statements use
    [RenameSpec] and [rename_main]. *)
From Verif Require Import Base RenameSpec RenameModel.

(** ** C133: a destructive rename *)
(** The help says that a file is taken to another filesystem, too.  Never: link(2) refuses
    what rename(2) refused. *)
Theorem C133_other_filesystems_refuted : forall f prog a b rest s, posix f -> s [] = None -> a <> lit "--help" ->
  f_mount f a <> f_mount f b ->
  let r := rename_main f (prog :: a :: b :: rest) s in
  x_exit r = 1%N /\ (forall p, x_files r p = s p) /\ exists call, x_told r = [Perror call].
Proof.
  intros f prog a b rest s P S0 H M. cbn -[lit]. unfold rename_main. cbn [nth].
  apply text_eqb_neq in H. rewrite H.
  destruct (f_rename f s a b) as [[e|] s1] eqn:R.
  2:{ destruct (px_rename_ok f P _ _ _ _ S0 R) as (K & _). contradiction. }
  destruct (px_rename_no f P _ _ _ _ _ R) as (U & _).
  destruct (e =? exdev)%N; [|cbn; eauto].
  destruct (f_link f s1 a b) as [[e2|] s2] eqn:L.
  2:{ destruct (px_link_ok f P _ _ _ _ L) as (K & _). contradiction. }
  cbn. split; [reflexivity|]. split; [|eauto]. intros p. rewrite (px_link_no f P _ _ _ _ _ L). apply U.
Qed.
Print Assumptions C133_other_filesystems_refuted.

(** When it ends well (and help was not asked for) the file has the new name; and only that
    one, unless both names were of the same file before. *)
Theorem C133_ends_well_when_renamed_partial : forall f (argv : list text) s, posix f -> s [] = None ->
  let a := nth 1 argv [] : text in let b := nth 2 argv [] : text in let r := rename_main f argv s in
  a <> lit "--help" -> x_exit r = 0%N ->
  x_told r = [] /\ f_mount f a = f_mount f b /\
  (moved s a b (x_files r) \/ (s a <> None /\ s a = s b /\ forall p, x_files r p = s p)).
Proof.
  intros f argv s P S0. cbv zeta. unfold rename_main. cbv zeta. set (a := nth 1 argv []). set (b := nth 2 argv []). clearbody a b. intros H.
  apply text_eqb_neq in H. rewrite H. intros E.
  destruct (f_rename f s a b) as [[e|] s1] eqn:R.
  - destruct (px_rename_no f P _ _ _ _ _ R) as (U & X).
    destruct (e =? exdev)%N eqn:Q; [|cbn in E; discriminate E].
    destruct (f_link f s1 a b) as [[e2|] s2] eqn:L; [cbn in E; discriminate E|].
    apply N.eqb_eq in Q. destruct (px_link_ok f P _ _ _ _ L) as (K & _). destruct (X Q K).
  - cbn. destruct (px_rename_ok f P _ _ _ _ S0 R) as (K & _ & i & A & [(B & C) | (B & C & D & G)]).
    + split; [reflexivity|]. split; [exact K|]. right. rewrite A, B. split; [discriminate|]. now split.
    + split; [reflexivity|]. split; [exact K|]. left. unfold moved. rewrite A. split; [exact C|]. split; [discriminate|]. now split.
Qed.
Print Assumptions C133_ends_well_when_renamed_partial.

(** Two names of one file: it ends well and both stay. *)
Theorem C133_two_names_of_a_file_refuted : forall f prog a b s, posix f -> s [] = None -> a <> lit "--help" ->
  s a <> None -> s b = s a -> x_exit (rename_main f [prog; a; b] s) = 0%N -> x_files (rename_main f [prog; a; b] s) a <> None.
Proof.
  intros f prog a b s P S0 H A B E.
  destruct (C133_ends_well_when_renamed_partial f [prog; a; b] s P S0 H E) as (_ & _ & [(K & K1 & K2 & K3) | (_ & _ & K)]); cbn [nth] in *.
  - exfalso. revert E K K1 K2 K3. unfold rename_main. cbn [nth]. apply text_eqb_neq in H. rewrite H.
    destruct (f_rename f s a b) as [[e|] s1] eqn:R.
    + destruct (px_rename_no f P _ _ _ _ _ R) as (U & X). destruct (e =? exdev)%N eqn:Q; [|intros E; cbn in E; discriminate E].
      destruct (f_link f s1 a b) as [[e2|] s2] eqn:L; [intros E; cbn in E; discriminate E|].
      apply N.eqb_eq in Q. destruct (px_link_ok f P _ _ _ _ L) as (K & _). destruct (X Q K).
    + cbn. intros _ K K1 K2 K3. destruct (px_rename_ok f P _ _ _ _ S0 R) as (_ & _ & i & A' & [(_ & C) | (C & _)]).
      * rewrite C in K2. contradiction.
      * apply C. now rewrite B.
  - rewrite K. exact A.
Qed.
Print Assumptions C133_two_names_of_a_file_refuted.

(** When it does not end well, it says so and nothing was changed; nor by asking for help. *)
Theorem C133_failures_change_nothing : forall f (argv : list text) s, posix f ->
  let r := rename_main f argv s in
  x_exit r <> 0%N \/ nth 1 argv [] = lit "--help" ->
  (forall p, x_files r p = s p) /\ (x_exit r = 0%N /\ x_told r = [Help] \/ x_exit r = 1%N /\ exists call, x_told r = [Perror call]).
Proof.
  intros f argv s P r H. subst r. unfold rename_main in *.
  set (a := nth 1 argv []) in *. set (b := nth 2 argv []) in *.
  destruct (text_eqb a (lit "--help")) eqn:HH.
  - split; [reflexivity|]. left. now split.
  - destruct H as [H|H]; [|apply text_eqb_neq in HH; contradiction].
    destruct (f_rename f s a b) as [[e|] s1] eqn:R; [|cbn in H; destruct (H eq_refl)].
    destruct (px_rename_no f P _ _ _ _ _ R) as (U & X).
    destruct (e =? exdev)%N eqn:Q.
    + destruct (f_link f s1 a b) as [[e2|] s2] eqn:L.
      * cbn. split; [|eauto]. intros p. rewrite (px_link_no f P _ _ _ _ _ L). apply U.
      * apply N.eqb_eq in Q. destruct (px_link_ok f P _ _ _ _ L) as (K & _). destruct (X Q K).
    + cbn. split; [exact U|eauto].
Qed.
Print Assumptions C133_failures_change_nothing.

(** A system that keeps the promises: names under "/m/" lie on a filesystem of their own. *)
Definition set_name (s : files) (p : text) (v : option N) : files := fun q => if text_eqb q p then v else s q.
Definition mount_of (p : text) : N := match p with 47 :: 109 :: 47 :: _ => 1 | _ => 0 end%N.
Definition no_such_file : N := 2.
Definition exists_already : N := 17.
Definition small_fs : fsys := {|
  f_mount := mount_of;
  f_rename := fun s a b =>
    match s a, b with
    | None, _ | _, [] => (Some no_such_file, s)
    | Some i, _ => if negb (mount_of a =? mount_of b)%N then (Some exdev, s)
                   else if match s b with Some j => (i =? j)%N | None => false end then (None, s)
                   else (None, set_name (set_name s b (Some i)) a None)
    end;
  f_link := fun s a b =>
    match s a, s b with
    | None, _ => (Some no_such_file, s)
    | _, Some _ => (Some exists_already, s)
    | Some i, None => if negb (mount_of a =? mount_of b)%N then (Some exdev, s) else (None, set_name s b (Some i))
    end;
  f_unlink := fun s a => match s a with None => (Some no_such_file, s) | _ => (None, set_name s a None) end;
|}.
Lemma set_same s p v : set_name s p v p = v.
Proof. unfold set_name. now rewrite text_eqb_refl. Qed.
Lemma set_other s p v q : q <> p -> set_name s p v q = s q.
Proof. intros H. unfold set_name. apply text_eqb_neq in H. now rewrite H. Qed.
Lemma small_fs_posix : posix small_fs.
Proof.
  constructor; cbn.
  - intros s a b s' S0 H. destruct (s a) as [i|] eqn:A; [|discriminate H]. destruct b as [|x b]; [discriminate H|]. set (q := x :: b) in *.
    destruct (mount_of a =? mount_of q)%N eqn:M; cbn in H; [|discriminate H]. apply N.eqb_eq in M. split; [exact M|]. split; [discriminate|]. exists i. split; [exact A|].
    destruct (s q) as [j|] eqn:B; [destruct (i =? j)%N eqn:IJ|].
    + injection H as <-. apply N.eqb_eq in IJ. subst j. left. now split.
    + injection H as <-. apply N.eqb_neq in IJ. right. split; [congruence|].
      assert (NQ : a <> q) by (intros K; subst a; rewrite A in B; injection B as B; contradiction).
      split; [rewrite set_other by (intros K; apply NQ; symmetry; exact K); apply set_same|]. split; [apply set_same|].
      intros p P1 P2. rewrite !set_other; auto.
    + injection H as <-. right. split; [discriminate|].
      assert (NQ : a <> q) by (intros K; subst a; rewrite A in B; discriminate B).
      split; [rewrite set_other by (intros K; apply NQ; symmetry; exact K); apply set_same|]. split; [apply set_same|].
      intros p P1 P2. rewrite !set_other; auto.
  - intros s a b e s' H. destruct (s a) as [i|] eqn:A.
    + destruct b as [|x b]; [injection H as <- <-; split; [reflexivity|discriminate]|].
      destruct (mount_of a =? mount_of (x :: b))%N eqn:M; cbn in H.
      * destruct (match s (x :: b) with Some j => (i =? j)%N | None => false end); discriminate H.
      * injection H as <- <-. split; [reflexivity|]. intros _. now apply N.eqb_neq.
    + injection H as <- <-. split; [reflexivity|discriminate].
  - intros s a b s' H. destruct (s a) as [i|] eqn:A; [|discriminate H]. destruct (s b) eqn:B; [discriminate H|].
    destruct (mount_of a =? mount_of b)%N eqn:M; cbn in H; [|discriminate H]. injection H as <-. apply N.eqb_eq in M.
    split; [exact M|]. split; [reflexivity|]. split; [apply set_same|]. split; [discriminate|]. intros p P1. now apply set_other.
  - intros s a b e s' H p. destruct (s a); [destruct (s b); [|destruct (negb _); [|discriminate H]]|]; now injection H as _ <-.
  - intros s a s' H. destruct (s a) eqn:A; [|discriminate H]. injection H as <-. split; [apply set_same|]. intros p P1. now apply set_other.
  - intros s a e s' H p. destruct (s a); [discriminate H|]. now injection H as _ <-.
Qed.
(** Three names, two of them of one file. *)
Definition three : files := fun p =>
  if text_eqb p (lit "/w/a") then Some 7%N else if text_eqb p (lit "/w/b") then Some 7%N else if text_eqb p (lit "/w/c") then Some 9%N else None.
Definition mv (a b : string) := rename_main small_fs [lit "mv"; lit a; lit b] three.
Example C133_cases :
  posix small_fs /\ three [] = None /\
  x_exit (mv "/w/a" "/w/c") = 0%N /\ x_files (mv "/w/a" "/w/c") (lit "/w/c") = Some 7%N /\ x_files (mv "/w/a" "/w/c") (lit "/w/a") = None /\
  x_exit (mv "/w/a" "/w/b") = 0%N /\ x_files (mv "/w/a" "/w/b") (lit "/w/a") = Some 7%N /\
  f_mount small_fs (lit "/w/a") <> f_mount small_fs (lit "/m/a") /\ x_told (mv "/w/a" "/m/a") = [Perror (lit "link")] /\ x_exit (mv "/w/a" "/m/a") = 1%N /\
  x_told (mv "/w/x" "/w/y") = [Perror (lit "rename")] /\ x_exit (mv "/w/x" "/w/y") = 1%N /\ x_told (mv "--help" "/w/y") = [Help].
Proof. split; [exact small_fs_posix|]. repeat apply conj; try (vm_compute; reflexivity). vm_compute. discriminate. Qed.

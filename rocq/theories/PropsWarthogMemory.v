(** Theorems C155: what the fallback adapter remembers while it runs
    (include/wtr/watcher.hpp:1995-2188). *)
From Coq Require Import Permutation.
From Verif Require Import Base EventModel InotifySpec Mon WarthogModel WarthogSpec WarthogFacts WarthogRun WarthogWhole WarthogMemory PropsWarthog.

(** Whenever it looks at its stop flag, a watcher remembers, each once, exactly the paths that
    it has noted, with the times last noted.  (It is a moment of its run: the run goes on with
    [b] after [tr].) *)
Theorem C155_fallback_memory_is_what_was_noted :
  forall s root tr b, looks s root tr b ->
    (exists m, forall n, warthog_watch s (m + n) root [] = let (o, r) := warthog_loop s n root b tr in (tr ++ o, r)) /\
    NoDup (map fst b) /\
    forall h, changes_between_rounds s root h -> (forall i e, In e (h i) -> en_time e <> None) ->
      forall p t, In (p, t) b <-> remembered h (rounds tr) p t.
Proof.
  intros s root tr b L. pose proof (looks_once s root tr b L) as ND. split; [exact (looks_in_run s root tr b L)|]. split; [exact ND|]. intros h Hh Ht p t.
  rewrite <- (tfind_in b p t ND). apply (looks_holds s root h Hh Ht tr b L).
Qed.
Print Assumptions C155_fallback_memory_is_what_was_noted.

(** Two files, then a third while one changes. *)
Definition growing : list contents := [[ent "/w/a" true 1; ent "/w/d" false 1]; [ent "/w/a" true 2; ent "/w/d" false 1; ent "/w/b" true 1]].
Definition growing_h (i : nat) : contents := nth (pred i) growing (last growing []).
Lemma growing_ok : changes_between_rounds (hist (lit "/w") 3 growing) (lit "/w") growing_h /\ forall i e, In e (growing_h i) -> en_time e <> None.
Proof.
  split; [apply hist_ok; now apply hist_b_ok|]. intros [|[|[|i]]] e H; cbn in H; decompose [or] H; try contradiction; subst; try discriminate.
  all: destruct i; cbn in H; decompose [or] H; try contradiction; subst; discriminate.
Qed.
Example C155_example : exists tr b, looks (hist (lit "/w") 3 growing) (lit "/w") tr b /\ rounds tr = 2%nat /\
  In (lit "/w/a", 2%Z) b /\ In (lit "/w/b", 1%Z) b /\ In (lit "/w/d", 1%Z) b /\ length b = 3%nat /\
  forall j p, (1 <= j <= rounds tr)%nat -> In p (paths (growing_h j)) -> In p (paths (growing_h (rounds tr))).
Proof.
  destruct growing_ok as [Hh Ht]. set (s := hist (lit "/w") 3 growing) in *.
  assert (E1 : exists o1 b1 o2 b2 o3 o4 b4, tend_bucket s (lit "/w") [] ([] ++ [WState true]) = (o1, Ok (true, b1)) /\
    scan s (lit "/w") b1 (([] ++ [WState true]) ++ o1) = (o2, Ok (true, b2)) /\
    tend_bucket s (lit "/w") b2 (([] ++ WState true :: o1 ++ o2) ++ [WState true]) = (o3, Ok (true, b2)) /\
    scan s (lit "/w") b2 ((([] ++ WState true :: o1 ++ o2) ++ [WState true]) ++ o3) = (o4, Ok (true, b4)) /\
    wf_pending s ([] ++ WState true :: o1 ++ o2) = true /\
    rounds (([] ++ WState true :: o1 ++ o2) ++ WState true :: o3 ++ o4) = 2%nat /\
    b4 = [(lit "/w/b", 1%Z); (lit "/w/a", 2%Z); (lit "/w/d", 1%Z)]).
  { do 7 eexists. split; [vm_compute; reflexivity|]. split; [vm_compute; reflexivity|]. split; [vm_compute; reflexivity|].
    split; [vm_compute; reflexivity|]. split; [vm_compute; reflexivity|]. split; vm_compute; reflexivity. }
  destruct E1 as (o1 & b1 & o2 & b2 & o3 & o4 & b4 & X1 & X2 & X3 & X4 & X5 & X6 & X7).
  exists (([] ++ WState true :: o1 ++ o2) ++ WState true :: o3 ++ o4), b4. split.
  { eapply looks_next; [eapply looks_next; [constructor|reflexivity|exact X1|exact X2]|exact X5|exact X3|exact X4]. }
  rewrite X6, X7. split; [reflexivity|]. split; [right; now left|]. split; [now left|]. split; [right; right; now left|]. split; [reflexivity|].
  intros j p Hj Hp. assert (D : j = 1%nat \/ j = 2%nat) by lia. destruct D as [-> | ->]; cbn in Hp |- *; tauto.
Qed.

(** Of a tree from which nothing goes away, it remembers at most what is there. *)
Theorem C155_fallback_memory_is_bounded_by_the_tree_partial :
  forall s root h tr b, changes_between_rounds s root h -> (forall i e, In e (h i) -> en_time e <> None) -> looks s root tr b ->
    (forall j p, (1 <= j <= rounds tr)%nat -> In p (paths (h j)) -> In p (paths (h (rounds tr)))) ->
    incl (map fst b) (paths (h (rounds tr))) /\ (length b <= length (h (rounds tr)))%nat.
Proof.
  intros s root h tr b Hh Ht L Hs. destruct (C155_fallback_memory_is_what_was_noted s root tr b L) as (_ & ND & H).
  assert (I : incl (map fst b) (paths (h (rounds tr)))).
  { intros p Hp. apply in_map_iff in Hp as ([q t] & <- & Hp). cbn [fst]. apply (H h Hh Ht) in Hp as (i & e & Hi & [He _] & <- & _).
    apply (Hs i); [exact Hi|]. now apply in_map. }
  split; [exact I|]. rewrite <- (map_length fst b). rewrite <- (map_length en_path (h (rounds tr))). now apply NoDup_incl_length.
Qed.
Print Assumptions C155_fallback_memory_is_bounded_by_the_tree_partial.

(** Otherwise it never forgets: whatever it remembers at one look it remembers at all later
    ones, be it gone or not. *)
Theorem C155_fallback_never_forgets_refuted :
  forall s root h tr b tr' b', changes_between_rounds s root h -> (forall i e, In e (h i) -> en_time e <> None) ->
    looks s root tr b -> looks s root tr' b' -> (rounds tr <= rounds tr')%nat ->
    incl (map fst b) (map fst b') /\ (length b <= length b')%nat.
Proof.
  intros s root h tr b tr' b' Hh Ht L L' Hle.
  destruct (C155_fallback_memory_is_what_was_noted s root tr b L) as (_ & ND & H). destruct (C155_fallback_memory_is_what_was_noted s root tr' b' L') as (_ & ND' & H').
  assert (I : incl (map fst b) (map fst b')).
  { intros p Hp. apply in_map_iff in Hp as ([q t] & <- & Hp). cbn [fst]. apply (H h Hh Ht) in Hp.
    destruct (remembered_later s root h Hh Ht _ _ q t Hle Hp) as (t' & R). apply (H' h Hh Ht) in R. change q with (fst (q, t')). now apply in_map. }
  split; [exact I|]. rewrite <- (map_length fst b), <- (map_length fst b'). now apply NoDup_incl_length.
Qed.
Print Assumptions C155_fallback_never_forgets_refuted.

(** So its memory outgrows the tree: files that are made and removed one after the other are
    all remembered, for as many as one likes, when the tree is empty. *)
Definition one_by_one (l : list text) : list contents :=
  map (fun p => [{| en_path := p; en_regular := true; en_time := Some 1%Z |}]) l ++ [[]].
Theorem C155_fallback_memory_is_bounded_by_the_tree_refuted :
  forall root l, NoDup l -> ~ In root l -> exists s h tr b,
    changes_between_rounds s root h /\ (forall i e, In e (h i) -> en_time e <> None) /\ (forall i, (length (h i) <= 1)%nat) /\
    looks s root tr b /\ h (rounds tr) = [] /\ length b = length l /\ forall p, In p (map fst b) <-> In p l.
Proof.
  intros root l ND Hr. set (n := S (length l)). set (cs := one_by_one l). set (s := hist root n cs). set (h := fun i => nth (pred i) cs (last cs [])).
  assert (Hlast : last cs [] = []). { unfold cs, one_by_one. apply last_last. }
  assert (Hcs : forall c, In c cs -> c = [] \/ exists p, In p l /\ c = [{| en_path := p; en_regular := true; en_time := Some 1%Z |}]).
  { intros c Hc. unfold cs, one_by_one in Hc. apply in_app_or in Hc as [Hc|[<-|[]]]; [right|now left]. apply in_map_iff in Hc as (p & <- & Hp). eauto. }
  assert (Hhc : forall i, In (h i) cs \/ h i = []).
  { intros i. unfold h. destruct (Nat.lt_ge_cases (pred i) (length cs)) as [Hl|Hl]; [left; now apply nth_In|right; now rewrite nth_overflow]. }
  assert (Hh : changes_between_rounds s root h).
  { apply hist_ok. apply Forall_forall. intros c Hc. destruct (Hcs c Hc) as [->|(p & Hp & ->)]; (split; [repeat constructor; intros []|]); repeat constructor.
    cbn. intros ->. contradiction. }
  assert (Ht : forall i e, In e (h i) -> en_time e <> None).
  { intros i e He. destruct (Hhc i) as [Hc|Hc]; [|rewrite Hc in He; destruct He]. destruct (Hcs _ Hc) as [E|(p & _ & E)]; rewrite E in He; [destruct He|].
    destruct He as [<-|[]]. discriminate. }
  assert (HL : forall k, (k <= n)%nat -> exists tr b, looks s root tr b /\ rounds tr = k).
  { induction k as [|k IH]; intros Hk; [exists [], []; split; [constructor|reflexivity]|].
    destruct IH as (tr & b & L & Rk); [lia|]. destruct (looks_again s root h Hh tr b L) as (tr' & b' & L' & R').
    - change (Nat.ltb (rounds tr) n = true). apply Nat.ltb_lt. lia.
    - exists tr', b'. split; [exact L'|]. now rewrite R', Rk. }
  destruct (HL n (le_n n)) as (tr & b & L & Rn). exists s, h, tr, b. split; [exact Hh|]. split; [exact Ht|]. split.
  { intros i. destruct (Hhc i) as [Hc|Hc]; [|rewrite Hc; cbn; lia]. destruct (Hcs _ Hc) as [E|(p & _ & E)]; rewrite E; cbn; lia. }
  split; [exact L|]. split.
  { rewrite Rn. unfold h, n. cbn [pred]. unfold cs, one_by_one. rewrite app_nth2; rewrite map_length; [|lia]. now rewrite Nat.sub_diag. }
  destruct (C155_fallback_memory_is_what_was_noted s root tr b L) as (_ & NDb & H). specialize (H h Hh Ht).
  assert (Same : forall p, In p (map fst b) <-> In p l).
  { intros p. split.
    - intros Hp. apply in_map_iff in Hp as ([q t] & <- & Hp). cbn [fst]. apply H in Hp as (i & e & Hi & [He _] & <- & _).
      destruct (Hhc i) as [Hc|Hc]; [|rewrite Hc in He; destruct He]. destruct (Hcs _ Hc) as [E|(p & Hp & E)]; rewrite E in He; [destruct He|].
      destruct He as [<-|[]]. exact Hp.
    - intros Hp. apply In_nth with (d := []) in Hp as (i & Hi & Ep).
      set (e := {| en_path := p; en_regular := true; en_time := Some 1%Z |}).
      assert (He : h (S i) = [e]).
      { unfold h, cs, one_by_one. cbn [pred]. rewrite app_nth1 by (rewrite map_length; exact Hi).
        set (f := fun q : text => [{| en_path := q; en_regular := true; en_time := Some 1%Z |}]). rewrite nth_indep with (d' := f []) by (rewrite map_length; exact Hi).
        rewrite map_nth. unfold f, e. now rewrite Ep. }
      assert (R1 : remembered h (S i) p 1).
      { exists (S i), e. split; [lia|]. split; [split; [rewrite He; now left|now left]|]. split; [reflexivity|]. split; [reflexivity|]. intros; lia. }
      destruct (remembered_later s root h Hh Ht (S i) (rounds tr) p 1%Z ltac:(unfold n in Rn; lia) R1) as (t & R).
      apply H in R. change p with (fst (p, t)). now apply in_map. }
  split; [|exact Same]. rewrite <- (map_length fst b). apply Permutation_length. now apply NoDup_Permutation.
Qed.
Print Assumptions C155_fallback_memory_is_bounded_by_the_tree_refuted.
Example C155_refuted_example : forall n, exists l, NoDup l /\ ~ In (lit "/w") l /\ length l = n.
Proof.
  intros n. exists (map (fun i => lit "/w/" ++ repeat 97%N i) (seq 0 n)). split; [|split].
  - apply FinFun.Injective_map_NoDup; [|apply seq_NoDup]. intros i j H. apply app_inv_head in H. apply (f_equal (@length N)) in H. now rewrite !repeat_length in H.
  - intros H. apply in_map_iff in H as (i & E & _). apply (f_equal (@length N)) in E. rewrite app_length in E. cbn in E. lia.
  - now rewrite map_length, seq_length.
Qed.

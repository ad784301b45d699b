(** Theorems C154: what a Darwin watcher remembers while it runs. *)
From Coq Require Import Permutation.
From Verif Require Import Base PathModel EventModel InotifySpec Mon DarwinModel DarwinSpec DarwinFacts DarwinLife DarwinWorldSpec DarwinWorldFacts DarwinMemory.
From Verif Require Import PropsDarwin PropsDarwinWorld.

(** A life with one batch, and its memory. *)
Lemma life1_world s rs : exists w, dreach s dstart w /\ dlog w = life1 s rs /\
  dc w = fst (go s {| seen := []; last_rename := [] |} rs [DStream true; DOccur 0 (Some rs); DTake 0]) /\ queued w = [].
Proof.
  eexists. split; [apply go_reach with (i := 0%nat) (q := []) (k := CWait true) (n := 1%nat)|split; [|split]; reflexivity].
  eapply DR1; [|exact (D_take s _ 1 [] [] 0 rs [] (CWait true) [DStream true; DOccur 0 (Some rs)])].
  eapply DR1; [|exact (D_hand s _ false 1 [] 0 (Some rs) [] [] (CWait true) [DStream true; DOccur 0 (Some rs)] I)].
  eapply DR1; [|exact (D_occur s _ false 0 [] [] (CWait true) [DStream true] (Some rs) I)].
  eapply DR1; [|exact (D_open s _ false 0 [] [] true [])]. apply DR0.
Qed.

(** At every moment of every life a watcher remembers, each once, exactly the paths of which
    the latest create or destroy event was a create event: as many as there were create events
    beyond the destroy events. *)
Theorem C154_darwin_memory_is_what_was_told :
  forall s w, dreach s dstart w ->
    NoDup (seen (dc w)) /\
    (forall p, In p (seen (dc w)) <-> exists m, marks p (dshown (dlog w)) = m ++ [EtCreate]) /\
    (length (seen (dc w)) + destroys (dshown (dlog w)) = creates (dshown (dlog w)))%nat.
Proof.
  intros s w R. destruct (balanced_reach s w R) as [ND B]. split; [exact ND|]. split; [|exact B].
  intros p. destruct (dinv_reach s w R) as [A _ C S]. rewrite <- is_seen_in, A. unfold alive. rewrite S.
  assert (Hm : Forall (fun f => f = EtCreate \/ f = EtDestroy) (marks p (flat_map r_events (reports (dlog w))))).
  { apply Forall_forall. intros f Hf. unfold marks in Hf. apply in_map_iff in Hf as (x & <- & Hx). apply filter_In in Hx as [_ Hx].
    unfold is_mark in Hx. apply andb_prop in Hx as [_ Hx]. destruct (sh_effect x); try discriminate Hx; auto. }
  set (m := marks p _) in *. destruct m as [|f m' _] using rev_ind.
  - cbn. split; [discriminate|]. intros (m' & E). destruct m'; discriminate E.
  - rewrite rev_app_distr. cbn [rev app]. split.
    + intros H. exists m'. f_equal. destruct f; try discriminate H. reflexivity.
    + intros (m2 & E). apply app_inj_tail in E as [_ ->]. reflexivity.
Qed.
Print Assumptions C154_darwin_memory_is_what_was_told.
Example C154_example :
  let s := mac [] in let rs := [rc "/w/a" 0x10100; rc "/w/b" 0x20100; rc "/w/a" 0x10300; rc "/w/a" 0x10100; rc "/w/b" 0x20200] in
  exists w, dreach s dstart w /\ seen (dc w) = [lit "/w/a"] /\ creates (dshown (dlog w)) = 3%nat /\ destroys (dshown (dlog w)) = 2%nat.
Proof.
  cbv zeta. destruct (life1_world (mac []) [rc "/w/a" 0x10100; rc "/w/b" 0x20100; rc "/w/a" 0x10300; rc "/w/a" 0x10100; rc "/w/b" 0x20200]) as (w & R & E & M & _).
  exists w. split; [exact R|]. rewrite E, M. vm_compute. auto.
Qed.

(** If nothing is moved, and the changes come one at a time, what is remembered is in the tree:
    as much as is there, at most. *)
Theorem C154_darwin_memory_is_bounded_by_the_tree_partial :
  forall s w w0 cs, dreach s dstart w -> typed w0 -> cans w0 cs -> Forall stays cs -> paced w0 cs (reports (dlog w)) ->
    (forall p, In p (seen (dc w)) -> afters w0 cs p <> None) /\
    (forall l, (forall p, afters w0 cs p <> None -> In p l) -> (length (seen (dc w)) <= length l)%nat).
Proof.
  intros s w w0 cs R T C F P. destruct (dinv_reach s w R) as [A _ D S]. destruct (balanced_reach s w R) as [ND _].
  destruct (paced_told cs w0 [] [] (reports (dlog w)) T C (stays_inside cs F)) as (_ & L & _); auto.
  assert (H : forall p, In p (seen (dc w)) -> afters w0 cs p <> None).
  { intros p Hp. apply is_seen_in in Hp. rewrite A in Hp. apply made_last_there; [exact F|]. rewrite <- Hp. symmetry. exact (L p). }
  split; [exact H|]. intros l Hl. apply NoDup_incl_length; [exact ND|]. intros p Hp. apply Hl. now apply H.
Qed.
Print Assumptions C154_darwin_memory_is_bounded_by_the_tree_partial.
Definition tidy_changes : list change :=
  [CMake (lit "/w/a") PtFile; CMake (lit "/w/d") PtDir; CWrite (lit "/w/a"); CDelete (lit "/w/a"); CMake (lit "/w/a") PtSymLink; CDelete (lit "/w/d")].
Definition tidy_records : list record :=
  [rc "/w/a" 0x10100; rc "/w/d" 0x20100; rc "/w/a" 0x11000; rc "/w/a" 0x10200; rc "/w/a" 0x40100; rc "/w/d" 0x20200].
Example C154_tidy_example :
  exists w, dreach (mac []) dstart w /\ typed no_things /\ cans no_things tidy_changes /\ Forall stays tidy_changes /\
    paced no_things tidy_changes (reports (dlog w)) /\ seen (dc w) = [lit "/w/a"].
Proof.
  destruct (life1_world (mac []) tidy_records) as (w & R & E & M & _). exists w. split; [exact R|].
  split; [intros p; discriminate|]. split; [repeat split; discriminate|]. split; [repeat constructor|]. rewrite E, M. split.
  - set (h := reports _). vm_compute in h. unfold h, tidy_changes. pace.
  - vm_compute. reflexivity.
Qed.

(** Every file made and then thrown into the Trash is remembered until the watcher ends: one
    change at a time, in a tree that is empty in the end, as many as one likes. *)
Definition trash_all (l : list text) : list change := flat_map (fun p => [CMake p PtFile; CAway p]) l.
Definition trash_all_records (l : list text) : list record := flat_map (fun p => [(p, 0x10100%N); (p, 0x10800%N)]) l.
Lemma go_said s rs : (forall tr q, df_access s tr q = false) -> forall c o,
  exists h, reports (snd (go s c rs o)) = reports o ++ h /\ Forall2 said rs h.
Proof.
  intros Hs. induction rs as [|[p fl] rs IH]; intros c o; [exists []; cbn; rewrite app_nil_r; auto|]. cbn [go].
  destruct (recv_one_spec s c p fl (o ++ [DRec p fl])) as (o' & c' & th & E & P & _). rewrite E.
  destruct (IH c' (o ++ DRec p fl :: o')) as (h & Hr & Hf). rewrite Hr, reports_rec. cbn [reports]. rewrite (reports_plain o') by exact P.
  eexists. split; [rewrite <- app_assoc; reflexivity|]. cbn [app]. constructor; [|exact Hf]. split; [reflexivity|]. split; [reflexivity|].
  cbn [r_asked]. intros q b A. exact (one_asked s c p fl _ o' c' Hs E q b A).
Qed.
Lemma go_seen s l : forall c o q, is_seen (fst (go s c (trash_all_records l) o)) q = existsb (text_eqb q) l || is_seen c q.
Proof.
  induction l as [|p l IH]; intros c o q; [reflexivity|]. cbn [trash_all_records flat_map app go].
  destruct (recv_one_spec s c p 0x10100 (o ++ [DRec p 0x10100%N])) as (o1 & c1 & th1 & E1 & _ & _ & _ & S1 & _). rewrite E1.
  destruct (recv_one_spec s c1 p 0x10800 ((o ++ DRec p 0x10100%N :: o1) ++ [DRec p 0x10800%N])) as (o2 & c2 & th2 & E2 & _ & _ & _ & S2 & _). rewrite E2.
  change (flat_map _ l) with (trash_all_records l). rewrite IH, S2, S1. cbn [existsb].
  change (b_removed 0x10800) with false. change (b_created 0x10800) with false. change (b_removed 0x10100) with false. change (b_created 0x10100) with true.
  destruct (text_eqb q p), (existsb (text_eqb q) l), (is_seen c q); reflexivity.
Qed.
Lemma trash_all_empty l : forall w0, (forall p, w0 p = None) -> forall p, afters w0 (trash_all l) p = None.
Proof.
  induction l as [|x l IH]; intros w0 Hw p; [apply Hw|]. cbn [trash_all flat_map app afters fold_left after].
  apply (IH (fun r => match rest_of x r with Some _ => None | None => put w0 x (Some PtFile) r end)). intros r. unfold put. destruct (rest_of x r) eqn:Er; [reflexivity|].
  destruct (text_eqb r x) eqn:E; [|apply Hw]. apply text_eqb_eq in E as ->. unfold rest_of in Er. rewrite firstn_all, text_eqb_refl, skipn_all in Er. discriminate Er.
Qed.
Lemma trash_once x w0 : (forall p, w0 p = None) -> forall r, after (after w0 (CMake x PtFile)) (CAway x) r = None.
Proof. intros Hw r. exact (trash_all_empty [x] w0 Hw r). Qed.
Lemma trash_all_can l : forall w0, (forall p, w0 p = None) -> cans w0 (trash_all l).
Proof.
  induction l as [|x l IH]; intros w0 Hw; [exact I|]. cbn [trash_all flat_map app cans]. split; [split; [apply Hw|discriminate]|].
  split; [cbn; unfold put; rewrite text_eqb_refl; discriminate|]. apply IH. now apply trash_once.
Qed.
Lemma trash_all_paced l : forall w0 h, (forall p, w0 p = None) -> Forall2 said (trash_all_records l) h -> paced w0 (trash_all l) h.
Proof.
  induction l as [|x l IH]; intros w0 h Hw F; cbn [trash_all trash_all_records flat_map app] in *.
  - inversion F; subst. constructor.
  - inversion F as [|a r1 b h1 S1 F1]; subst. inversion F1 as [|a r2 b h2 S2 F2]; subst. clear F F1.
    apply (Paced_cons w0 (CMake x PtFile) _ [r1] (r2 :: h2)).
    { cbn [records]. constructor; [|constructor]. destruct S1 as (A1 & B1 & C1). split; [exact A1|]. split; [exact B1|].
      intros q b Hq _. apply C1 in Hq as [_ Hq]. discriminate Hq. }
    apply (Paced_cons _ (CAway x) _ [r2] h2).
    { cbn [records]. constructor; [|constructor]. destruct S2 as (A2 & B2 & C2). split; [exact A2|]. split.
      { rewrite B2. unfold type_at. cbn [after]. unfold put. rewrite text_eqb_refl. reflexivity. }
      intros q b Hq _. apply C2 in Hq as [-> _]. unfold is_there. now rewrite (trash_once x w0 Hw q). }
    apply IH; [now apply trash_once|exact F2].
Qed.
Theorem C154_darwin_memory_is_bounded_by_the_tree_refuted :
  forall l, NoDup l -> exists s w, dreach s dstart w /\ cans no_things (trash_all l) /\ paced no_things (trash_all l) (reports (dlog w)) /\
    queued w = [] /\ (forall p, afters no_things (trash_all l) p = None) /\
    length (seen (dc w)) = length l /\ (forall p, In p (seen (dc w)) <-> In p l).
Proof.
  intros l ND. set (s := mac []). destruct (life1_world s (trash_all_records l)) as (w & R & E & M & Q). exists s, w. split; [exact R|].
  assert (H0 : forall p, no_things p = None) by reflexivity.
  split; [now apply trash_all_can|]. split.
  { rewrite E. apply trash_all_paced; [exact H0|]. unfold life1.
    destruct (go_said s (trash_all_records l) (fun _ _ => eq_refl) {| seen := []; last_rename := [] |} [DStream true; DOccur 0 (Some (trash_all_records l)); DTake 0]) as (h & Hr & Hf).
    rewrite Hr. exact Hf. }
  split; [exact Q|]. split; [now apply trash_all_empty|].
  assert (S : forall p, In p (seen (dc w)) <-> In p l).
  { intros p. rewrite <- is_seen_in, M, go_seen. cbn [is_seen seen existsb]. change (is_seen {| seen := []; last_rename := [] |} p) with false. rewrite orb_false_r.
    rewrite existsb_exists. split; [intros (x & Hx & Ex); apply text_eqb_eq in Ex as ->; exact Hx|]. intros Hx. exists p. split; [exact Hx|apply text_eqb_refl]. }
  split; [|exact S]. destruct (balanced_reach s w R) as [ND2 _]. apply Permutation_length. now apply NoDup_Permutation.
Qed.
Print Assumptions C154_darwin_memory_is_bounded_by_the_tree_refuted.
(** There are as many names as one likes. *)
Example C154_refuted_example : forall n, exists l, NoDup l /\ length l = n /\ Forall (fun p => exists x, p = lit "/w/" ++ x) l.
Proof.
  intros n. exists (map (fun i => lit "/w/" ++ repeat 97%N i) (seq 0 n)). split; [|split].
  - apply FinFun.Injective_map_NoDup; [|apply seq_NoDup]. intros i j H. apply app_inv_head in H. apply (f_equal (@length N)) in H. now rewrite !repeat_length in H.
  - now rewrite map_length, seq_length.
  - apply Forall_forall. intros p H. apply in_map_iff in H as (i & <- & _). eauto.
Qed.

(** Theorems C37-C41, C64, C66, C67: the Darwin adapter; and that it is an adapter in the sense
    of C01. *)
From Verif Require Import Base PathModel EventModel InotifySpec Mon DarwinModel DarwinSpec DarwinFacts DarwinLife.
From Verif Require SemabinModel WatchModel WatchSpec.

(** ** A concrete system, and a life with given batches *)
(** Everything in [there] exists. *)
Definition mac (there : list string) : dfs := {|
  df_now := fun tr => Z.of_nat (length tr);
  df_access := fun _ p => existsb (fun q => text_eqb p (lit q)) there |}.
Definition rc (p : string) (fl : N) : record := (lit p, fl).
(** The records one after the other. *)
Fixpoint go (s : dfs) (c : dctx) (rs : list record) (o : list dobs) : dctx * list dobs :=
  match rs with
  | [] => (c, o)
  | (p, fl) :: rs' =>
      match event_recv_one s c p fl (o ++ [DRec p fl]) with
      | (o', Ok c') => go s c' rs' (o ++ DRec p fl :: o')
      | _ => (c, o)
      end
  end.
Lemma go_reach s rs : forall w0 c n q k o i, dreach s w0 (DW c true n q [(i, RIn rs)] k o) ->
  dreach s w0 (DW (fst (go s c rs o)) true n q [(i, RIn [])] k (snd (go s c rs o))).
Proof.
  induction rs as [|[p fl] rs IH]; intros w0 c n q k o i H; [exact H|]. cbn [go].
  destruct (recv_one_spec s c p fl (o ++ [DRec p fl])) as (o' & c' & t & E & _). rewrite E. apply IH.
  eapply DR1; [exact H|]. exact (D_rec s c true n q [] i p fl rs [] k o o' c' E).
Qed.
(** One batch, handed over at once. *)
Definition life1 (s : dfs) (rs : list record) : list dobs :=
  snd (go s {| seen := []; last_rename := [] |} rs [DStream true; DOccur 0 (Some rs); DTake 0]).
Lemma life1_reach s rs : exists w, dreach s dstart w /\ dlog w = life1 s rs.
Proof.
  eexists. split; [apply go_reach with (i := 0%nat) (q := []) (k := CWait true) (n := 1%nat)|reflexivity].
  eapply DR1; [|exact (D_take s _ 1 [] [] 0 rs [] (CWait true) [DStream true; DOccur 0 (Some rs)])].
  eapply DR1; [|exact (D_hand s _ false 1 [] 0 (Some rs) [] [] (CWait true) [DStream true; DOccur 0 (Some rs)] I)].
  eapply DR1; [|exact (D_occur s _ false 0 [] [] (CWait true) [DStream true] (Some rs) I)].
  eapply DR1; [|exact (D_open s _ false 0 [] [] true [])]. apply DR0.
Qed.

(** ** C37 *)
Lemma marks_step h1 r q : account h1 r ->
  marks q (r_events r) = [] \/
  (alive q h1 = false /\ (marks q (r_events r) = [EtCreate] \/ marks q (r_events r) = [EtCreate; EtDestroy])) \/
  (alive q h1 = true /\ marks q (r_events r) = [EtDestroy]).
Proof.
  destruct r as [p fl a ev]. unfold account. cbn [r_path r_flags r_events]. set (t := b_type fl).
  assert (Hm : forall x f, sh_path x = p -> sh_effect x = f -> marks q [x] = if text_eqb q p then match f with EtCreate | EtDestroy => [f] | _ => [] end else []).
  { intros x f <- <-. unfold marks. cbn. unfold is_mark. destruct (text_eqb q (sh_path x)), (sh_effect x) eqn:Ef; cbn; now rewrite ?Ef. }
  destruct (b_known fl).
  - intros (ren & -> & Hren). rewrite !marks_app.
    assert (Hr : marks q ren = []).
    { destruct Hren as [-> |(_ & from & ->)]; [reflexivity|]. unfold marks. cbn. unfold is_mark. cbn. now rewrite andb_false_r. }
    rewrite Hr, app_nil_r.
    assert (Hc : marks q (if b_content fl then [Sh p EtModify t None] else []) = []).
    { destruct (b_content fl); [|reflexivity]. rewrite (Hm _ EtModify) by reflexivity. now destruct (text_eqb q p). }
    rewrite Hc, app_nil_r. destruct (text_eqb q p) eqn:E.
    + apply text_eqb_eq in E as <-. destruct (b_created fl), (alive q h1), (b_removed fl); cbn [andb orb negb];
        rewrite ?(Hm (Sh q EtCreate t None) EtCreate), ?(Hm (Sh q EtDestroy t None) EtDestroy) by reflexivity; rewrite ?text_eqb_refl; cbn; auto.
    + left. destruct (b_created fl && negb (alive p h1)), (b_removed fl && (b_created fl || alive p h1));
        rewrite ?(Hm (Sh p EtCreate t None) EtCreate), ?(Hm (Sh p EtDestroy t None) EtDestroy) by reflexivity; reflexivity.
  - intros ->. left. rewrite (Hm _ EtOther) by reflexivity. now destruct (text_eqb q p).
Qed.
Lemma marks_alternate q h : (forall h1 r h2, h = h1 ++ r :: h2 -> account h1 r) ->
  (forall i f, nth_error (marks q (flat_map r_events h)) i = Some f -> f = if Nat.even i then EtCreate else EtDestroy) /\
  alive q h = Nat.odd (length (marks q (flat_map r_events h))).
Proof.
  induction h as [|r h IH] using rev_ind; intros H; [split; [intros [|i]; discriminate|reflexivity]|].
  destruct IH as [IH1 IH2]. { intros h1 r' h2 ->. apply (H h1 r' (h2 ++ [r])). now rewrite <- app_assoc. }
  specialize (H h r [] eq_refl). rewrite alive_snoc, flat_map_app, marks_app. cbn [flat_map]. rewrite app_nil_r.
  set (ms := marks q (flat_map r_events h)) in *. set (m := marks q (r_events r)) in *. rewrite app_length.
  assert (Hn : forall l, (forall i f, nth_error l i = Some f -> f = if Nat.even (length ms + i) then EtCreate else EtDestroy) ->
             forall i f, nth_error (ms ++ l) i = Some f -> f = if Nat.even i then EtCreate else EtDestroy).
  { intros l Hl i f Hi. destruct (Nat.lt_ge_cases i (length ms)) as [Hlt|Hge].
    - rewrite nth_error_app1 in Hi by exact Hlt. now apply IH1.
    - rewrite nth_error_app2 in Hi by exact Hge. apply Hl in Hi. now replace (length ms + (i - length ms))%nat with i in Hi by lia. }
  destruct (marks_step h r q H) as [E|[(Ha & E)|(Ha & E)]]; fold m in E.
  - rewrite E. cbn. rewrite app_nil_r, Nat.add_0_r. auto.
  - rewrite IH2 in Ha. assert (He : Nat.even (length ms) = true) by (rewrite <- Nat.negb_odd, Ha; reflexivity).
    destruct E as [E|E]; rewrite E; (split; [apply Hn|]).
    + intros [|[|i]] f Hf; cbn in Hf; try discriminate. injection Hf as <-. rewrite Nat.add_0_r, He. reflexivity.
    + cbn. rewrite Nat.add_1_r, Nat.odd_succ, He. reflexivity.
    + intros [|[|[|i]]] f Hf; cbn in Hf; try discriminate; injection Hf as <-; rewrite ?Nat.add_0_r, ?Nat.add_1_r, ?Nat.even_succ, ?He, ?Ha; reflexivity.
    + cbn. rewrite Nat.add_comm. cbn. exact (eq_sym Ha).
  - rewrite IH2 in Ha. rewrite E. split; [apply Hn|].
    + intros [|[|i]] f Hf; cbn in Hf; try discriminate. injection Hf as <-. rewrite Nat.add_0_r, <- Nat.negb_odd, Ha. reflexivity.
    + cbn. rewrite Nat.add_1_r, Nat.odd_succ, <- Nat.negb_odd, Ha. reflexivity.
Qed.

(** In every life of the adapter, whatever batches with whatever flags come in,
    the create and destroy events of each path alternate and begin with create. *)
Theorem C37_create_destroy_alternate :
  forall s w p i f, dreach s dstart w -> nth_error (marks p (dshown (dlog w))) i = Some f ->
    f = if Nat.even i then EtCreate else EtDestroy.
Proof.
  intros s w p i f H. destruct (dinv_reach s w H) as [_ _ C S]. rewrite S. apply (marks_alternate p). intros h1 r h2 E. now apply (C h1 r h2).
Qed.
Print Assumptions C37_create_destroy_alternate.
(** A file is created; the next records say created and removed again and again. *)
Example C37_example :
  let s := mac [] in let rs := [rc "/w/a" 0x10100; rc "/w/a" 0x10300; rc "/w/a" 0x10200; rc "/w/a" 0x11300; rc "/w/a" 0x10100] in
  (exists w, dreach s dstart w /\ dlog w = life1 s rs) /\
  marks (lit "/w/a") (dshown (life1 s rs)) = [EtCreate; EtDestroy; EtCreate; EtDestroy; EtCreate].
Proof. cbv zeta. split; [apply life1_reach|vm_compute; reflexivity]. Qed.

(** ** C38 *)

(** A record with the removed flag gives a destroy event if it also says created
    or the path's latest create or destroy event was a create. *)
Theorem C38_removals_of_known_paths_partial :
  forall s w h1 r h2, dreach s dstart w -> reports (dlog w) = h1 ++ r :: h2 -> b_removed (r_flags r) = true ->
    b_created (r_flags r) = true \/ alive (r_path r) h1 = true ->
    In (Sh (r_path r) EtDestroy (b_type (r_flags r)) None) (r_events r).
Proof.
  intros s w h1 r h2 H E Hr Hk. destruct (dinv_reach s w H) as [_ _ C _]. destruct (C _ _ _ E) as [A _]. unfold account in A.
  assert (b_known (r_flags r) = true) as Hb by (unfold b_known; rewrite Hr; now destruct (b_created (r_flags r))). rewrite Hb in A.
  destruct A as (ren & -> & _). rewrite Hr. replace (b_created (r_flags r) || alive (r_path r) h1) with true.
  - apply in_or_app. right. apply in_or_app. left. now left.
  - destruct Hk as [-> | ->]; [reflexivity|now rewrite orb_true_r].
Qed.
Print Assumptions C38_removals_of_known_paths_partial.
Example C38_example :
  let s := mac [] in let rs := [rc "/w/a" 0x10100; rc "/w/b" 0x20300; rc "/w/a" 0x11200] in
  (exists w, dreach s dstart w /\ dlog w = life1 s rs) /\
  map r_events (reports (life1 s rs)) =
    [[Sh (lit "/w/a") EtCreate PtFile None]; [Sh (lit "/w/b") EtCreate PtDir None; Sh (lit "/w/b") EtDestroy PtDir None];
     [Sh (lit "/w/a") EtDestroy PtFile None; Sh (lit "/w/a") EtModify PtFile None]].
Proof. cbv zeta. split; [apply life1_reach|vm_compute; reflexivity]. Qed.

(** Otherwise there is none: the removal of anything that was there before the
    watcher is not reported. *)
Theorem C38_removals_of_old_paths_refuted :
  forall s w h1 r h2, dreach s dstart w -> reports (dlog w) = h1 ++ r :: h2 ->
    b_created (r_flags r) = false -> alive (r_path r) h1 = false ->
    forall x, In x (r_events r) -> sh_effect x <> EtDestroy.
Proof.
  intros s w h1 r h2 H E Hr Hk. destruct (dinv_reach s w H) as [_ _ C _]. destruct (C _ _ _ E) as [A _]. unfold account in A.
  rewrite Hr, Hk in A. destruct (b_known (r_flags r)); cbn [andb orb] in A.
  - destruct A as (ren & -> & Hren). rewrite andb_false_r. cbn [app]. intros x Hx.
    apply in_app_iff in Hx as [Hx|Hx].
    + destruct (b_content (r_flags r)); [destruct Hx as [<-|[]]; discriminate|destruct Hx].
    + destruct Hren as [-> |(_ & from & ->)]; [destruct Hx|]. destruct Hx as [<-|[]]. discriminate.
  - rewrite A. intros x [<-|[]]. discriminate.
Qed.
Print Assumptions C38_removals_of_old_paths_refuted.
Example C38_refuted_example :
  let s := mac [] in let rs := [rc "/w/old" 0x10200] in
  (exists w, dreach s dstart w /\ dlog w = life1 s rs) /\
  reports (life1 s rs) = [Rep (lit "/w/old") 0x10200 None []].
Proof. cbv zeta. split; [apply life1_reach|vm_compute; reflexivity]. Qed.

(** ** C39 *)
Lemma flagged_split h l1 y l2 : flagged_renamed h = l1 ++ y :: l2 ->
  exists h1 h2, h = h1 ++ y :: h2 /\ l1 = flagged_renamed h1 /\ b_renamed (r_flags y) = true.
Proof.
  revert l1. induction h as [|r h IH]; intros l1 E; [destruct l1; discriminate|]. cbn in E.
  destruct (b_renamed (r_flags r)) eqn:Er.
  - destruct l1 as [|z l1]; cbn in E; injection E as <- E.
    + exists [], h. auto.
    + apply IH in E as (h1 & h2 & -> & -> & Hy). exists (r :: h1), h2. split; [reflexivity|]. split; [|exact Hy]. cbn. now rewrite Er.
  - apply IH in E as (h1 & h2 & -> & -> & Hy). exists (r :: h1), h2. split; [reflexivity|]. split; [|exact Hy]. cbn. now rewrite Er.
Qed.
(** Among the records flagged as renamed, let [y] follow directly on [x], [x] not
    itself being the target of a rename event, of another path, and the question
    whether [x]'s path is there be answered no: then there is one rename event,
    from [x]'s path to [y]'s. *)
Theorem C39_renames_partial :
  forall s w l1 x y l2, dreach s dstart w -> flagged_renamed (reports (dlog w)) = l1 ++ x :: y :: l2 ->
    renames_of x = [] -> r_path x <> [] -> path_eqb (r_path x) (r_path y) = false ->
    r_asked y = Some (r_path x, false) ->
    renames_of y = [Sh (r_path x) EtRename (b_type (r_flags y)) (Some (Sh (r_path y) EtRename (b_type (r_flags y)) None))].
Proof.
  intros s w l1 x y l2 H E Hx Hne Hd Ha. destruct (dinv_reach s w H) as [_ _ C _].
  change (x :: y :: l2) with ([x] ++ y :: l2) in E. rewrite app_assoc in E. apply flagged_split in E as (h1 & h2 & E & El & Hy).
  destruct (C _ _ _ E) as [_ R]. unfold rename_account in R. rewrite Hy in R. destruct R as (there & Ra & ->).
  assert (Hl : left_behind h1 = r_path x) by (unfold left_behind; rewrite <- El, rev_app_distr; cbn; now rewrite Hx).
  rewrite Hl in *. rewrite Ha in Ra. injection Ra as <-. rewrite Hd. destruct (r_path x) eqn:Ep; [contradiction|reflexivity].
Qed.
Print Assumptions C39_renames_partial.
(** Every rename event comes from two records flagged as renamed, one directly
    after the other, the first of which has no rename event of its own: so no
    record is the source of two rename events, nor source of one and target of
    another. *)
Theorem C39_sources_used_once :
  forall s w l1 y l2 e, dreach s dstart w -> flagged_renamed (reports (dlog w)) = l1 ++ y :: l2 -> In e (renames_of y) ->
    exists l1' x, l1 = l1' ++ [x] /\ renames_of x = [] /\ r_asked y = Some (r_path x, false) /\ path_eqb (r_path x) (r_path y) = false /\
      renames_of y = [e] /\ e = Sh (r_path x) EtRename (b_type (r_flags y)) (Some (Sh (r_path y) EtRename (b_type (r_flags y)) None)).
Proof.
  intros s w l1 y l2 e H E He. destruct (dinv_reach s w H) as [_ _ C _]. apply flagged_split in E as (h1 & h2 & E & El & Hy).
  destruct (C _ _ _ E) as [_ R]. unfold rename_account in R. rewrite Hy in R. destruct R as (there & Ra & R).
  destruct (negb (is_nil (left_behind h1)) && negb (path_eqb (left_behind h1) (r_path y)) && negb there) eqn:Ec; rewrite R in He; [|destruct He].
  destruct He as [<-|[]]. unfold left_behind in *. rewrite <- El in *. destruct (rev l1) as [|x l1'] eqn:Erev; [discriminate|].
  exists (rev l1'), x. split; [rewrite <- (rev_involutive l1), Erev; reflexivity|].
  destruct (renames_of x) as [|z zs]; [|discriminate]. apply andb_prop in Ec as [Ec Et]. apply andb_prop in Ec as [_ Ed].
  apply negb_true_iff in Et, Ed. subst there. auto.
Qed.
Print Assumptions C39_sources_used_once.
(** Records without the flag have no rename event. *)
Theorem C39_no_flag_no_rename :
  forall s w h1 r h2, dreach s dstart w -> reports (dlog w) = h1 ++ r :: h2 -> b_renamed (r_flags r) = false -> renames_of r = [].
Proof.
  intros s w h1 r h2 H E Hf. destruct (dinv_reach s w H) as [_ _ C _]. destruct (C _ _ _ E) as [_ R]. unfold rename_account in R. now rewrite Hf in R.
Qed.
Print Assumptions C39_no_flag_no_rename.
Example C39_example :
  let s := mac ["/w/b"%string; "/w/d"%string] in let rs := [rc "/w/a" 0x10800; rc "/w/b" 0x10800; rc "/w/x" 0x10100; rc "/w/c" 0x20800; rc "/w/d" 0x20800] in
  (exists w, dreach s dstart w /\ dlog w = life1 s rs) /\
  map (fun r => (r_path r, r_asked r, renames_of r)) (flagged_renamed (reports (life1 s rs))) =
    [(lit "/w/a", Some ([], false), []);
     (lit "/w/b", Some (lit "/w/a", false), [Sh (lit "/w/a") EtRename PtFile (Some (Sh (lit "/w/b") EtRename PtFile None))]);
     (lit "/w/c", Some ([], false), []);
     (lit "/w/d", Some (lit "/w/c", false), [Sh (lit "/w/c") EtRename PtDir (Some (Sh (lit "/w/d") EtRename PtDir None))])].
Proof. cbv zeta. split; [apply life1_reach|vm_compute; reflexivity]. Qed.

(** It fails when [x] is itself a target: a is renamed to b and b to c, with one
    record each; b's renaming is lost, and c is taken for a source.  The same
    records tell of a moved out of the tree, then b renamed to c: then a renaming
    is reported that did not happen, and the one that did is not. *)
Theorem C39_chain_refuted :
  let s := mac ["/w/c"%string] in let rs := [rc "/w/a" 0x10800; rc "/w/b" 0x10800; rc "/w/c" 0x10800] in
  exists w, dreach s dstart w /\
    recs (dlog w) = rs /\
    dshown (dlog w) = [Sh (lit "/w/a") EtRename PtFile (Some (Sh (lit "/w/b") EtRename PtFile None))].
Proof. cbv zeta. destruct (life1_reach (mac ["/w/c"%string]) ([rc "/w/a" 0x10800; rc "/w/b" 0x10800; rc "/w/c" 0x10800])) as (w & H & E). exists w. split; [exact H|]. rewrite E. vm_compute. auto. Qed.
Print Assumptions C39_chain_refuted.
(** ** C40 *)

(** What every record gives, for all flag words: [other] alone if no effect is
    known; else a creation if flagged and not the latest said of the path, a
    destruction if flagged and a creation is the latest, a modification if content,
    Finder information, owner or extended attributes are flagged, and at most one
    renaming if flagged; in this order, with the record's path and path type. *)
Theorem C40_flags :
  forall s w h1 r h2, dreach s dstart w -> reports (dlog w) = h1 ++ r :: h2 ->
    let p := r_path r in let fl := r_flags r in let t := b_type fl in
    if b_known fl then
      exists ren,
        r_events r =
          (if b_created fl && negb (alive p h1) then [Sh p EtCreate t None] else []) ++
          (if b_removed fl && (b_created fl || alive p h1) then [Sh p EtDestroy t None] else []) ++
          (if b_content fl then [Sh p EtModify t None] else []) ++ ren /\
        (ren = [] \/ b_renamed fl = true /\ exists from, ren = [Sh from EtRename t (Some (Sh p EtRename t None))])
    else r_events r = [Sh p EtOther t None].
Proof. intros s w h1 r h2 H E. destruct (dinv_reach s w H) as [_ _ C _]. now destruct (C _ _ _ E) as [A _]. Qed.
Print Assumptions C40_flags.
(** In particular: changes of inode metadata alone give nothing. *)
Theorem C40_attributes_alone_are_silent :
  forall s w h1 r h2, dreach s dstart w -> reports (dlog w) = h1 ++ r :: h2 ->
    b_inodemeta (r_flags r) = true -> b_created (r_flags r) = false -> b_removed (r_flags r) = false ->
    b_renamed (r_flags r) = false -> b_content (r_flags r) = false -> r_events r = [].
Proof.
  intros s w h1 r h2 H E Hi Hc Hr Hn Hm. pose proof (C40_flags s w h1 r h2 H E) as A. cbv zeta in A.
  replace (b_known (r_flags r)) with true in A by (unfold b_known; rewrite Hi, Hc, Hr; reflexivity).
  rewrite Hc, Hr, Hm in A. destruct A as (ren & -> & [-> |(Hx & _)]); [reflexivity|congruence].
Qed.
Print Assumptions C40_attributes_alone_are_silent.
(** And all events come from records. *)
Theorem C40_all_events_from_records :
  forall s w, dreach s dstart w -> dshown (dlog w) = flat_map r_events (reports (dlog w)).
Proof. intros s w H. now destruct (dinv_reach s w H). Qed.
Print Assumptions C40_all_events_from_records.
Example C40_example :
  let s := mac [] in let rs := [rc "" 0x0; rc "/w/l" 0x40400; rc "/w/h" 0x208000; rc "/w/d" 0x22000; rc "/w/a" 0x11500; rc "/w/s" 0x44100] in
  (exists w, dreach s dstart w /\ dlog w = life1 s rs) /\
  map r_events (reports (life1 s rs)) =
    [[Sh [] EtOther PtOther None]; []; [Sh (lit "/w/h") EtModify PtHardLink None]; [Sh (lit "/w/d") EtModify PtDir None];
     [Sh (lit "/w/a") EtCreate PtFile None; Sh (lit "/w/a") EtModify PtFile None];
     [Sh (lit "/w/s") EtCreate PtSymLink None; Sh (lit "/w/s") EtModify PtSymLink None]].
Proof. cbv zeta. split; [apply life1_reach|vm_compute; reflexivity]. Qed.

(** ** C41 *)

(** A batch that event_recv took before the closing thread has the mutex is gone
    through completely, record by record, undisturbed, before that. *)
Theorem C41_batches_begun_are_finished_partial :
  forall s w l1 l2 i rs, dreach s dstart w -> dlog w = l1 ++ DLock :: l2 -> In (DTake i) l1 -> In (DOccur i (Some rs)) l1 ->
    exists a m b, l1 = a ++ DTake i :: m ++ DLeave i :: b /\ recs m = rs /\ (forall j, ~ In (DTake j) m).
Proof.
  intros s w l1 l2 i rs H E Hi Ho. destruct (life_reach s w H) as (I & _ & S). destruct (se_after _ S _ _ E) as [_ Hs].
  destruct (Hs i Hi) as (a & m & b & E1 & Hm & St). exists a, m, b. split; [exact E1|]. split.
  - assert (Some (recs m) = Some rs) as [= ->]; [|reflexivity]. apply (id_uniq _ I i); rewrite E; apply in_or_app; auto.
  - intros j Hj. rewrite Forall_forall in St. exact (St _ Hj).
Qed.
Print Assumptions C41_batches_begun_are_finished_partial.
(** The claim fails always: once the closing thread has the mutex, which it keeps
    while it flushes the stream, nothing is delivered.  Whatever was still
    outstanding then is lost. *)
Theorem C41_outstanding_events_dropped_refuted :
  forall s w l1 l2, dreach s dstart w -> dlog w = l1 ++ DLock :: l2 ->
    (forall e, ~ In (DCb e) l2) /\ (forall i, ~ In (DTake i) l1 -> ~ In (DTake i) (dlog w)).
Proof.
  intros s w l1 l2 H E. destruct (life_reach s w H) as (_ & _ & S). destruct (se_after _ S _ _ E) as [Hs _]. rewrite Forall_forall in Hs. split.
  - intros e He. exact (Hs _ He).
  - intros i Hi. rewrite E. intros Hin. apply in_app_iff in Hin as [Hin|[Hin|Hin]]; [auto|discriminate|exact (Hs _ Hin)].
Qed.
Print Assumptions C41_outstanding_events_dropped_refuted.
(** Two batches; the second happens before the stop, is handed over by the flush,
    and dropped; the adapter returns success. *)
Example C41_example :
  let s := mac [] in let b1 := Some ([rc "/w/a" 0x10100]) in let b2 := Some ([rc "/w/b" 0x10100]) in
  exists w l1, dreach s dstart w /\
    dlog w = l1 ++ [DStop; DLock; DDrop 1; DFlushed; DClosed; DRet true] /\ In (DOccur 1 b2) l1 /\ In (DTake 0) l1 /\
    dshown (dlog w) = [Sh (lit "/w/a") EtCreate PtFile None].
Proof.
  cbv zeta. set (b1 := [rc "/w/a" 0x10100]). set (b2 := [rc "/w/b" 0x10100]). set (s := mac []).
  eexists _, [DStream true; DOccur 0 (Some b1); DTake 0; DRec (lit "/w/a") 0x10100; DNow 4; DCb (Ev (lit "/w/a") EtCreate PtFile 4 None); DLeave 0; DOccur 1 (Some b2)].
  split.
  - eapply DR1; [|eapply (D_closed s _ true 2 [])].
    eapply DR1; [|eapply (D_flush s _ true 2 [] [] 2); intros ? ? []].
    eapply DR1; [|eapply (D_busy s _ true 2 [] [] 1 b2 [] (CFlush 2))].
    eapply DR1; [|eapply (D_hand s _ true 2 [] 1 (Some b2) [] [] (CFlush 2)); exact I].
    eapply DR1; [|apply D_lock].
    eapply DR1; [|apply D_stop].
    eapply DR1; [|eapply (D_occur s _ false 1 [] [] (CWait true)); exact I].
    eapply DR1; [|eapply (D_leave s _ true 1 [] [] 0 [] (CWait true))].
    apply go_reach with (rs := b1).
    eapply DR1; [|exact (D_take s _ 1 [] [] 0 b1 [] (CWait true) [DStream true; DOccur 0 (Some b1)])].
    eapply DR1; [|exact (D_hand s _ false 1 [] 0 (Some b1) [] [] (CWait true) [DStream true; DOccur 0 (Some b1)] I)].
    eapply DR1; [|exact (D_occur s _ false 0 [] [] (CWait true) [DStream true] (Some b1) I)].
    eapply DR1; [|exact (D_open s _ false 0 [] [] true [])]. apply DR0.
  - split; [reflexivity|]. vm_compute. auto 20.
Qed.

(** ** The adapter in the watch class *)

(** Callbacks never run at the same time (C41), and none after the adapter has
    returned (for C06). *)
Theorem C06_darwin_silence_after_return :
  forall s w l1 b l2, dreach s dstart w -> dlog w = l1 ++ DRet b :: l2 -> l2 = [] /\ forall w', ~ dstep s w w'.
Proof.
  intros s w l1 b l2 H E. split; [exact (after_ret s w H _ _ _ E)|]. intros w' St. destruct (life_reach s w H) as (_ & W & _).
  apply (ret_terminal s w b w' W); [|exact St]. rewrite E. apply in_mid. now left.
Qed.
Print Assumptions C06_darwin_silence_after_return.
Example C06_darwin_example : exists w l1, dreach (mac []) dstart w /\ dlog w = l1 ++ [DRet true].
Proof. destruct C41_example as (w & l1 & H & E & _). exists w, (l1 ++ [DStop; DLock; DDrop 1; DFlushed; DClosed]). split; [exact H|]. rewrite E, <- app_assoc. reflexivity. Qed.

(** ** C66, C67: how it ends *)

(** What has been said and whether there is a stream, for each place in [watch]. *)
Definition ending (w : dworld) : Prop :=
  (forall b, clos w = CRet b -> (b = true <-> In (DStream true) (dlog w))) /\
  match clos w with
  | COpen => (forall b, ~ In (DStream b) (dlog w)) /\ ~ In DStop (dlog w)
  | CWait ok => (forall b, In (DStream b) (dlog w) <-> b = ok) /\ ~ In DStop (dlog w)
  | CClose ok => forall b, In (DStream b) (dlog w) <-> b = ok
  | CFlush _ | CStop => forall b, In (DStream b) (dlog w) <-> b = true
  | CRet ok => forall b, In (DStream b) (dlog w) <-> b = ok
  end /\
  match clos w with
  | COpen | CWait false | CClose false | CRet false => forall e, ~ In (DCb e) (dlog w)
  | _ => True
  end.
Lemma ending_more w w' x : ending w -> clos w' = clos w -> dlog w' = dlog w ++ x ->
  (forall b, ~ In (DStream b) x) -> ~ In DStop x ->
  match clos w with COpen | CWait false | CClose false | CRet false => forall e, ~ In (DCb e) x | _ => True end ->
  ending w'.
Proof.
  intros (H1 & H2 & H3) Ek El Hs Ht Hc.
  assert (Es : forall b, In (DStream b) (dlog w') <-> In (DStream b) (dlog w)).
  { intros b. rewrite El, in_app_iff. specialize (Hs b). tauto. }
  assert (Et : In DStop (dlog w') <-> In DStop (dlog w)) by (rewrite El, in_app_iff; tauto).
  unfold ending. rewrite Ek. split; [intros b Hb; rewrite Es; auto|]. split.
  - destruct (clos w) as [|ok|ok|u| |ok]; try (destruct H2 as [H2 H2']; split; [|tauto]); intros b; rewrite Es; auto.
  - destruct (clos w) as [|[]|[]|u| |[]]; auto; intros e; rewrite El, in_app_iff; intros [Hi|Hi]; [eapply H3|eapply Hc|eapply H3|eapply Hc|eapply H3|eapply Hc|eapply H3|eapply Hc]; eassumption.
Qed.
Lemma ending_step s w w' : dstep s w w' -> who w -> ending w -> ending w'.
Proof.
  intros St W En.
  assert (Hone : forall y x, x = [y] -> (forall b, y <> DStream b) -> y <> DStop -> (forall e, y <> DCb e) ->
    (forall b, ~ In (DStream b) x) /\ ~ In DStop x /\ forall e, ~ In (DCb e) x).
  { intros y x -> Y1 Y2 Y3. split; [intros b [Hc|[]]; now apply Y1 in Hc|]. split; [intros [Hc|[]]; now apply Y2 in Hc|intros e [Hc|[]]; now apply Y3 in Hc]. }
  assert (Hq : forall y, dlog w' = dlog w ++ [y] -> clos w' = clos w -> (forall b, y <> DStream b) -> y <> DStop -> (forall e, y <> DCb e) -> ending w').
  { intros y El Ek Y1 Y2 Y3. destruct (Hone y [y] eq_refl Y1 Y2 Y3) as (Z1 & Z2 & Z3). apply (ending_more w w' [y]); auto.
    destruct (clos w) as [|[]|[]| | |[]]; auto. }
  destruct St; cbn [dlog clos] in *.
  all: try (eapply Hq; [reflexivity|reflexivity|discriminate|discriminate|discriminate]).
  - destruct En as (_ & (H2 & H2') & H3). cbn [dlog clos] in *. split; [intros b [=]|]. cbn [clos dlog]. split; [split|].
    + intros b. rewrite in_app_iff. cbn. specialize (H2 b). split; [intros [Hc|[Hc|[]]]; [contradiction|congruence]|intros ->; auto].
    + rewrite in_app_iff. cbn. intros [Hc|[Hc|[]]]; [contradiction|discriminate].
    + destruct ok; [exact I|]. intros e. rewrite in_app_iff. cbn. intros [Hc|[Hc|[]]]; [exact (H3 e Hc)|discriminate].
  - apply (ending_more (DW c l n (q1 ++ (i, b) :: q2) r k o) _ []); auto; cbn [dlog clos]; [now rewrite app_nil_r|].
    destruct k as [|[]|[]| | |[]]; auto.
  - destruct (recv_one_spec s c p fl (o ++ [DRec p fl])) as (o1 & c1 & there & E1 & P1 & _). rewrite H in E1. injection E1 as <- <-.
    rewrite Forall_forall in P1.
    apply (ending_more (DW c l n q (r1 ++ (i, RIn ((p, fl) :: rs)) :: r2) k o) _ (DRec p fl :: o')); auto; cbn [clos dlog].
    + intros b [Hc|Hc]; [discriminate|exact (P1 _ Hc)].
    + intros [Hc|Hc]; [discriminate|exact (P1 _ Hc)].
    + pose proof (wh_idle _ W) as Wi. cbn [clos recvs] in Wi.
      destruct k as [|[]|[]| | |b]; try exact I; try (destruct Wi as (_ & Wi & _); now apply nil_mid in Wi).
  - destruct En as (_ & (H2 & H2') & H3). cbn [dlog clos] in *. split; [intros b [=]|]. cbn [clos dlog]. split.
    + intros b. rewrite in_app_iff. cbn. rewrite H2. intuition discriminate.
    + destruct ok; [exact I|]. intros e. rewrite in_app_iff. cbn. intros [Hc|[Hc|[]]]; [exact (H3 e Hc)|discriminate].
  - destruct En as (_ & H2 & H3). cbn [dlog clos] in *.
    assert (H2' : forall b, In (DStream b) (o ++ [DRet false]) <-> b = false) by (intros b; rewrite in_app_iff; cbn; rewrite H2; intuition discriminate).
    split; [intros b [= <-]; cbn [dlog]; rewrite H2'; intuition discriminate|]. cbn [clos dlog]. split; [exact H2'|].
    intros e. rewrite in_app_iff. cbn. intros [Hc|[Hc|[]]]; [exact (H3 e Hc)|discriminate].
  - destruct En as (_ & H2 & _). cbn [dlog clos] in *. split; [intros b [=]|]. cbn [clos dlog]. split; [|exact I].
    intros b. rewrite in_app_iff. cbn. rewrite H2. intuition discriminate.
  - destruct En as (_ & H2 & _). cbn [dlog clos] in *. split; [intros b [=]|]. cbn [clos dlog]. split; [|exact I].
    intros b. rewrite in_app_iff. cbn. rewrite H2. intuition discriminate.
  - destruct En as (_ & H2 & _). cbn [dlog clos] in *.
    assert (H2' : forall b, In (DStream b) (o ++ [DClosed; DRet true]) <-> b = true) by (intros b; rewrite in_app_iff; cbn; rewrite H2; intuition discriminate).
    split; [intros b [= <-]; cbn [dlog]; rewrite H2'; intuition discriminate|]. cbn [clos dlog]. split; [exact H2'|exact I].
Qed.
Lemma ending_reach s w : dreach s dstart w -> ending w.
Proof.
  intros H. remember dstart as w0 eqn:E0. induction H as [|w w' w'' H IH St]; subst.
  - split; [intros b [=]|]. cbn. repeat split; intros; intros [].
  - apply (ending_step s w' w'' St); [apply (life_reach s w' H)|auto].
Qed.

(** When it has returned there was a stop, and it returned true exactly when there
    was a stream. *)
Theorem C66_darwin_ends_on_request : forall s w b, dreach s dstart w -> In (DRet b) (dlog w) ->
  In DStop (dlog w) /\ (b = true <-> In (DStream true) (dlog w)).
Proof.
  intros s w b H Hin. destruct (life_reach s w H) as (_ & W & _). pose proof (wh_ret _ W b Hin) as E.
  split; [pose proof (wh_stop _ W) as Hs; now rewrite E in Hs|]. apply (ending_reach s w H). exact E.
Qed.
Print Assumptions C66_darwin_ends_on_request.
Example C66_darwin_example : exists w, dreach (mac []) dstart w /\ In (DRet true) (dlog w) /\ In (DStream true) (dlog w).
Proof.
  destruct C41_example as (w & l1 & H & E & _). exists w. split; [exact H|].
  assert (Hr : In (DRet true) (dlog w)) by (rewrite E, in_app_iff; cbn; auto 20). split; [exact Hr|].
  now apply (C66_darwin_ends_on_request (mac []) w true H Hr).
Qed.

(** Without a stream it stays as if all were well until it is asked to stop, and the
    callback is not called once, before or after; and this happens. *)
Theorem C67_darwin_failures_unexplained_refuted :
  (forall s w e, dreach s dstart w -> In (DStream false) (dlog w) -> ~ In (DCb e) (dlog w)) /\
  (forall s w, dreach s dstart w -> In (DRet false) (dlog w) -> In (DStream false) (dlog w)) /\
  exists w, dreach (mac []) dstart w /\ In (DRet false) (dlog w).
Proof.
  split; [|split].
  - intros s w e H Hin. destruct (ending_reach s w H) as (_ & H2 & H3). destruct (clos w) as [|ok|ok|u| |ok].
    + destruct H2 as [H2 _]. now apply H2 in Hin.
    + destruct H2 as [H2 _]. apply H2 in Hin. subst ok. apply H3.
    + apply H2 in Hin. subst ok. apply H3.
    + apply H2 in Hin. discriminate.
    + apply H2 in Hin. discriminate.
    + apply H2 in Hin. subst ok. apply H3.
  - intros s w H Hin. destruct (life_reach s w H) as (_ & W & _). pose proof (wh_ret _ W false Hin) as E.
    destruct (ending_reach s w H) as (_ & H2 & _). rewrite E in H2. now apply H2.
  - eexists. split.
    + eapply DR1; [|apply D_null]. eapply DR1; [|apply D_stop]. eapply DR1; [|apply (D_open _ _ false 0 [] [] false [])]. apply DR0.
    + cbn. auto.
Qed.
Print Assumptions C67_darwin_failures_unexplained_refuted.

(** ** C64 *)
(** As long as the system waits for its calls under way before the stream is
    gone, none is under way when the adapter has returned, and none comes. *)
Theorem C64_nothing_used_after_return_partial :
  forall s w b, dreach s dstart w -> In (DRet b) (dlog w) -> recvs w = [] /\ forall w', ~ dstep s w w'.
Proof.
  intros s w b H Hin. destruct (life_reach s w H) as (_ & W & _). split; [|intros w' St; exact (ret_terminal s w b w' W Hin St)].
  assert (Hk : exists b, clos w = CRet b) by (destruct W as [_ _ _ Hrt _]; exists b; apply Hrt; exact Hin).
  destruct w as [c l n q r k o]. cbn [recvs clos dlog] in *. destruct r as [|[i [[rs|]|[|[p fl] rs]]] r]; [reflexivity|exfalso..].
  - eapply (ret_terminal s _ b _ W Hin). apply (D_busy s c l n q [] i rs r k o).
  - eapply (ret_terminal s _ b _ W Hin). apply (D_bad s c l n q [] i r k o).
  - eapply (ret_terminal s _ b _ W Hin). apply (D_leave s c l n q [] i r k o).
  - destruct (recv_one_spec s c p fl (o ++ [DRec p fl])) as (o' & c' & t & E & _).
    eapply (ret_terminal s _ b _ W Hin). apply (D_rec s c l n q [] i p fl rs r k o o' c' E).
Qed.
Print Assumptions C64_nothing_used_after_return_partial.
(** Otherwise a call of event_recv can take the mutex, which is gone, and call
    the callback, after the adapter has returned and close() with it. *)
Theorem C64_late_calls_refuted :
  let s := mac [] in exists w l1 l2 e, dreach_late s dstart w /\ dlog w = l1 ++ DRet true :: DTake 0 :: l2 /\ In (DCb e) l2.
Proof.
  cbv zeta. set (b1 := [rc "/w/a" 0x10100]). set (s := mac []).
  eexists _, [DStream true; DStop; DLock; DOccur 0 (Some b1); DFlushed; DClosed], _, _. split; [|split].
  - eapply DL1; [|apply D_usual; eapply (D_leave s _ true 1 [] [] 0 [] (CRet true))].
    eapply DL1; [|apply D_usual; eapply (D_rec s {| seen := []; last_rename := [] |} true 1 [] [] 0 (lit "/w/a") 0x10100 [] [] (CRet true)); vm_compute; reflexivity].
    eapply DL1; [|apply D_usual; eapply (D_take s _ 1 [] [] 0 b1 [] (CRet true))].
    eapply DL1; [|eapply (D_closed_early s _ true 1 [] [(0%nat, RTry (Some b1))])].
    eapply DL1; [|apply D_usual; eapply (D_flush s _ true 1 [] [(0%nat, RTry (Some b1))] 0); intros; apply Nat.le_0_l].
    eapply DL1; [|apply D_usual; eapply (D_hand s _ true 1 [] 0 (Some b1) [] [] (CFlush 0)); exact I].
    eapply DL1; [|apply D_usual; eapply (D_occur s _ true 0 [] [] (CFlush 0)); exact I].
    eapply DL1; [|apply D_usual; eapply (D_lock s _ 0 [] [])].
    eapply DL1; [|apply D_usual; eapply (D_stop s _ false 0 [] [] true)].
    eapply DL1; [|apply D_usual; eapply (D_open s _ false 0 [] [] true [])]. apply DL0.
  - reflexivity.
  - cbn. right. right. now left.
Qed.
Print Assumptions C64_late_calls_refuted.

(** For C08: once the stop signal is seen, and as long as no new changes come in,
    the adapter inevitably returns: it and the calls of event_recv can always go
    on, and not forever. *)
Definition batch_len (b : batch) : nat := match b with Some rs => length rs | None => 0 end.
Definition todo_rcv (e : nat * rcv) : nat := match snd e with RTry b => batch_len b + 3 | RIn rs => length rs + 2 end.
Definition todo_clo (k : clo) : nat := match k with COpen => 6 | CWait _ => 5 | CClose _ => 4 | CFlush _ => 3 | CStop => 2 | CRet _ => 0 end.
Definition sum (l : list nat) : nat := fold_right Nat.add 0%nat l.
Lemma sum_app a b : sum (a ++ b) = (sum a + sum b)%nat.
Proof. induction a as [|x a IH]; [reflexivity|]. cbn in *. unfold sum in *. cbn. lia. Qed.
Definition todo (w : dworld) : nat :=
  (todo_clo (clos w) + sum (map (fun e => batch_len (snd e) + 4) (queued w)) + sum (map todo_rcv (recvs w)))%nat.
Lemma todo_less s w w' : no_change s w w' -> (todo w' < todo w)%nat.
Proof.
  intros [St En]. unfold todo. destruct St; cbn [clos queued recvs next] in *; rewrite ?map_app, ?sum_app in *; cbn [map sum fold_right todo_rcv todo_clo snd batch_len length] in *; try lia.
  all: unfold sum; lia.
Qed.
Lemma can_go_on s w : dreach s dstart w -> In DStop (dlog w) -> (exists b, clos w = CRet b) \/ exists w', no_change s w w'.
Proof.
  intros H Hs. destruct (life_reach s w H) as (_ & [Ho Hid Hst Hrt Hlk] & _).
  assert (Hk : match clos w with COpen | CWait _ => False | _ => True end).
  { clear - H Hs. remember dstart as w0. induction H as [w|w w' w'' H IH St]; subst; [destruct Hs|].
    destruct St; cbn [clos dlog] in *; auto; try (apply IH; [reflexivity|]; apply in_app_iff in Hs as [Hs|Hs]; [exact Hs|]; cbn in Hs; repeat (destruct Hs as [Hs|Hs]; [discriminate|]); destruct Hs; fail).
    - now apply IH.
    - destruct (recv_one_spec s c p fl (o ++ [DRec p fl])) as (o1 & c1 & there & E1 & P1 & _). rewrite H0 in E1. injection E1 as <- <-.
      apply IH; [reflexivity|]. apply in_app_iff in Hs as [Hs|[Hs|Hs]]; [exact Hs|discriminate|]. rewrite Forall_forall in P1. destruct (P1 _ Hs). }
  destruct w as [c l n q r k o]. cbn [clos recvs queued locked dlog] in *.
  destruct r as [|[i b] r].
  - destruct k as [| |ok|u| |b]; try destruct Hk; [| | |eauto]; right.
    + destruct ok; [|eexists; split; [apply D_null|reflexivity]]. cbn in Ho. destruct l; [discriminate|]. eexists. split; [apply D_lock|reflexivity].
    + destruct (existsb (fun e => Nat.ltb (fst e) u) q) eqn:Eq.
      * apply existsb_exists in Eq as ([j b] & Hin & _). apply in_split in Hin as (q1 & q2 & ->). eexists. split; [now apply D_hand|reflexivity].
      * eexists. split; [apply D_flush|reflexivity]; [|intros ? ? []]. intros j b Hin. destruct (Nat.lt_ge_cases j u) as [Hlt|]; [|assumption]. exfalso.
        assert (existsb (fun e => Nat.ltb (fst e) u) q = true); [|congruence]. apply existsb_exists. exists (j, b). split; [exact Hin|]. now apply Nat.ltb_lt.
    + eexists. split; [apply D_closed|reflexivity].
  - right. destruct b as [[rs|]|[|[p fl] rs]].
    + eexists. split; [apply (D_busy s c l n q [] i rs r k o)|reflexivity].
    + eexists. split; [apply (D_bad s c l n q [] i r k o)|reflexivity].
    + eexists. split; [apply (D_leave s c l n q [] i r k o)|reflexivity].
    + destruct (recv_one_spec s c p fl (o ++ [DRec p fl])) as (o' & c' & t & E & _).
      eexists. split; [apply (D_rec s c l n q [] i p fl rs r k o o' c' E)|reflexivity].
Qed.
Theorem C08_darwin_adapter_returns :
  forall s w, dreach s dstart w -> In DStop (dlog w) -> comes_to (no_change s) (fun w' => exists b, In (DRet b) (dlog w')) w.
Proof.
  intros s w. remember (todo w) as n eqn:En. assert (Hn : (todo w <= n)%nat) by lia. clear En. revert w Hn.
  assert (Hr : forall w, dreach s dstart w -> (exists b, clos w = CRet b) -> exists b, In (DRet b) (dlog w)).
  { intros w H. remember dstart as w0. induction H as [w|w w' w'' H IH St]; subst; [intros [b Hb]; discriminate|]. intros Hb. specialize (IH eq_refl).
    destruct (step_adds s _ _ St) as (x & Ex & _). destruct St; cbn [clos dlog] in *; try (destruct Hb as [? Hb]; discriminate).
    all: try (destruct (IH Hb) as (b0 & Hin); exists b0; rewrite Ex; apply in_or_app; now left).
    - exists false. apply in_or_app. right. now left.
    - exists true. apply in_or_app. right. right. now left. }
  induction n as [|n IH]; intros w Hn H Hs.
  - destruct (can_go_on s w H Hs) as [Hb|(w' & St)]; [apply Come_now; auto|]. apply todo_less in St. lia.
  - destruct (can_go_on s w H Hs) as [Hb|Hex]; [apply Come_now; auto|]. apply Come_later; [exact Hex|]. intros w' St.
    pose proof (todo_less _ _ _ St) as Hl. destruct St as [St Hnx]. apply IH; [lia|eapply DR1; eauto|].
    destruct (step_adds s _ _ St) as (x & -> & _). apply in_or_app. now left.
Qed.
Print Assumptions C08_darwin_adapter_returns.
Example C08_darwin_example : exists w, dreach (mac []) dstart w /\ In DStop (dlog w) /\ queued w <> [] /\ forall b, ~ In (DRet b) (dlog w).
Proof.
  eexists. split.
  - eapply DR1; [|apply D_stop]. eapply DR1; [|exact (D_occur _ _ false 0 [] [] (CWait true) [DStream true] None I)].
    eapply DR1; [|exact (D_open _ _ false 0 [] [] true [])]. apply DR0.
  - cbn. split; [auto|]. split; [discriminate|]. intros b [H|[H|[H|[]]]]; discriminate.
Qed.

Import SemabinModel WatchModel WatchSpec.
(** Its runs as the class sees them. *)
Definition darwin_act (x : dobs) : act := match x with DCb e => ACb e | DStop => AStop | _ => AOther end.
Definition darwin_runs (path : text) (st : list act) (r : option bool) : Prop :=
  exists s w, dreach s dstart w /\ st = map darwin_act (dlog w) /\ match r with Some b => In (DRet b) (dlog w) | None => True end.
Lemma cb_shown o e : In (DCb e) o -> In (shape_of e) (dshown o).
Proof. induction o as [|x o IH]; intros H; [destruct H|]. destruct H as [-> |H]; [now left|]. destruct x; cbn; auto. Qed.
Lemma type_not_watcher fl : b_type fl <> PtWatcher.
Proof. unfold b_type. destruct (N.testbit fl 16), (N.testbit fl 17), (N.testbit fl 18), (N.testbit fl 20 || N.testbit fl 21); discriminate. Qed.
Theorem C01_darwin_adapter : adapter_ok darwin_runs.
Proof.
  split.
  - intros abs st r e (s & w & H & -> & _) Hin Hw. exfalso. apply in_map_iff in Hin as (x & Hx & Hin).
    destruct x; cbn in Hx; try discriminate. injection Hx as ->. apply cb_shown in Hin. destruct (dinv_reach s w H) as [_ _ C S]. rewrite S in Hin.
    apply in_flat_map in Hin as (rp & Hr & Hin). apply in_split in Hr as (h1 & h2 & E). destruct (C _ _ _ E) as [A _].
    assert (Ht : forall x, In x (r_events rp) -> match x with Sh _ _ t _ => t <> PtWatcher end).
    { intros x Hx. pose proof (type_not_watcher (r_flags rp)) as Hn. unfold account in A. destruct (b_known (r_flags rp)).
      - destruct A as (ren & Ev & Hren). rewrite Ev in Hx. rewrite !in_app_iff in Hx. destruct Hx as [Hx|[Hx|[Hx|Hx]]].
        + match type of Hx with context [if ?b then _ else _] => destruct b; [|destruct Hx] end. destruct Hx as [<-|[]]. exact Hn.
        + match type of Hx with context [if ?b then _ else _] => destruct b; [|destruct Hx] end. destruct Hx as [<-|[]]. exact Hn.
        + match type of Hx with context [if ?b then _ else _] => destruct b; [|destruct Hx] end. destruct Hx as [<-|[]]. exact Hn.
        + destruct Hren as [-> |(_ & from & ->)]; [destruct Hx|]. destruct Hx as [<-|[]]. exact Hn.
      - rewrite A in Hx. destruct Hx as [<-|[]]. exact Hn. }
    apply Ht in Hin. destruct e as [? ? t ? ?]. cbn in *. contradiction.
  - intros abs st (s & w & H & -> & Hr). destruct (life_reach s w H) as (_ & [_ _ Hst Hrt _] & _). apply Hrt in Hr. rewrite Hr in Hst.
    apply in_map_iff. exists DStop. auto.
Qed.
Print Assumptions C01_darwin_adapter.
Example C01_darwin_example : exists st, darwin_runs (lit "/w") st (Some true) /\ length (filter (fun a => match a with ACb _ => true | _ => false end) st) = 1%nat.
Proof.
  destruct C41_example as (w & l1 & H & E & _ & _ & Hsh). exists (map darwin_act (dlog w)). split.
  - exists (mac []), w. split; [exact H|]. split; [reflexivity|]. rewrite E. apply in_or_app. right. cbn. auto 10.
  - assert (Hl : forall o, length (filter (fun a => match a with ACb _ => true | _ => false end) (map darwin_act o)) = length (dshown o)).
    { induction o as [|x o IH]; [reflexivity|]. destruct x; cbn; now rewrite ?IH. }
    rewrite Hl, Hsh. reflexivity.
Qed.

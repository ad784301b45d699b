(** Theorems C153: what a watcher with inotify remembers (include/wtr/watcher.hpp:1299-1726:
    the map from watch descriptors to directories), and what it has the kernel remember. *)
From Verif Require Import Base PathModel EventModel Sys SysFacts LinuxModel InotifyModel FanotifyModel LinuxWatch
  LinuxSpec LinuxFacts LinuxRun LinuxProps LinuxChoice InotifySpec InotifyFacts InotifyRun ExampleOs KernelSpec KernelFacts KernelRun KernelWatch
  MemoryRun DeepSpec DeepFacts DeepRun DeepMemory PropsKernel PropsDeep.

(** ** The rounds of the loop *)
(** An unprivileged watcher on [path] is at the top of its loop (:1664): what it did until
    now, how it fares, and what it holds. *)
Inductive at_loop (s : os) (fuel : nat) (path : text) (il : Z) : trace -> Z -> result -> kin -> Prop :=
| AtFirst o ok ke ep : in_make_sysres s fuel path il [OGeteuid (os_geteuid s [])] = (o, Ok (ok, ke, ep)) ->
    at_loop s fuel path il (OGeteuid (os_geteuid s []) :: o) ep ok ke
| AtFailedWait tr ep ok ke : at_loop s fuel path il tr ep ok ke -> r_lt ok r_complete = true -> os_epoll_wait s tr ep = None ->
    at_loop s fuel path il (tr ++ [OEpollWait ep None]) ep r_e_sys_api_epoll ke
| AtNext tr ep ok ke fds o ok' ke' : at_loop s fuel path il tr ep ok ke -> r_lt ok r_complete = true -> os_epoll_wait s tr ep = Some fds ->
    each_ready kin kin_fd (in_recv s) il (firstn 64 fds) ok ke (tr ++ [OEpollWait ep (Some fds)]) = (o, Ok (ok', ke')) ->
    at_loop s fuel path il (tr ++ OEpollWait ep (Some fds) :: o) ep ok' ke'.
(** These are the rounds of the model's loop: it ends at one of them. *)
Lemma ends_at_loop s fuel path il n : forall tr ep ok ke o ok' ke', at_loop s fuel path il tr ep ok ke ->
  ep_loop s kin kin_fd (in_recv s) il n ep ok ke tr = (o, Ok (ok', ke')) -> at_loop s fuel path il (tr ++ o) ep ok' ke' /\ r_lt ok' r_complete = false.
Proof.
  induction n as [|n IH]; intros tr ep ok ke o ok' ke' A E; cbn [ep_loop] in E; [discriminate|].
  destruct (r_lt ok r_complete) eqn:L; cbn [negb] in E; [|injection E as <- <- <-; rewrite app_nil_r; auto].
  unfold bind at 1, epoll_wait in E. destruct (os_epoll_wait s tr ep) as [fds|] eqn:W.
  - match type of E with (let (_, _) := ?b in _) = _ => destruct b as [o1 r1] eqn:Eb end. injection E as <- ->.
    unfold bind in Eb. destruct (each_ready _ _ _ _ _ ok ke _) as [o2 [[ok2 ke2]|u| |]] eqn:E2; try discriminate.
    destruct (ep_loop _ _ _ _ _ n ep ok2 ke2 _) as [o3 r3] eqn:E3. injection Eb as <- ->.
    pose proof (AtNext _ _ _ _ _ _ _ _ _ _ _ _ A L W E2) as A2. rewrite <- app_assoc in E3. cbn [app] in E3. apply (IH _ _ _ _ _ _ _ A2) in E3.
    rewrite <- app_assoc in E3. exact E3.
  - match type of E with (let (_, _) := ?b in _) = _ => destruct b as [o1 r1] eqn:Eb end. injection E as <- ->.
    pose proof (AtFailedWait _ _ _ _ _ _ _ _ A L W) as A2. apply (IH _ _ _ _ _ _ _ A2) in Eb. rewrite <- app_assoc in Eb. exact Eb.
Qed.

(** ** C153 *)
Section Facts.
  Variables (e : env) (D F : list text) (fuel : nat) (path : text) (il : Z).
  Hypothesis Hst0 : e_start e = kern_start D F.
  Notation s := (system e).
  Lemma Hs : exists d f, e_start e = kern_start d f. Proof. eauto. Qed.
  Lemma held tr ep ok ke : at_loop s fuel path il tr ep ok ke -> kin_fd ke = e_fd e /\ ai e tr (fun k => zfind k (kin_dm ke)) /\ mem e tr (kin_dm ke).
  Proof.
    induction 1 as [o ok ke ep E|tr ep ok ke _ (Hfd & A & Mm) L W|tr ep ok ke fds o ok' ke' _ (Hfd & A & Mm) L W E].
    - set (g := OGeteuid (os_geteuid s [])) in *.
      assert (A0 : ai e [g] nowhere) by (apply (ai_quiet e Hs [] [g] nowhere); try apply (ai_nil e Hs); repeat constructor).
      pose proof (in_make_start s fuel path il [g]) as Hst. pose proof (val_make e fuel path il [g]) as Hv. rewrite E in Hst, Hv. cbn [fst] in Hst, Hv.
      pose proof (ai_seg e Hs [g] o nowhere Hv (start_no_read _ Hst) (start_fs _ Hst) A0) as A1.
      pose proof (in_make_fd e fuel path il [g] _ _ _ _ E) as Hfd. pose proof E as Ek. apply in_make_learn in E as [Hl _]. cbn [app] in A1.
      split; [exact Hfd|]. split; [eapply ai_same; [|exact A1]; intros k; symmetry; apply Hl|]. constructor.
      + apply (keys_make s fuel path il _ _ _ Ek).
      + intros wd _. destruct (given_seg e Hs o [g] Hv (start_no_read _ Hst)) as [ER _]. cbn [app] in ER. rewrite ER.
        destruct (given_seg e Hs [g] []) as [ER0 _]; [repeat constructor|repeat constructor|]. cbn [app] in ER0. rewrite ER0.
        unfold state. cbn [rev state_rev]. rewrite Hst0. intros (r & [] & _).
    - assert (Cx : Forall calm [OEpollWait ep None] /\ Forall no_read [OEpollWait ep None]) by (split; repeat constructor). destruct Cx as [Cx Nx].
      split; [exact Hfd|]. split; [now apply (ai_quiet e Hs)|]. apply (mem_quiet e Hs); auto. now apply calm_answers.
    - set (x := OEpollWait ep (Some fds)) in *. assert (Cx : Forall calm [x] /\ Forall no_read [x]) by (split; repeat constructor). destruct Cx as [Cx Nx].
      pose proof (ai_quiet e Hs tr [x] _ Cx Nx eq_refl A) as A'. pose proof (mem_quiet e Hs tr [x] _ (calm_answers e [x] Cx tr) Nx Mm) as M'.
      pose proof (mem_ready e Hs il _ _ _ _ _ _ _ Hfd A' M' E) as H. rewrite <- app_assoc in H. exact H.
  Qed.
End Facts.
(** The directory with this descriptor was removed, and the kernel's record that says so was not read yet. *)
Definition removal_unread (k : kern) (wd : Z) : Prop := exists r, In r (kn_queue k) /\ k_kind r = KDeleteSelf /\ k_wd r = wd.
Lemma count_split (dm W : list (Z * text)) (Q : list krec) : NoDup (map fst dm) ->
  (forall wd d, In (wd, d) dm -> In (wd, d) W \/ exists r, In r Q /\ k_wd r = wd) -> (length dm <= length W + length Q)%nat.
Proof.
  intros Nd H. rewrite <- (map_length fst dm), <- (map_length fst W), <- (map_length k_wd Q), <- app_length. apply NoDup_incl_length; [exact Nd|].
  intros wd Hin. apply in_map_iff in Hin as ([w d] & <- & Hin). cbn [fst]. apply in_app_iff. destruct (H _ _ Hin) as [Hw|(r & Hr & Er)]; [left|right].
  - apply in_map_iff. now exists (w, d).
  - apply in_map_iff. now exists r.
Qed.
(** Missing: a queue that overflows (refuted below), and moves of directories (the next theorem). *)
Theorem C153_memory_is_bounded_by_the_tree_partial :
  forall e D F fuel path il, e_start e = kern_start D F ->
    forall tr ep ok ke, at_loop (system e) fuel path il tr ep ok ke ->
    let k := state e tr in
    (* one entry for a descriptor *)
    NoDup (map fst (kin_dm ke)) /\
    (* an entry is for a directory that exists and that the kernel watches; or its removal is still to be read *)
    (forall wd d, In (wd, d) (kin_dm ke) -> (In (wd, d) (kn_watch k) /\ In d (kn_dirs k)) \/ removal_unread k wd) /\
    (* nothing is watched that is not known *)
    (forall wd d, In (wd, d) (kn_watch k) -> In (wd, d) (kin_dm ke)) /\
    (* thus neither outgrows the tree *)
    (length (kn_watch k) <= length (kn_dirs k))%nat /\
    (length (kin_dm ke) <= length (kn_dirs k) + length (kn_queue k))%nat.
Proof.
  intros e D F fuel path il Hst tr ep ok ke A. cbv zeta. destruct (held e D F fuel path il Hst tr ep ok ke A) as (_ & A1 & [M1 M2]).
  pose proof (kmem_state e (ex_intro _ D (ex_intro _ F Hst)) tr) as [K1 K2 K3]. pose proof (kinv_state e (ex_intro _ D (ex_intro _ F Hst)) tr) as KI.
  assert (B : forall wd d, In (wd, d) (kin_dm ke) -> In (wd, d) (kn_watch (state e tr)) /\ In d (kn_dirs (state e tr)) \/ removal_unread (state e tr) wd).
  { intros wd d Hin. pose proof (keys_find _ _ _ M1 Hin) as Ef. pose proof (ai_sound _ _ _ A1 wd d Ef) as Hg.
    destruct (K3 wd d Hg) as [Hw|(r & Hr & Hk & Hw)]; [left; split; [exact Hw|eauto]|right]. unfold sofar in Hr. apply in_app_iff in Hr as [Hr|Hr].
    - exfalso. apply (M2 wd); [congruence|]. exists r. auto.
    - exists r. auto. }
  assert (C : forall wd d, In (wd, d) (kn_watch (state e tr)) -> In (wd, d) (kin_dm ke)).
  { intros wd d Hw. destruct (ai_full _ _ _ A1 wd d (ki_given _ KI _ _ Hw)) as [Hf|(r & Hr & Hk & <-)]; [now apply find_in|].
    exfalso. apply (not_dead _ _ _ KI Hw). exists r. split; [unfold sofar; apply in_app_iff; now left|auto]. }
  assert (W : (length (kn_watch (state e tr)) <= length (kn_dirs (state e tr)))%nat).
  { rewrite <- (map_length snd). apply NoDup_incl_length; [exact K1|]. intros p Hp. apply in_map_iff in Hp as ([wd q] & <- & Hp). cbn [snd]. eauto. }
  split; [exact M1|]. split; [exact B|]. split; [exact C|]. split; [exact W|].
  eapply Nat.le_trans; [|apply Nat.add_le_mono_r; exact W]. apply count_split; [exact M1|].
  intros wd d Hin. destruct (B _ _ Hin) as [[Hw _]|(r & Hr & _ & Er)]; [now left|right; eauto].
Qed.
Print Assumptions C153_memory_is_bounded_by_the_tree_partial.

(** With moves of directories and a queue that may overflow: what is remembered beyond the
    tree and the unread records is one entry for a lost record, at most. *)
Section Deep.
  Variables (e : denv) (D F : list text) (fuel : nat) (path : text) (il : Z).
  Hypothesis Hst0 : de_start e = dk_start D F.
  Notation s := (dsystem e).
  Lemma Hds : exists d f, de_start e = dk_start d f. Proof. eauto. Qed.
  Lemma dheld tr ep ok ke : at_loop s fuel path il tr ep ok ke -> kin_fd ke = de_fd e /\ di e tr (fun k => zfind k (kin_dm ke)) /\ dmem e tr (kin_dm ke).
  Proof.
    induction 1 as [o ok ke ep E|tr ep ok ke _ (Hfd & A & Mm) L W|tr ep ok ke fds o ok' ke' _ (Hfd & A & Mm) L W E].
    - set (g := OGeteuid (os_geteuid s [])) in *.
      assert (A0 : di e [g] nowhere) by (apply (di_quiet e Hds [] [g] nowhere); try apply (di_nil e Hds); repeat constructor).
      pose proof (in_make_start s fuel path il [g]) as Hst. pose proof (dval_make e fuel path il [g]) as Hv. rewrite E in Hst, Hv. cbn [fst] in Hst, Hv.
      pose proof (di_seg e Hds [g] o nowhere Hv (start_no_read _ Hst) (start_news _ Hst) A0) as A1.
      pose proof (din_make_fd e fuel path il [g] _ _ _ _ E) as Hfd. pose proof E as Ek. apply in_make_learn in E as [Hl _]. cbn [app] in A1.
      split; [exact Hfd|]. split; [eapply di_same; [|exact A1]; intros k; symmetry; apply Hl|]. constructor.
      + apply (keys_make s fuel path il _ _ _ Ek).
      + intros wd _. destruct (seg e Hds o [g] nowhere Hv (start_no_read _ Hst) (dv_known _ _ _ A0)) as [ER _]. cbn [app] in ER. rewrite ER.
        change [g] with ([] ++ [g]). rewrite dstate_snoc. cbn [deffect g]. rewrite (dat_read e []). unfold dstate. cbn [rev dstate_rev]. rewrite Hst0. intros (r & [] & _).
    - assert (Cx : Forall dcalm [OEpollWait ep None] /\ Forall no_read [OEpollWait ep None]) by (split; repeat constructor). destruct Cx as [Cx Nx].
      split; [exact Hfd|]. split; [now apply (di_quiet e Hds)|]. apply (dmem_quiet e Hds tr _ _ _ (calm_danswers e _ Cx tr) Nx (dv_known _ _ _ A) Mm).
    - set (x := OEpollWait ep (Some fds)) in *. assert (Cx : Forall dcalm [x] /\ Forall no_read [x]) by (split; repeat constructor). destruct Cx as [Cx Nx].
      pose proof (di_quiet e Hds tr [x] _ Cx Nx eq_refl A) as A'. pose proof (dmem_quiet e Hds tr [x] _ _ (calm_danswers e [x] Cx tr) Nx (dv_known _ _ _ A) Mm) as M'.
      pose proof (dmem_ready e Hds il _ _ _ _ _ _ _ Hfd A' M' E) as H. rewrite <- app_assoc in H. exact H.
  Qed.
End Deep.
(** As [removal_unread]. *)
Definition dremoval_unread (k : dkern) (wd : Z) : Prop := exists r, In r (map fst (dk_queue k)) /\ k_kind r = KDeleteSelf /\ k_wd r = wd.
Definition watches (k : dkern) : list Z := flat_map (fun w => match snd w with Some wd => [wd] | None => [] end) (dk_dirs k).
Lemma watches_few k : (length (watches k) <= length (dk_dirs k))%nat.
Proof.
  unfold watches. generalize (dk_dirs k). intros l. induction l as [|[p o] l IH]; [apply le_n|]. cbn [flat_map]. rewrite app_length. destruct o; [exact (le_n_S _ _ IH)|exact (le_S _ _ IH)].
Qed.
Theorem C153_memory_is_bounded_by_tree_and_losses_partial :
  forall e D F fuel path il, de_start e = dk_start D F ->
    forall tr ep ok ke, at_loop (dsystem e) fuel path il tr ep ok ke ->
    let k := dstate e tr in
    NoDup (map fst (kin_dm ke)) /\
    (* nothing is watched that is not known *)
    (forall wd, In wd (watches k) -> In wd (map fst (kin_dm ke))) /\
    (* an entry is for a directory that exists and that the kernel watches, wherever it is now; or its removal is still to be read; or it was lost *)
    (exists lost, (length lost <= losses k)%nat /\ forall wd d, In (wd, d) (kin_dm ke) -> In wd (watches k) \/ dremoval_unread k wd \/ In wd lost) /\
    (length (kin_dm ke) <= length (dk_dirs k) + length (dk_queue k) + losses k)%nat.
Proof.
  intros e D F fuel path il Hst tr ep ok ke A. cbv zeta. destruct (dheld e D F fuel path il Hst tr ep ok ke A) as (_ & A1 & [M1 M2]).
  assert (Hs' : exists d f, de_start e = dk_start d f) by eauto. destruct (gone_state e Hs' tr) as (_ & l & L1 & L2).
  pose proof (kgood_state e Hs' tr) as KI. destruct (dv_known _ _ _ A1) as [K1 K2].
  assert (Wi : forall p wd, In (p, Some wd) (dk_dirs (dstate e tr)) -> In wd (watches (dstate e tr))).
  { intros p wd H. apply in_flat_map. exists (p, Some wd). split; [exact H|now left]. }
  assert (B : forall wd d, In (wd, d) (kin_dm ke) -> In wd (watches (dstate e tr)) \/ dremoval_unread (dstate e tr) wd \/ In wd l).
  { intros wd d Hin. pose proof (keys_find _ _ _ M1 Hin) as Ef. pose proof (K1 wd d Ef) as Hg.
    destruct (L1 wd d Hg) as [(p & Hp)|[(r & Hr & Hk & Hw)|Hl]]; [left; eauto|right; left|now right; right]. unfold everything in Hr. apply in_app_iff in Hr as [Hr|Hr].
    - exfalso. apply (M2 wd); [congruence|]. exists r. auto.
    - exists (fst r). split; [now apply in_map|auto]. }
  split; [exact M1|]. split; [|split].
  - intros wd Hw. apply in_flat_map in Hw as ([p [w|]] & Hp & Hw); [|destruct Hw]. destruct Hw as [<-|[]].
    destruct (di_watch _ _ _ _ _ (kg_inv _ KI) _ _ Hp) as (P & HP). destruct (K2 _ _ HP) as [Hf|(r & Hr & Hk & <-)].
    + apply in_map_iff. exists (w, P). split; [reflexivity|now apply find_in].
    + exfalso. apply (dnot_dead _ _ _ KI Hp). exists r. split; [unfold everything; apply in_app_iff; now left|auto].
  - exists l. split; [exact L2|exact B].
  - assert (Lw : (length (watches (dstate e tr)) <= length (dk_dirs (dstate e tr)))%nat).
    { apply watches_few. }
    eapply Nat.le_trans with (length (watches (dstate e tr)) + length (map fst (dk_queue (dstate e tr))) + length l)%nat; [|rewrite map_length; apply Nat.add_le_mono; [apply Nat.add_le_mono_r; exact Lw|exact L2]].
    rewrite <- (map_length fst (kin_dm ke)), <- (map_length k_wd (map fst _)), <- !app_length. apply NoDup_incl_length; [exact M1|].
    intros wd Hin. apply in_map_iff in Hin as ([w d] & <- & Hin). cbn [fst]. rewrite !in_app_iff. destruct (B _ _ Hin) as [Hw|[(r & Hr & _ & Er)|Hl]]; [auto| |auto].
    left. right. apply in_map_iff. now exists r.
Qed.
Print Assumptions C153_memory_is_bounded_by_tree_and_losses_partial.

(** *** Executed *)
Fixpoint after_rounds (s : os) (fuel : nat) (path : text) (il : Z) (n : nat) : option (trace * Z * result * kin) :=
  match n with
  | O => match in_make_sysres s fuel path il [OGeteuid (os_geteuid s [])] with
         | (o, Ok (ok, ke, ep)) => Some (OGeteuid (os_geteuid s []) :: o, ep, ok, ke) | _ => None end
  | Datatypes.S n =>
      match after_rounds s fuel path il n with
      | Some (tr, ep, ok, ke) =>
          if r_lt ok r_complete then
            match os_epoll_wait s tr ep with
            | None => Some (tr ++ [OEpollWait ep None], ep, r_e_sys_api_epoll, ke)
            | Some fds => match each_ready kin kin_fd (in_recv s) il (firstn 64 fds) ok ke (tr ++ [OEpollWait ep (Some fds)]) with
                          | (o, Ok (ok', ke')) => Some (tr ++ OEpollWait ep (Some fds) :: o, ep, ok', ke') | _ => None end
            end
          else None
      | None => None
      end
  end.
Lemma rounds_at_loop s fuel path il n : forall tr ep ok ke, after_rounds s fuel path il n = Some (tr, ep, ok, ke) -> at_loop s fuel path il tr ep ok ke.
Proof.
  induction n as [|n IH]; intros tr ep ok ke E; cbn [after_rounds] in E.
  - destruct (in_make_sysres _ _ _ _ _) as [o [[[ok1 ke1] ep1]|u| |]] eqn:Em; try discriminate. injection E as <- <- <- <-. now constructor.
  - destruct (after_rounds s fuel path il n) as [[[[tr1 ep1] ok1] ke1]|]; [|discriminate]. specialize (IH _ _ _ _ eq_refl).
    destruct (r_lt ok1 r_complete) eqn:L; [|discriminate]. destruct (os_epoll_wait s tr1 ep1) as [fds|] eqn:W.
    + destruct (each_ready _ _ _ _ _ _ _ _) as [o [[ok2 ke2]|u| |]] eqn:Er; try discriminate. injection E as <- <- <- <-. now apply (AtNext s fuel path il) with (ok := ok1) (ke := ke1).
    + injection E as <- <- <- <-. now apply AtFailedWait with (ok := ok1).
Qed.

(** A directory is removed; the reads are so small that the watcher knows only later. *)
Definition small_reads : env :=
  {| e_fd := 3; e_start := kern_start w_dirs []; e_deny := fun _ => false; e_want := fun _ => 0%nat; e_base := fs_base [ready; ready; ready; ready];
     e_ops := e_ops (scripted_env w_dirs [] [ready; ready; ready; ready] [[Make false (lit "/w/d") (lit "f"); Remove (lit "/w/d") (lit "f"); RemoveDir (lit "/w") (lit "d") true]] []) |}.
Example C153_example :
  e_start small_reads = kern_start w_dirs [] /\
  (exists tr ep ok ke, at_loop (system small_reads) 20 (lit "/w") 5 tr ep ok ke /\ In (2%Z, lit "/w/d") (kin_dm ke) /\
     ~ In (lit "/w/d") (kn_dirs (state small_reads tr)) /\ removal_unread (state small_reads tr) 2) /\
  (exists tr ep ok ke, at_loop (system small_reads) 20 (lit "/w") 5 tr ep ok ke /\ kin_dm ke = [(1%Z, lit "/w")] /\ kn_watch (state small_reads tr) = [(1%Z, lit "/w")]).
Proof.
  assert (H : match after_rounds (system small_reads) 20 (lit "/w") 5 2 with
    | Some (tr, ep, ok, ke) => In (2%Z, lit "/w/d") (kin_dm ke) /\ has (lit "/w/d") (kn_dirs (state small_reads tr)) = false /\
        existsb (fun r => match k_kind r with KDeleteSelf => (k_wd r =? 2)%Z | _ => false end) (kn_queue (state small_reads tr)) = true
    | None => False end) by (vm_compute; repeat split; now left).
  assert (H' : match after_rounds (system small_reads) 20 (lit "/w") 5 4 with
    | Some (tr, ep, ok, ke) => kin_dm ke = [(1%Z, lit "/w")] /\ kn_watch (state small_reads tr) = [(1%Z, lit "/w")]
    | None => False end) by (vm_compute; repeat split; now left).
  split; [reflexivity|]. split.
  - destruct (after_rounds _ _ _ _ 2) as [[[[tr ep] ok] ke]|] eqn:E; [|destruct H]. destruct H as (H1 & H2 & H3).
    exists tr, ep, ok, ke. split; [exact (rounds_at_loop _ _ _ _ _ _ _ _ _ E)|]. split; [exact H1|]. split; [intros X; apply in_has in X; congruence|].
    apply existsb_exists in H3 as (r & Hr & H3). exists r. split; [exact Hr|]. clear - H3. destruct (k_kind r); try discriminate H3. split; [reflexivity|now apply Z.eqb_eq].
  - destruct (after_rounds _ _ _ _ 4) as [[[[tr ep] ok] ke]|] eqn:E; [|destruct H']. exists tr, ep, ok, ke. split; [exact (rounds_at_loop _ _ _ _ _ _ _ _ _ E)|exact H'].
Qed.

(** ** C153: not with a queue that overflows *)
(** The kernel's queue has room for two records.  Three times a directory is made, and later
    removed right after two other changes. *)
Definition leaking : denv := dscripted 2 256 tree [] [now_ready; now_ready; now_ready; now_ready; now_ready; now_ready]
  (let made := [DMake true (lit "/w") (lit "n")] in
   let gone := [DMake false (lit "/w") (lit "a"); DRemove (lit "/w") (lit "a"); DRmdir (lit "/w") (lit "n") false] in
   [made; gone; made; gone; made; gone]).
(** The full claim of C153 fails: the records of removals are lost, all there is to read was
    read, and the map has one entry more for each directory that was, for good. *)
Theorem C153_memory_is_bounded_by_the_tree_refuted :
  exists e, de_start e = dk_start tree [] /\ dunprivileged e /\
    exists tr ep ok ke, at_loop (dsystem e) 20 (lit "/w") 5 tr ep ok ke /\ dk_queue (dstate e tr) = [] /\
      map fst (dk_dirs (dstate e tr)) = tree /\
      (length (kin_dm ke) = length (filter (fun w => match snd w with Some _ => true | None => false end) (dk_dirs (dstate e tr))) + 3)%nat /\
      length (filter (fun x => text_eqb (snd x) (lit "/w/n")) (kin_dm ke)) = 3%nat.
Proof.
  exists leaking. split; [reflexivity|]. split; [intros k tr; discriminate|].
  assert (H : match after_rounds (dsystem leaking) 20 (lit "/w") 5 6 with
    | Some (tr, ep, ok, ke) => dk_queue (dstate leaking tr) = [] /\ map fst (dk_dirs (dstate leaking tr)) = tree /\
        (length (kin_dm ke) = length (filter (fun w => match snd w with Some _ => true | None => false end) (dk_dirs (dstate leaking tr))) + 3)%nat /\
        length (filter (fun x => text_eqb (snd x) (lit "/w/n")) (kin_dm ke)) = 3%nat
    | None => False end) by (vm_compute; repeat split).
  destruct (after_rounds _ _ _ _ 6) as [[[[tr ep] ok] ke]|] eqn:E; [|destruct H]. exists tr, ep, ok, ke. split; [exact (rounds_at_loop _ _ _ _ _ _ _ _ _ E)|exact H].
Qed.
Print Assumptions C153_memory_is_bounded_by_the_tree_refuted.
Example C153_deep_example : de_start leaking = dk_start tree [] /\ exists tr ep ok ke, at_loop (dsystem leaking) 20 (lit "/w") 5 tr ep ok ke /\
  (length (kin_dm ke) = 6 /\ length (watches (dstate leaking tr)) = 3 /\ losses (dstate leaking tr) = 9)%nat.
Proof.
  split; [reflexivity|].
  assert (H : match after_rounds (dsystem leaking) 20 (lit "/w") 5 6 with
    | Some (tr, ep, ok, ke) => (length (kin_dm ke) = 6 /\ length (watches (dstate leaking tr)) = 3 /\ losses (dstate leaking tr) = 9)%nat
    | None => False end) by (vm_compute; repeat split).
  destruct (after_rounds _ _ _ _ 6) as [[[[tr ep] ok] ke]|] eqn:E; [|destruct H]. exists tr, ep, ok, ke. split; [exact (rounds_at_loop _ _ _ _ _ _ _ _ _ E)|exact H].
Qed.

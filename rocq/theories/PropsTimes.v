(** Theorems C73 (event times) and C74 (one callback at a time). *)
From Verif Require Import Base PathModel EventModel LinuxWatch Mon WarthogModel WindowsModel DarwinModel DarwinFacts DarwinLife TimeSpec TimeFacts TimeLinux TimeOther.
From Verif Require Sys ExampleOs InotifySpec PropsDarwin.

(** ** C73 *)

(** In every run of the Linux adapter, finished or not, under every system, every
    event carries a time that the clock gave since the last filesystem event
    was told; so if the clock does not go back, filesystem events are told in the order
    of their times. *)
Theorem C73_times_linux :
  forall s fuel path il o r, linux_watch s fuel path il [] = (o, r) ->
    dated (ticks o) /\ (never_back (readings (ticks o)) -> never_back (file_times (ticks o))).
Proof.
  intros s fuel path il o r H. assert (D : dated (ticks o)). { pose proof (well_linux s fuel path il []) as W. now rewrite H in W. }
  split; [exact D|now apply dated_order].
Qed.
Print Assumptions C73_times_linux.

(** The same for the fallback adapter. *)
Theorem C73_times_fallback :
  forall s fuel path o r, warthog_watch s fuel path [] = (o, r) ->
    dated (tks wtick o) /\ (never_back (readings (tks wtick o)) -> never_back (file_times (tks wtick o))).
Proof.
  intros s fuel path o r H. assert (D : dated (tks wtick o)). { pose proof (wh_watch s fuel path []) as W. now rewrite H in W. }
  split; [exact D|now apply dated_order].
Qed.
Print Assumptions C73_times_fallback.

(** The same for Windows. *)
Theorem C73_times_windows :
  forall s fuel path o r, win_watch s fuel path [] = (o, r) ->
    dated (tks ntick o) /\ (never_back (readings (tks ntick o)) -> never_back (file_times (tks ntick o))).
Proof.
  intros s fuel path o r H. assert (D : dated (tks ntick o)). { pose proof (nt_watch s fuel path []) as W. now rewrite H in W. }
  split; [exact D|now apply dated_order].
Qed.
Print Assumptions C73_times_windows.

(** The same for Darwin, whatever threads do. *)
Theorem C73_times_darwin :
  forall s w, dreach s dstart w ->
    dated (tks dtick (dlog w)) /\ (never_back (readings (tks dtick (dlog w))) -> never_back (file_times (tks dtick (dlog w)))).
Proof.
  intros s w H. assert (D : dated (tks dtick (dlog w))) by (apply (dw_reach s _ _ H); apply dated_nil).
  split; [exact D|now apply dated_order].
Qed.
Print Assumptions C73_times_darwin.

(** A run with a modification and a renaming; the clock counts. *)
Example C73_example : exists o r,
  linux_watch (ExampleOs.scripted 1000 ExampleOs.tree_w [Some [3%Z]] [ExampleOs.gives (InotifySpec.encode
    [ExampleOs.kr 1 InotifySpec.KModify false 0 "x"; ExampleOs.kr 2 InotifySpec.KMovedFrom false 7 "a"; ExampleOs.kr 2 InotifySpec.KMovedTo false 7 "b"])])
    20 (lit "/w") 5 [] = (o, r) /\ readings (ticks o) = [18; 20; 21; 22]%Z /\ file_times (ticks o) = [18; 22]%Z.
Proof. do 2 eexists. split; [vm_compute; reflexivity|]. split; reflexivity. Qed.
(** Messages are dated too, but may be told before a filesystem event of an earlier
    time: a new directory's event is made, then the failure to mark it is told, then
    the event. *)
Example C73_messages_example : exists s o r a m e b, linux_watch s 20 (lit "/w") 5 [] = (o, r) /\
  Sys.callbacks o = a ++ m :: e :: b /\ ev_ptype m = PtWatcher /\ ev_ptype e = PtDir /\ (ev_time e < ev_time m)%Z /\ never_back (readings (ticks o)).
Proof.
  set (s0 := ExampleOs.scripted 1000 ExampleOs.tree_w [Some [3%Z]] [ExampleOs.gives (InotifySpec.encode [ExampleOs.kr 1 InotifySpec.KCreate true 0 "n"])]).
  exists (Sys.Build_os (Sys.os_now s0) (Sys.os_geteuid s0) (fun _ p => if text_eqb p (lit "/w/n") then None else Some p) (Sys.os_is_dir s0) (Sys.os_opendir s0)
    (Sys.os_inotify_init s0) (Sys.os_add_watch s0) (Sys.os_fan_init s0) (Sys.os_fan_mark s0) (Sys.os_epoll_create s0) (Sys.os_epoll_ctl s0)
    (Sys.os_epoll_wait s0) (Sys.os_read s0) (Sys.os_open_handle s0) (Sys.os_readlink s0)).
  do 2 eexists. exists []. do 3 eexists. split; [vm_compute; reflexivity|]. split; [reflexivity|]. split; [reflexivity|]. split; [reflexivity|]. split; [reflexivity|].
  apply never_back_sorted. vm_compute readings. repeat constructor; lia.
Qed.

(** ** C74 *)

(** The begins and ends of calls of event_recv. *)
Definition turning (x : dobs) : Prop := match x with DTake _ | DLeave _ => True | _ => False end.
(** Which call is at work after [o], if the calls took turns so far. *)
Definition turn (h : option (option nat)) (x : dobs) : option (option nat) :=
  match x, h with
  | DTake i, Some None => Some (Some i)
  | DLeave i, Some (Some j) => if Nat.eqb i j then Some None else None
  | (DTake _ | DLeave _), _ => None
  | (DCb _ | DRec _ _), Some None => None
  | _, _ => h
  end.
Definition turns (o : list dobs) : option (option nat) := fold_left turn o (Some None).
Lemma turns_app a b : turns (a ++ b) = fold_left turn b (turns a).
Proof. apply fold_left_app. Qed.
Lemma turn_none o : fold_left turn o None = None.
Proof. induction o as [|[] o IH]; cbn; auto. Qed.
Lemma turns_left a b : turns (a ++ b) <> None -> turns a <> None.
Proof. rewrite turns_app. intros H E. rewrite E, turn_none in H. now apply H. Qed.
(** The call at work began and has not ended. *)
Lemma turns_held o : forall i, turns o = Some (Some i) -> exists a m, o = a ++ DTake i :: m /\ Forall (fun x => ~ turning x) m.
Proof.
  induction o as [|x o IH] using rev_ind; intros i H; [discriminate|]. rewrite turns_app in H. cbn in H.
  destruct (turns o) as [h|]; [|destruct x; discriminate H].
  assert (K : h = Some i -> ~ turning x -> exists a m, o ++ [x] = a ++ DTake i :: m /\ Forall (fun x => ~ turning x) m).
  { intros -> N. destruct (IH i eq_refl) as (a & m & -> & F). exists a, (m ++ [x]). split; [now rewrite <- app_assoc|]. apply Forall_app. split; [exact F|]. constructor; [exact N|constructor]. }
  destruct x, h as [j|]; cbn in H; try discriminate H; try (injection H as H; subst; apply K; [reflexivity|cbn; tauto]).
  - injection H as <-. exists o, []. split; [reflexivity|constructor].
  - destruct (Nat.eqb _ _); discriminate H.
Qed.

Lemma turns_plain i o : Forall plain_obs o -> fold_left turn o (Some (Some i)) = Some (Some i).
Proof. induction 1 as [|x o Hx _ IH]; [reflexivity|]. destruct x; cbn in Hx; try tauto; exact IH. Qed.

Section Turns.
  Variable s : dfs.
  (** Who is at work is the one call that is past the mutex. *)
  Definition at_work (w : dworld) : Prop := exists h, turns (dlog w) = Some h /\ forall i, h = Some i <-> exists rs, In (i, RIn rs) (recvs w).
  Lemma at_work_step w w' : dstep s w w' -> who w -> at_work w -> at_work w'.
  Proof.
    intros St Wh (h & T & E). pose proof (wh_one _ Wh) as One. 
    assert (K : forall l, (forall i, (exists rs, In (i, RIn rs) (recvs w')) <-> (exists rs, In (i, RIn rs) (recvs w))) ->
      Forall (fun x => ~ turning x /\ (forall e, x <> DCb e) /\ (forall p f, x <> DRec p f)) l -> dlog w' = dlog w ++ l -> at_work w').
    { intros l H F L. exists h. rewrite L, turns_app, T. split; [|intros i; rewrite E; symmetry; apply H].
      clear - F. induction F as [|x l (H1 & H2 & H3) _ IH]; [reflexivity|]. destruct x; cbn; cbn in H1; try exact IH; try tauto; [now destruct (H2 e)|now destruct (H3 p fl)]. }
    destruct St; cbn [recvs dlog clos locked] in *.
    all: try (solve [match goal with |- at_work (DW _ _ _ _ _ _ (_ ++ ?l)) => apply (K l) end; [intros i0; reflexivity| |reflexivity]; [repeat constructor; cbn; try tauto; try discriminate]]).
    - apply (K []); [|constructor|now rewrite app_nil_r]. intros j. split; intros (rs & H1); exists rs.
      + apply in_app_iff in H1 as [H1|[H1|[]]]; [exact H1|discriminate].
      + apply in_app_iff. now left.
    - apply (K [DDrop i]); [|repeat constructor; cbn; try tauto; try discriminate|reflexivity]. intros j. split; intros (rs & H1); exists rs.
      + apply in_mid. now right.
      + apply in_mid in H1 as [H1|H1]; [discriminate|exact H1].
    - assert (N : h = None).
      { destruct h as [j|]; [|reflexivity]. destruct (proj1 (E j) eq_refl) as (rs' & H1). exfalso.
        assert (C : count_in (r1 ++ (i, RTry (Some rs)) :: r2) = 0%nat) by lia. now apply (count_none _ _ _ C) in H1. }
      subst h. exists (Some i). cbn [dlog recvs]. rewrite turns_app, T. cbn. split; [reflexivity|]. intros j. split.
      + intros [= <-]. exists rs. apply in_mid. now left.
      + intros (rs' & H1). apply in_mid in H1 as [[= -> _]|H1]; [reflexivity|].
        assert (X : exists rs0, In (j, RIn rs0) (r1 ++ (i, RTry (Some rs)) :: r2)) by (exists rs'; apply in_mid; now right). now apply E in X.
    - apply (K [DDrop i]); [|repeat constructor; cbn; try tauto; try discriminate|reflexivity]. intros j. split; intros (rs' & H1); exists rs'.
      + apply in_mid. now right.
      + apply in_mid in H1 as [H1|H1]; [discriminate|exact H1].
    - destruct (recv_one_spec s c p fl (o ++ [DRec p fl])) as (o1 & c1 & there & E1 & P1 & _). rewrite H in E1. injection E1 as <- <-.
      assert (X : h = Some i) by (apply E; eexists; apply in_mid; now left). subst h.
      exists (Some i). cbn [dlog recvs]. rewrite turns_app, T. cbn. split; [now apply turns_plain|]. intros j. rewrite E. split; intros (rs' & H1).
      + apply in_mid in H1 as [[= -> _]|H1]; eexists; apply in_mid; [left; reflexivity|right; exact H1].
      + apply in_mid in H1 as [[= -> _]|H1]; eexists; apply in_mid; [left; reflexivity|right; exact H1].
    - assert (X : h = Some i) by (apply E; eexists; apply in_mid; now left). subst h.
      exists None. cbn [dlog recvs]. rewrite turns_app, T. cbn. rewrite Nat.eqb_refl. split; [reflexivity|]. intros j. split; [discriminate|].
      intros (rs' & H1). exfalso. rewrite count_app, count_cons in One. cbn [inside snd] in One.
      assert (C : count_in (r1 ++ r2) = 0%nat) by (rewrite count_app; destruct l; lia). now apply (count_none _ _ _ C) in H1.
  Qed.
  Lemma at_work_reach w : dreach s dstart w -> at_work w.
  Proof.
    intros R. enough (who w /\ at_work w) by tauto. remember dstart as w0 eqn:E0. induction R as [w|w w' w'' R IH St]; subst.
    - split; [apply (life_reach s dstart); constructor|]. exists None. split; [reflexivity|]. intros i. split; [discriminate|]. intros (rs & []).
    - destruct (IH eq_refl) as [I1 I2]. split; [eapply who_step; eassumption|eapply at_work_step; eassumption].
  Qed.
End Turns.

(** The user's callback is called only within a call of event_recv that has the
    mutex, and a second one takes it only when the first is through: callbacks
    never overlap, on whatever threads the system calls event_recv. *)
Theorem C74_one_callback_at_a_time :
  forall s w, dreach s dstart w ->
    (forall l1 e l2, dlog w = l1 ++ DCb e :: l2 ->
       exists i a m, l1 = a ++ DTake i :: m /\ Forall (fun x => ~ turning x) m) /\
    (forall l1 i l2 j l3, dlog w = l1 ++ DTake i :: l2 ++ DTake j :: l3 -> In (DLeave i) l2).
Proof.
  intros s w R. destruct (at_work_reach s w R) as (h & T & _). split.
  - intros l1 e l2 E. rewrite E in T. rewrite turns_app in T. cbn in T. destruct (turns l1) as [[i|]|] eqn:T1; [|rewrite turn_none in T; discriminate|rewrite turn_none in T; discriminate].
    destruct (turns_held _ _ T1) as (a & m & H). now exists i, a, m.
  - intros l1 i l2 j l3 E. rewrite E in T. replace (l1 ++ DTake i :: l2 ++ DTake j :: l3) with ((l1 ++ DTake i :: l2) ++ DTake j :: l3) in T by now rewrite <- app_assoc.
    rewrite turns_app in T. destruct (turns (l1 ++ DTake i :: l2)) as [[k|]|] eqn:T1; cbn in T; try (rewrite turn_none in T; discriminate). clear T.
    rewrite turns_app in T1. cbn in T1. destruct (turns l1) as [[k|]|]; try (rewrite turn_none in T1; discriminate). clear - T1.
    induction l2 as [|x l2 IH]; [discriminate|]. destruct x; cbn in T1; try (right; now apply IH); try (rewrite turn_none in T1; discriminate).
    destruct (Nat.eqb_spec n i) as [-> |]; [now left|rewrite turn_none in T1; discriminate].
Qed.
Print Assumptions C74_one_callback_at_a_time.
(** Two batches handed over at the same time: the second goes in when the first is through. *)
Example C74_example :
  let s := PropsDarwin.mac [] in exists w l1 l2 l3 e1 e2, dreach s dstart w /\
    dlog w = l1 ++ DTake 1 :: l2 ++ DTake 0 :: l3 /\ In (DCb e1) l2 /\ In (DCb e2) l3 /\ ev_path e1 = lit "/w/b" /\ ev_path e2 = lit "/w/a".
Proof.
  cbv zeta. set (b1 := [PropsDarwin.rc "/w/a" 0x10100]). set (b2 := [PropsDarwin.rc "/w/b" 0x10100]). set (s := PropsDarwin.mac []).
  pose proof (DR1 s _ _ _ (DR0 s dstart) (D_open s _ false 0 [] [] true [])) as R.
  pose proof (DR1 s _ _ _ R (D_occur s _ false 0 [] [] (CWait true) _ (Some b1) I)) as R1.
  pose proof (DR1 s _ _ _ R1 (D_occur s _ false 1 [(0%nat, Some b1)] [] (CWait true) _ (Some b2) I)) as R2.
  pose proof (DR1 s _ _ _ R2 (D_hand s _ false 2 [] 0 (Some b1) [(1%nat, Some b2)] [] (CWait true) _ I)) as R3.
  pose proof (DR1 s _ _ _ R3 (D_hand s _ false 2 [] 1 (Some b2) [] [(0%nat, RTry (Some b1))] (CWait true) _ I)) as R4.
  pose proof (DR1 s _ _ _ R4 (D_take s _ 2 [] [(0%nat, RTry (Some b1))] 1 b2 [] (CWait true) _)) as R5.
  epose proof (fun o' c' H => DR1 s _ _ _ R5 (D_rec s _ true 2 [] [(0%nat, RTry (Some b1))] 1 (lit "/w/b") 0x10100 [] [] (CWait true) _ o' c' H)) as R6. specialize (R6 _ _ eq_refl).
  pose proof (DR1 s _ _ _ R6 (D_leave s _ true 2 [] [(0%nat, RTry (Some b1))] 1 [] (CWait true) _)) as R7.
  pose proof (DR1 s _ _ _ R7 (D_take s _ 2 [] [] 0 b1 [] (CWait true) _)) as R8.
  epose proof (fun o' c' H => DR1 s _ _ _ R8 (D_rec s _ true 2 [] [] 0 (lit "/w/a") 0x10100 [] [] (CWait true) _ o' c' H)) as R9. specialize (R9 _ _ eq_refl).
  eexists _, [DStream true; DOccur 0 (Some b1); DOccur 1 (Some b2)], [_; _; _; _], [_; _; _], _, _. split; [exact R9|].
  split; [reflexivity|]. split; [right; right; left; reflexivity|]. split; [right; right; left; reflexivity|]. split; reflexivity.
Qed.

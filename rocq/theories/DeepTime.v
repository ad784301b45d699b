(** When changes are reported, on the kernel of [DeepSpec]: lemmas for C131 and C132.  As [KernelTime]. *)
From Verif Require Import Base PathModel EventModel Sys SysFacts LinuxModel InotifyModel FanotifyModel LinuxWatch
  LinuxSpec LinuxFacts LinuxRun LinuxProps LinuxChoice LinuxEnds InotifySpec InotifyFacts InotifyRun KernelSpec KernelFacts KernelRun KernelWatch KernelTime
  DeepSpec DeepTimeSpec DeepFacts DeepRun DeepLog.

(** ** Records are only added *)
Definition dnewer (c : N) (x : sent) : Prop := forall mv d p n p' n' a dir, snd x = About mv (DMove d p n p' n') a dir -> (c < mv)%N.
Definition dgrows (k k' : dkern) : Prop :=
  (exists x, everything k' = everything k ++ x /\ Forall (dnewer (dk_cookies k)) x) /\ (exists x, dk_read k' = dk_read k ++ x) /\
  (dk_cookies k <= dk_cookies k')%N.
Lemma dgrows_refl k : dgrows k k.
Proof. split; [exists []; split; [now rewrite app_nil_r|constructor]|]. split; [exists []; now rewrite app_nil_r|]. reflexivity. Qed.
Lemma dgrows_trans a b c : dgrows a b -> dgrows b c -> dgrows a c.
Proof.
  intros ((x & E & N1) & (y & F) & L) ((x' & E' & N2) & (y' & F') & L'). split; [exists (x ++ x'); split; [now rewrite E', E, app_assoc|]|].
  - apply Forall_app. split; [exact N1|]. revert N2. apply Forall_impl. intros r Hr mv d p n p' n' s dir H. specialize (Hr _ _ _ _ _ _ _ _ H). lia.
  - split; [exists (y ++ y'); now rewrite F', F, app_assoc|]. lia.
Qed.
Lemma posts_more max (P : sent -> Prop) : P overflow -> forall l, Forall P l -> forall q, exists x, fst (posts max q l) = q ++ x /\ Forall P x.
Proof.
  intros Ho. induction 1 as [|s l Hs _ IH]; intros q; cbn [posts]; [exists []; split; [now rewrite app_nil_r|constructor]|].
  destruct (post_cases max q s) as [(f0 & -> & _)|[->| ->]].
  - specialize (IH q). destruct (posts max q l). exact IH.
  - destruct (IH (q ++ [s])) as (x & E & Hx). destruct (posts max (q ++ [s]) l). cbn [fst] in *. exists (s :: x). split; [now rewrite E, <- app_assoc|now constructor].
  - destruct (IH (q ++ [overflow])) as (x & E & Hx). destruct (posts max (q ++ [overflow]) l). cbn [fst] in *. exists (overflow :: x). split; [now rewrite E, <- app_assoc|now constructor].
Qed.
Lemma on_watch_newer k p kd dir c n what : (forall t mv d p n p' n' a dir, what t = About mv (DMove d p n p' n') a dir -> (dk_cookies k < mv)%N) ->
  Forall (dnewer (dk_cookies k)) (on_watch k p kd dir c n what).
Proof.
  intros H. apply Forall_forall. intros s Hs. apply on_watch_what in Hs as (wd & _ & Es). intros mv d q m q' m' a dr E. rewrite Es in E. eapply H, E.
Qed.
Lemma drecords_newer k o : Forall (dnewer (dk_cookies k)) (drecords k o).
Proof.
  destruct o as [d p n|p n|p n|p n f|d p n p' n']; cbn [drecords]; try (apply on_watch_newer; intros; discriminate).
  - cbv zeta. destruct f; rewrite !Forall_app; repeat split; apply on_watch_newer; intros; discriminate.
  - cbv zeta. rewrite !Forall_app. split; [|split].
    + apply on_watch_newer. intros t mv d0 q m q' m' a dr [= <- _ _ _ _ _ _ _]. unfold next_cookie. lia.
    + apply on_watch_newer. intros t mv d0 q m q' m' a dr [= <- _ _ _ _ _ _ _]. unfold next_cookie. lia.
    + destruct d; [apply on_watch_newer; intros; discriminate|constructor].
Qed.
Lemma dgrows_happen max k o : dgrows k (dhappen max k o).
Proof.
  unfold dhappen. destruct (dlegal k o); [|apply dgrows_refl].
  destruct (posts_more max (dnewer (dk_cookies k))) with (l := drecords k o) (q := dk_queue k) as (x & E & Hx); [intros mv d p n p' n' a dir H; discriminate H|apply drecords_newer|].
  destruct (posts max (dk_queue k) (drecords k o)) as [q f]. cbn [fst] in E. split; [|split; [exists []; cbn; now rewrite app_nil_r|]].
  - exists x. split; [|exact Hx]. unfold everything. cbn [dk_read dk_queue]. now rewrite E, app_assoc.
  - cbn [dk_cookies]. unfold dcookies_after, next_cookie. destruct o; lia.
Qed.
Lemma dgrows_happens max os : forall k, dgrows k (dhappens max k os).
Proof. induction os as [|o os IH]; intros k; [apply dgrows_refl|]. eapply dgrows_trans; [apply dgrows_happen|apply IH]. Qed.
Lemma dgrows_marking d k p : dgrows k (snd (dmarking d k p)).
Proof.
  unfold dmarking. destruct (_ && _); [|apply dgrows_refl]. destruct (wd_at k p); [apply dgrows_refl|]. destruct (_ <? _)%Z; [|apply dgrows_refl].
  split; [exists []; split; [unfold everything; cbn; now rewrite app_nil_r|constructor]|]. split; [exists []; cbn; now rewrite app_nil_r|]. cbn; lia.
Qed.
Lemma dgrows_reading m w k : dgrows k (snd (dreading m w k)).
Proof.
  unfold dreading. destruct (dk_queue k) as [|r q] eqn:E; [apply dgrows_refl|]. destruct (negb m); [apply dgrows_refl|]. cbn [snd]. split; [|split; [eexists; reflexivity|cbn; lia]].
  exists []. split; [|constructor]. unfold everything. cbn [dk_read dk_queue]. now rewrite E, app_nil_r, <- app_assoc, firstn_skipn.
Qed.

(** ** Moves are not split *)
Definition dapart (a b : list notice) : Prop :=
  forall q mv d p n p' n' dir dir' b', a = q ++ [About mv (DMove d p n p' n') false dir] -> b = About mv (DMove d p n p' n') true dir' :: b' -> False.
Lemma dapart_tail r a b : dapart (r :: a) b -> dapart a b.
Proof. intros W q mv d p n p' n' dir dir' b' E. apply (W (r :: q) mv d p n p' n' dir dir' b'). now rewrite E. Qed.
Lemma told_split ab l : told_of ab l -> forall a b, ab = a ++ b -> dapart a b -> exists l1 l2, l = l1 ++ l2 /\ told_of a l1.
Proof.
  induction 1 as [|mv o s dir ns l _ IH|mv d p n p' n' dir dir' ns l _ IH|ns l _ IH|ns l _ IH|ns l _ IH]; intros a b E W.
  - symmetry in E. apply app_eq_nil in E as [-> _]. exists [], []. split; [reflexivity|constructor].
  - destruct a as [|x a]; cbn in E; [exists []; eexists; split; [reflexivity|constructor]|]. injection E as <- E.
    destruct (IH _ _ E (dapart_tail _ _ _ W)) as (l1 & l2 & -> & H). eexists (_ :: l1), l2. split; [reflexivity|]. now apply TOne.
  - destruct a as [|x a]; cbn in E; [exists []; eexists; split; [reflexivity|constructor]|]. injection E as <- E.
    destruct a as [|y a]; cbn in E; [exfalso; eapply (W []); [reflexivity|symmetry; exact E]|]. injection E as <- E.
    destruct (IH _ _ E (dapart_tail _ _ _ (dapart_tail _ _ _ W))) as (l1 & l2 & -> & H). eexists (_ :: l1), l2. split; [reflexivity|]. now apply TMove.
  - destruct a as [|x a]; cbn in E; [exists []; eexists; split; [reflexivity|constructor]|]. injection E as <- E.
    destruct (IH _ _ E (dapart_tail _ _ _ W)) as (l1 & l2 & -> & H). eexists (_ :: l1), l2. split; [reflexivity|]. now apply TGap.
  - destruct a as [|x a]; cbn in E; [exists []; eexists; split; [reflexivity|constructor]|]. injection E as <- E.
    destruct (IH _ _ E (dapart_tail _ _ _ W)) as (l1 & l2 & -> & H). exists l1, l2. split; [reflexivity|]. now apply TItself.
  - destruct a as [|x a]; cbn in E; [exists []; eexists; split; [reflexivity|constructor]|]. injection E as <- E.
    destruct (IH _ _ E (dapart_tail _ _ _ W)) as (l1 & l2 & -> & H). eexists (_ :: l1), l2. split; [reflexivity|]. now apply TItself'.
Qed.
Lemma dapart_newer k b : kgood k -> Forall (dnewer (dk_cookies k)) b -> dapart (map snd (everything k)) (map snd b).
Proof.
  intros K F q mv d p n p' n' dir dir' b' E Eb. destruct b as [|x b]; [discriminate|]. injection Eb as Ex _. inversion F as [|? ? Fx _]; subst. specialize (Fx _ _ _ _ _ _ _ _ Ex).
  apply map_eq_app in E as (l1 & l2 & E & _ & E2). apply map_eq_cons in E2 as (y & l3 & -> & Ey & E3).
  assert (Hy : In y (everything k)) by (rewrite E; apply in_elt). pose proof (kg_inv _ K) as I.
  pose proof (di_fits _ _ _ _ _ I) as Fi. rewrite Forall_forall in Fi. specialize (Fi _ Hy). unfold fits in Fi. rewrite Ey in Fi. destruct Fi as (_ & _ & _ & _ & Ec).
  pose proof (di_cookies _ _ _ _ _ I) as C. rewrite Forall_forall in C. specialize (C _ Hy). cbn in C. lia.
Qed.

(** ** A ready descriptor is read *)
Lemma drecv_reads (s : os) ke tr o r : in_recv s ke tr = (o, r) -> exists rd x, o = ORead (kin_fd ke) rd :: x.
Proof.
  unfold in_recv, bind, sys_read. intros H. match type of H with (match ?t with _ => _ end) = _ => destruct t as [o1 r1] end. cbn [app] in H. destruct r1; injection H as <- _; eauto.
Qed.
Lemma dready_reads (s : os) il : forall fds ok ke tr o r, each_ready kin kin_fd (in_recv s) il fds ok ke tr = (o, Ok r) ->
  In (kin_fd ke) fds -> kin_fd ke <> il -> exists x rd y, o = x ++ ORead (kin_fd ke) rd :: y.
Proof.
  induction fds as [|fd fds IH]; intros ok ke tr o r E Hin Hne; [destruct Hin|]. cbn [each_ready] in E.
  destruct (Z.eqb_spec fd il) as [->|Hil]; [destruct Hin as [Hin|Hin]; [congruence|eapply IH; eauto]|].
  destruct (Z.eqb_spec fd (kin_fd ke)) as [->|Hfd]; [|destruct Hin as [Hin|Hin]; [congruence|eapply IH; eauto]].
  apply bind_inv in E as [(o1 & [r1 ke1] & o2 & E1 & E2 & ->)|[(? & _ & [=])|[(_ & [=])|(_ & [=])]]].
  apply drecv_reads in E1 as (rd & x & ->). exists [], rd, (x ++ o2). reflexivity.
Qed.

Section Env.
  Variable e : denv.
  Hypothesis start : exists dirs files, de_start e = dk_start dirs files.
  Notation s := (dsystem e).

  Lemma dgrows_snoc tr x : dgrows (dat_call e tr) (dstate e (tr ++ [x])).
  Proof.
    rewrite dstate_snoc. destruct x; cbn [deffect]; try apply dgrows_refl.
    - unfold dadding. destruct (negb _); [apply dgrows_refl|]. destruct (dasks_all _); [apply dgrows_marking|apply dgrows_refl].
    - apply dgrows_reading.
  Qed.
  Lemma dgrows_more o : forall tr, dgrows (dstate e tr) (dstate e (tr ++ o)).
  Proof.
    induction o as [|x o IH]; intros tr; [rewrite app_nil_r; apply dgrows_refl|].
    replace (tr ++ x :: o) with ((tr ++ [x]) ++ o) by (rewrite <- app_assoc; reflexivity).
    eapply dgrows_trans; [|apply IH]. eapply dgrows_trans; [apply dgrows_happens|apply dgrows_snoc].
  Qed.
  Lemma dgrows_from tr x o : dgrows (dat_call e tr) (dstate e (tr ++ x :: o)).
  Proof.
    replace (tr ++ x :: o) with ((tr ++ [x]) ++ o) by (rewrite <- app_assoc; reflexivity).
    eapply dgrows_trans; [apply dgrows_snoc|apply dgrows_more].
  Qed.

  (** A read after [a] leaves nothing of what was there unread. *)
  Lemma dread_covers k0 tr r : dgrows k0 (dat_call e tr) -> (dwaiting k0 <= N.to_nat 4096)%nat -> (256 <= de_want e tr)%nat ->
    (length (everything k0) <= length (dk_read (dstate e (tr ++ [ORead (de_fd e) r]))))%nat.
  Proof.
    intros ((x & Ex & _) & (y & Ey) & _) Hs Hw. rewrite dstate_snoc. cbn [deffect]. rewrite dreading_ours. set (k := dat_call e tr) in *.
    destruct (Nat.le_gt_cases (length (everything k0)) (length (dk_read k))) as [L|L].
    { destruct (dgrows_reading true (de_want e tr) k) as (_ & (z & Ez) & _). rewrite Ez, app_length. unfold sent in *. lia. }
    assert (Q : exists p q, dk_queue k0 = p ++ q /\ dk_queue k = q ++ x /\ dk_read k = dk_read k0 ++ p).
    { unfold everything in *. rewrite Ey, <- !app_assoc in Ex. apply app_inv_head in Ex. rewrite Ey, !app_length in L.
      apply app_split in Ex as [(q & E1 & E2)|(q & E1 & E2)]; [|exists y, q; auto].
      exfalso. rewrite E1, app_length in L. unfold sent in *. lia. }
    destruct Q as (p & q & E0 & E1 & E2). unfold dwaiting in Hs. rewrite E0, map_app in Hs. unfold encode in Hs. rewrite flat_map_app, app_length in Hs. change (flat_map encode_rec (map fst q)) with (encode (map fst q)) in Hs.
    pose proof (encode_len_ge (map fst q)) as Hc. rewrite map_length in Hc.
    assert (HF : (length (map fst q) <= fitting 4096 (S (de_want e tr)) (map fst q ++ map fst x))%nat) by (apply fitting_all; rewrite ?map_length; unfold sent in *; lia).
    rewrite map_length, <- map_app in HF.
    unfold everything. rewrite E0, !app_length. unfold dreading. rewrite E1. destruct (q ++ x) as [|z zs] eqn:Z.
    - apply app_eq_nil in Z as [-> ->]. cbn [snd]. rewrite E2, app_length. cbn. lia.
    - cbn [negb snd dk_read]. rewrite <- Z in *. rewrite E2, !app_length, firstn_length, app_length. unfold sent in *. lia.
  Qed.

  Lemma dtold_before a T known : di e T known -> dgrows (dat_call e a) (dstate e T) -> (length (everything (dat_call e a)) <= length (dk_read (dstate e T)))%nat ->
    exists l l', news T = l ++ l' /\ told_of (due (dat_call e a)) l.
  Proof.
    intros A ((x & Ex & Nx) & (y & Ey) & _) L. pose proof (told_here e _ _ A) as H.
    pose proof (kgood_at e start a) as K.
    assert (R : exists z, dk_read (dstate e T) = everything (dat_call e a) ++ z /\ Forall (dnewer (dk_cookies (dat_call e a))) z).
    { unfold everything at 1 in Ex. destruct (app_split _ _ _ _ Ex) as [(q & E1 & E2)|(q & E1 & E2)]; [exists q; split; [exact E1|]; rewrite E2 in Nx; now apply Forall_app in Nx as [Nx _]|].
      rewrite E1, app_length in L. destruct q; [|cbn in L; lia]. exists []. split; [|constructor]. rewrite app_nil_r in *. now rewrite E1. }
    destruct R as (z & R & Nz). rewrite R, map_app in H. destruct (told_split _ _ H _ _ eq_refl (dapart_newer _ _ K Nz)) as (l1 & l2 & E & H1).
    exists l1, l2. split; [exact E|]. rewrite <- (kg_due _ K). exact H1.
  Qed.

  (** ** The loop *)
  Lemma dloop_wait il : forall fuel ep ok ke tr o r, kin_fd ke = de_fd e -> di e tr (fun k => zfind k (kin_dm ke)) ->
    ep_loop s kin kin_fd (in_recv s) il fuel ep ok ke tr = (o, r) ->
    forall a ep' fds b, o = a ++ OEpollWait ep' (Some fds) :: b ->
    exists ok1 ke1 o1 ok2 ke2 o2, let tr1 := tr ++ a ++ [OEpollWait ep' (Some fds)] in
      os_epoll_wait s (tr ++ a) ep' = Some fds /\ kin_fd ke1 = de_fd e /\
      each_ready kin kin_fd (in_recv s) il (firstn 64 fds) ok1 ke1 tr1 = (o1, Ok (ok2, ke2)) /\
      di e (tr1 ++ o1) (fun k => zfind k (kin_dm ke2)) /\ Forall no_wait o1 /\ b = o1 ++ o2.
  Proof.
    assert (RP : forall ke, LinuxRun.post (in_recv s ke) (fun x => recv_result (fst x) /\ kin_fd (snd x) = kin_fd ke)) by (intros ke tr o a E; now apply in_recv_result in E).
    assert (RQ : forall ke, every (Forall no_wait) (in_recv s ke)) by (intros ke; apply ev_in_recv, closed_no_wait).
    induction fuel as [|n IH]; intros ep ok ke tr o r Hfd A E a ep' fds b Eo; cbn [ep_loop] in E.
    { injection E as <- <-. destruct a; discriminate. }
    destruct (negb (r_lt ok r_complete)).
    { injection E as <- <-. destruct a; discriminate. }
    unfold bind at 1, epoll_wait in E. set (x := OEpollWait ep (os_epoll_wait s tr ep)) in *.
    assert (A' : di e (tr ++ [x]) (fun k => zfind k (kin_dm ke))) by (apply di_quiet; auto; repeat constructor).
    destruct (os_epoll_wait s tr ep) as [fds0|] eqn:Ew.
    - destruct (di_ready e start il (firstn 64 fds0) ok ke _ Hfd A') as (o1 & ok1 & ke1 & E1 & F1 & A1).
      destruct (each_ready_inv kin kin_fd (in_recv s) il RP RQ _ _ _ _ _ _ _ E1) as (_ & Q1 & _).
      unfold bind at 1 in E. rewrite E1 in E.
      destruct (ep_loop s kin kin_fd (in_recv s) il n ep ok1 ke1 ((tr ++ [x]) ++ o1)) as [o2 r2] eqn:E2. injection E as <- <-.
      destruct a as [|y a]; cbn [app] in Eo.
      + injection Eo as -> -> <-. exists ok, ke, o1, ok1, ke1, o2. cbv zeta. cbn [app]. rewrite app_nil_r. auto 10.
      + injection Eo as <- Eo. apply app_split in Eo as [(z & E3 & E4)|(z & E3 & E4)].
        * (* the wait in [o1] *)
          destruct z as [|z1 z]; cbn [app] in E4; [|injection E4 as <- E4; exfalso; rewrite E3 in Q1; apply Forall_app in Q1 as [_ Q1]; inversion Q1; contradiction].
          rewrite app_nil_r in E3. subst o1.
          destruct (IH ep ok1 ke1 _ _ _ F1 A1 E2 [] ep' fds b (eq_sym E4)) as (k1 & k2 & k3 & k4 & k5 & k6 & H1 & H2 & H3 & H4 & H5 & H6).
          exists k1, k2, k3, k4, k5, k6. cbv zeta in *. rewrite <- !app_assoc in *. cbn [app] in *. rewrite app_nil_r in H1. auto 10.
        * subst a. destruct (IH ep ok1 ke1 _ _ _ F1 A1 E2 z ep' fds b E4) as (k1 & k2 & k3 & k4 & k5 & k6 & H1 & H2 & H3 & H4 & H5 & H6).
          exists k1, k2, k3, k4, k5, k6. cbv zeta in *. rewrite <- !app_assoc in *. cbn [app] in *. rewrite <- !app_assoc. auto 10.
    - destruct (ep_loop s kin kin_fd (in_recv s) il n ep r_e_sys_api_epoll ke (tr ++ [x])) as [o2 r2] eqn:E2. injection E as <- <-.
      destruct a as [|y a]; cbn [app] in Eo; injection Eo as Ey Eo; [discriminate|]. subst y.
      destruct (IH ep r_e_sys_api_epoll ke _ _ _ Hfd A' E2 a ep' fds b Eo) as (k1 & k2 & k3 & k4 & k5 & k6 & H1 & H2 & H3 & H4 & H5 & H6).
      exists k1, k2, k3, k4, k5, k6. cbv zeta in *. rewrite <- !app_assoc in *. cbn [app] in *. auto 10.
  Qed.

  (** ** The whole run *)
  Lemma dwatch_wait fuel path il : (forall tr, os_geteuid s tr <> 0%Z) ->
    forall a ep fds b, fst (linux_watch s fuel path il []) = a ++ OEpollWait ep (Some fds) :: b ->
    exists ok1 ke1 o1 ok2 ke2 o2, let tr1 := a ++ [OEpollWait ep (Some fds)] in
      os_epoll_wait s a ep = Some fds /\ kin_fd ke1 = de_fd e /\
      each_ready kin kin_fd (in_recv s) il (firstn 64 fds) ok1 ke1 tr1 = (o1, Ok (ok2, ke2)) /\
      di e (tr1 ++ o1) (fun k => zfind k (kin_dm ke2)) /\ Forall no_wait o1 /\ b = o1 ++ o2.
  Proof.
    intros Hu a ep fds b. unfold linux_watch. unfold bind at 1. unfold try_fanotify. unfold bind at 1, geteuid.
    destruct (Z.eqb_spec (os_geteuid s []) 0) as [H0|_]; [now apply Hu in H0|].
    cbn [app ret r_eqb code N.eqb Pos.eqb]. set (g := OGeteuid (os_geteuid s [])).
    assert (A0 : di e [g] nowhere) by (apply (di_quiet e start [] [g] nowhere); try apply di_nil; repeat constructor; assumption).
    unfold bind at 1. unfold run_inotify, platform_watch. unfold bind at 1.
    pose proof (in_make_start s fuel path il [g]) as Hst. pose proof (dval_make e fuel path il [g]) as Hv.
    pose proof (in_make_no_wait s fuel path il [g]) as Hnw.
    destruct (in_make_sysres s fuel path il [g]) as [m ra] eqn:Ea. cbn [fst] in Hst, Hv, Hnw.
    pose proof (di_seg e start [g] m nowhere Hv (start_no_read _ Hst) (start_news _ Hst) A0) as A1.
    assert (Nog : forall y, g :: m = a ++ OEpollWait ep (Some fds) :: y -> False).
    { intros y E. apply (no_wait_in a ep (Some fds) y). rewrite <- E. constructor; [exact Coq.Init.Logic.I|exact Hnw]. }
    destruct ra as [[[ok ke] ep0]|u| |]; cbn [fst app]; try (intros E; now apply Nog in E).
    pose proof Ea as Ea'. apply in_make_learn in Ea as [Hl _].
    assert (A2 : di e ([g] ++ m) (fun k => zfind k (kin_dm ke))). { eapply di_same; [|exact A1]. intros k. symmetry. apply Hl. }
    assert (Hfd : kin_fd ke = de_fd e) by (eapply din_make_fd, Ea').
    unfold bind at 1. destruct (ep_loop s kin kin_fd (in_recv s) il fuel ep0 ok ke (g :: m)) as [o r] eqn:Eb.
    intros E.
    assert (Eo : exists z, g :: m ++ o ++ z = a ++ OEpollWait ep (Some fds) :: b /\ Forall no_wait z).
    { destruct r as [[ok' ke']|u| |]; cbn [fst snd] in E.
      - unfold bind, sys_close, ret, send_msg, new_event, callback, now in E. cbn in E.
        destruct (r_ge ok' r_e); cbn in E.
        + eexists. split; [rewrite <- E, <- ?app_assoc; cbn [app]; reflexivity|]. repeat constructor.
        + eexists. split; [rewrite <- E, <- ?app_assoc; cbn [app]; reflexivity|]. repeat constructor.
      - exists []. split; [now rewrite app_nil_r, <- E|constructor].
      - exists []. split; [now rewrite app_nil_r, <- E|constructor].
      - exists []. split; [now rewrite app_nil_r, <- E|constructor]. }
    clear E. destruct Eo as (z & E & Hz). change (g :: m ++ o ++ z) with ((g :: m) ++ o ++ z) in E.
    apply app_cons_split in E as [(y & E1 & _)|(y & E1 & E2)]; [now apply Nog in E1|].
    apply app_cons_split in E2 as [(w & E3 & E4)|(w & _ & E4)]; [|exfalso; apply (no_wait_in w ep (Some fds) b); now rewrite <- E4].
    destruct (dloop_wait il _ _ _ _ _ _ _ Hfd A2 Eb _ _ _ _ E3) as (ok1 & ke1 & o1 & ok2 & ke2 & o2 & H1 & H2 & H3 & H4 & H5 & H6).
    exists ok1, ke1, o1, ok2, ke2, (o2 ++ z). cbv zeta in *.
    subst a. change ([g] ++ m) with (g :: m) in *. rewrite <- !app_assoc in *.
    split; [exact H1|]. split; [exact H2|]. split; [exact H3|]. split; [exact H4|]. split; [exact H5|]. now rewrite E4, H6, <- app_assoc.
  Qed.

  (** [T]: a part of the run up to the next wait, or all of it. *)
  Lemma dtold_by_next_wait fuel path il : (forall tr, os_geteuid s tr <> 0%Z) -> dhonest e il ->
    forall a ep fds b c, fst (linux_watch s fuel path il []) = a ++ OEpollWait ep (Some fds) :: b ++ c -> Forall no_wait b ->
    (c = [] \/ exists ep' r c', c = OEpollWait ep' r :: c') -> (dwaiting (dat_call e a) <= N.to_nat 4096)%nat ->
    exists l l', news (a ++ OEpollWait ep (Some fds) :: b) = l ++ l' /\ told_of (due (dat_call e a)) l.
  Proof.
    intros Hu [Hne Hr Hw] a ep fds b c E Hb Hc Hs.
    destruct (dwatch_wait fuel path il Hu _ _ _ _ E) as (ok1 & ke1 & o1 & ok2 & ke2 & o2 & H1 & H2 & H4 & H5 & H6 & H7).
    cbv zeta in *. set (w := OEpollWait ep (Some fds)) in *.
    assert (Hz : exists z, b = o1 ++ z).
    { apply app_split in H7 as [(z & -> & _)|(z & E1 & E2)]; [eauto|]. destruct z as [|x z]; [exists []; now rewrite app_nil_r in *|].
      exfalso. rewrite E1 in H6. apply Forall_app in H6 as [_ H6]. inversion H6 as [|? ? Hx _]; subst x0 l. destruct Hc as [->|(ep' & r & c' & ->)]; [discriminate|].
      injection E2 as <- _. contradiction. }
    destruct Hz as (z & ->).
    replace (a ++ w :: o1 ++ z) with (((a ++ [w]) ++ o1) ++ z) by (rewrite <- !app_assoc; reflexivity).
    destruct (dtold_before a ((a ++ [w]) ++ o1) _ H5) as (l & l' & El & T).
    - rewrite <- app_assoc. apply dgrows_from.
    - destruct (dk_queue (dat_call e a)) as [|r0 q0] eqn:Q.
      + unfold everything. rewrite Q, app_nil_r. rewrite <- app_assoc. destruct (dgrows_from a w o1) as (_ & (y & Ey) & _). cbn [app]. rewrite Ey, app_length. lia.
      + assert (Hin : In (kin_fd ke1) (firstn 64 fds)) by (rewrite H2; apply (Hr _ _ _ H1); rewrite Q; discriminate).
        destruct (dready_reads (dsystem e) il _ _ _ _ _ _ H4 Hin) as (x & rd & y & Ex); [congruence|]. rewrite H2 in Ex.
        assert (C : (length (everything (dat_call e a)) <= length (dk_read (dstate e ((a ++ w :: x) ++ [ORead (de_fd e) rd]))))%nat).
        { apply dread_covers; [|exact Hs|apply Hw]. eapply dgrows_trans; [apply dgrows_from|apply dgrows_happens]. }
        destruct (dgrows_more y ((a ++ w :: x) ++ [ORead (de_fd e) rd])) as (_ & (v & Ev) & _).
        replace ((a ++ [w]) ++ o1) with (((a ++ w :: x) ++ [ORead (de_fd e) rd]) ++ y) by (rewrite Ex, <- !app_assoc; reflexivity).
        rewrite Ev, app_length. lia.
    - exists l, (l' ++ news z). split; [|exact T]. now rewrite news_app, El, app_assoc.
  Qed.

  (** No undefined behaviour. *)
  Lemma dsystem_kernel : inotify_kernel true s.
  Proof.
    intros tr fd n. cbv zeta. cbn [os_read dsystem]. destruct (dk_queue (dat_call e tr)) as [|x q] eqn:Q.
    - left. unfold dreading. rewrite Q. split; reflexivity.
    - destruct (fd =? de_fd e)%Z; [|left; unfold dreading; rewrite Q; split; reflexivity]. right.
      destruct (dreading_batch (de_want e tr) _ x q (kgood_at e start tr) Q) as (ss & B & H1 & H2 & _). exists (map fst ss). split; [exact B|]. split; [discriminate|]. auto.
  Qed.
End Env.

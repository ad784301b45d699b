(** When changes are reported: lemmas for C83 and C84. *)
From Verif Require Import Base PathModel EventModel Sys SysFacts LinuxModel InotifyModel FanotifyModel LinuxWatch
  LinuxSpec LinuxFacts LinuxRun LinuxProps LinuxChoice LinuxEnds InotifySpec InotifyFacts InotifyRun KernelSpec KernelFacts KernelRun KernelWatch.

(** ** Records are only added *)
Definition newer (c : N) (r : krec) : Prop := is_half (k_kind r) = true -> (c < k_cookie r)%N.
Definition grows (k k' : kern) : Prop :=
  (exists x, sofar k' = sofar k ++ x /\ Forall (newer (kn_cookies k)) x) /\ (exists x, kn_read k' = kn_read k ++ x) /\
  (forall w, In w (kn_given k) -> In w (kn_given k')) /\ (kn_cookies k <= kn_cookies k')%N.
Lemma grows_refl k : grows k k.
Proof. split; [exists []; split; [now rewrite app_nil_r|constructor]|]. split; [exists []; now rewrite app_nil_r|]. split; [auto|reflexivity]. Qed.
Lemma grows_trans a b c : grows a b -> grows b c -> grows a c.
Proof.
  intros ((x & E & N1) & (y & F) & H & L) ((x' & E' & N2) & (y' & F') & H' & L'). split; [exists (x ++ x'); split; [now rewrite E', E, app_assoc|]|].
  - apply Forall_app. split; [exact N1|]. revert N2. apply Forall_impl. intros r Hr Hh. specialize (Hr Hh). lia.
  - split; [exists (y ++ y'); now rewrite F', F, app_assoc|]. split; [auto|lia].
Qed.
Lemma push_more (P : krec -> Prop) rs : Forall P rs -> forall q, exists x, fold_left push rs q = q ++ x /\ Forall P x.
Proof.
  induction 1 as [|r rs Hr _ IH]; intros q; cbn; [exists []; split; [now rewrite app_nil_r|constructor]|]. destruct (IH (push q r)) as (x & -> & Hx).
  destruct (push_cases q r) as [->|(-> & _)]; [exists (r :: x); split; [now rewrite <- app_assoc|now constructor]|eauto].
Qed.
Lemma about_newer k p kd dir c n : (is_half kd = true -> c = fresh_cookie k) -> Forall (newer (kn_cookies k)) (about k p kd dir c n).
Proof.
  intros H. eapply Forall_impl; [|apply about_kind]. intros r (E & _ & _ & Ec) Hh. rewrite E in Hh. specialize (H Hh). unfold fresh_cookie in H. lia.
Qed.
Lemma records_newer k o : Forall (newer (kn_cookies k)) (records k o).
Proof.
  destruct o as [d p n|p n|p n|p n f|p n n'|p n|d p n]; cbn [records]; try (apply about_newer; (reflexivity || discriminate)).
  - cbv zeta. destruct f; rewrite !Forall_app; repeat split; apply about_newer; discriminate.
  - apply Forall_app. split; apply about_newer; reflexivity.
Qed.
Lemma grows_happen k o : grows k (happen k o).
Proof.
  unfold happen. destruct (legal k o); [|apply grows_refl]. split; [|split; [exists []; cbn; now rewrite app_nil_r|split; [auto|]]].
  - destruct (push_more _ _ (records_newer k o) (kn_queue k)) as (x & E & Hx). exists x. split; [|exact Hx]. unfold sofar. cbn [kn_read kn_queue]. now rewrite E, app_assoc.
  - cbn [kn_cookies]. unfold cookies_after, fresh_cookie. destruct o; lia.
Qed.
Lemma grows_happens os : forall k, grows k (happens k os).
Proof. induction os as [|o os IH]; intros k; [apply grows_refl|]. eapply grows_trans; [apply grows_happen|apply IH]. Qed.
Lemma grows_marking d k p : grows k (snd (marking d k p)).
Proof.
  unfold marking. destruct (_ && _); [|apply grows_refl]. destruct (watched k p); [apply grows_refl|]. destruct (_ <? _)%Z; [|apply grows_refl].
  split; [exists []; split; [unfold sofar; cbn; now rewrite app_nil_r|constructor]|]. split; [exists []; cbn; now rewrite app_nil_r|]. split; [|cbn; lia]. intros w. cbn. rewrite in_app_iff. auto.
Qed.
Lemma grows_reading w k : grows k (snd (reading w k)).
Proof.
  unfold reading. destruct (kn_queue k) as [|r q] eqn:E; [apply grows_refl|]. cbn [snd]. split; [|split; [eexists; reflexivity|split; [auto|cbn; lia]]].
  exists []. split; [|constructor]. unfold sofar. cbn [kn_read kn_queue]. now rewrite E, app_nil_r, <- app_assoc, firstn_skipn.
Qed.

(** ** Renames are not split *)
Definition apart (a b : list krec) : Prop := forall q r n b', a = q ++ [r] -> b = n :: b' -> ~ rename_pair r n.
Lemma apart_tail r a b : apart (r :: a) b -> apart a b.
Proof. intros W q x n b' E. apply (W (r :: q)). now rewrite E. Qed.
Lemma apart_newer k b : kinv k -> Forall (newer (kn_cookies k)) b -> apart (sofar k) b.
Proof.
  intros K F q r n b' E -> (_ & H2 & H3 & _). apply Forall_cons_iff in F as [F _]. specialize (F ltac:(now rewrite H2)).
  pose proof (ki_cookies _ K) as C. rewrite E in C. apply Forall_app in C as [_ C]. apply Forall_cons_iff in C as [C _]. lia.
Qed.
Lemma grp_split G ab l : grp G ab l -> forall a b, ab = a ++ b -> apart a b -> exists l1 l2, l = l1 ++ l2 /\ grp G a l1.
Proof.
  induction 1 as [|r p f rs l Hi He Hg IH|r n p rs l Hi Hp Hg IH|r rs l He Hg IH]; intros a b E W.
  - symmetry in E. apply app_eq_nil in E as [-> _]. exists [], []. split; [reflexivity|constructor].
  - destruct a as [|x a]; cbn in E; [exists []; eexists; split; [reflexivity|constructor]|]. injection E as <- E.
    destruct (IH _ _ E (apart_tail _ _ _ W)) as (l1 & l2 & -> & H). eexists (_ :: l1), l2. split; [reflexivity|]. econstructor; eassumption.
  - destruct a as [|x a]; cbn in E; [exists []; eexists; split; [reflexivity|constructor]|]. injection E as <- E.
    destruct a as [|y a]; cbn in E; [exfalso; exact (W [] r n rs eq_refl (eq_sym E) Hp)|]. injection E as <- E.
    destruct (IH _ _ E (apart_tail _ _ _ (apart_tail _ _ _ W))) as (l1 & l2 & -> & H). eexists (_ :: l1), l2. split; [reflexivity|]. eapply GR2; eassumption.
  - destruct a as [|x a]; cbn in E; [exists []; eexists; split; [reflexivity|constructor]|]. injection E as <- E.
    destruct (IH _ _ E (apart_tail _ _ _ W)) as (l1 & l2 & -> & H). exists l1, l2. split; [reflexivity|]. apply GR3; assumption.
Qed.

(** ** A read takes all that fits *)
Lemma fitting_all x : forall s room n, (N.of_nat (length (encode s)) <= room)%N -> (length s <= n)%nat -> (length s <= fitting room n (s ++ x))%nat.
Proof.
  induction s as [|r s IH]; intros room n Hr Hn; cbn [length] in *; [lia|]. destruct n as [|n]; [lia|]. cbn [app fitting].
  rewrite encode_cons, app_length in Hr. destruct (N.leb_spec (N.of_nat (length (encode_rec r))) room) as [L|L]; [|lia].
  apply le_n_S, IH; lia.
Qed.
Section Env.
  Variable e : env.
  Hypothesis start : exists dirs files, e_start e = kern_start dirs files.
  Notation s := (system e).

  Lemma grows_snoc tr x : grows (at_call e tr) (state e (tr ++ [x])).
  Proof.
    rewrite state_snoc. destruct x; cbn [effect_on]; try apply grows_refl.
    - unfold adding. destruct (negb _); [apply grows_refl|]. destruct (asks_all _); [apply grows_marking|apply grows_refl].
    - unfold reading_of. destruct (_ =? _)%Z; [apply grows_reading|apply grows_refl].
  Qed.
  Lemma grows_more o : forall tr, grows (state e tr) (state e (tr ++ o)).
  Proof.
    induction o as [|x o IH]; intros tr; [rewrite app_nil_r; apply grows_refl|].
    replace (tr ++ x :: o) with ((tr ++ [x]) ++ o) by (rewrite <- app_assoc; reflexivity).
    eapply grows_trans; [|apply IH]. eapply grows_trans; [apply grows_happens|apply grows_snoc].
  Qed.
  Lemma grows_from tr x o : grows (at_call e tr) (state e (tr ++ x :: o)).
  Proof.
    replace (tr ++ x :: o) with ((tr ++ [x]) ++ o) by (rewrite <- app_assoc; reflexivity).
    eapply grows_trans; [apply grows_snoc|apply grows_more].
  Qed.

  (** A read after [a] leaves nothing of what was there unread. *)
  Lemma read_covers k0 tr r : grows k0 (at_call e tr) -> (N.of_nat (length (encode (kn_queue k0))) <= 4096)%N -> (256 <= e_want e tr)%nat ->
    (length (sofar k0) <= length (kn_read (state e (tr ++ [ORead (e_fd e) r]))))%nat.
  Proof.
    intros ((x & Ex & _) & (y & Ey) & _) Hs Hw. rewrite state_snoc. cbn [effect_on]. rewrite reading_ours. set (k := at_call e tr) in *.
    destruct (Nat.le_gt_cases (length (sofar k0)) (length (kn_read k))) as [L|L].
    { destruct (grows_reading (e_want e tr) k) as (_ & (z & Ez) & _). rewrite Ez, app_length. lia. }
    assert (Q : exists p q, kn_queue k0 = p ++ q /\ kn_queue k = q ++ x /\ kn_read k = kn_read k0 ++ p).
    { unfold sofar in *. rewrite Ey, <- !app_assoc in Ex. apply app_inv_head in Ex. rewrite Ey, !app_length in L.
      apply app_split in Ex as [(q & E1 & E2)|(q & E1 & E2)]; [|exists y, q; auto].
      exfalso. rewrite E1, app_length in L. lia. }
    destruct Q as (p & q & E0 & E1 & E2). rewrite E0 in Hs. unfold encode in Hs. rewrite flat_map_app, app_length in Hs. fold (encode q) in Hs.
    pose proof (encode_len_ge q) as Hc.
    assert (HF : (length q <= fitting 4096 (S (e_want e tr)) (q ++ x))%nat) by (apply fitting_all; lia).
    unfold sofar. rewrite E0, !app_length. unfold reading. rewrite E1. destruct (q ++ x) as [|z zs] eqn:Z.
    - apply app_eq_nil in Z as [-> ->]. cbn [snd]. rewrite E2, app_length. cbn. lia.
    - cbn [snd kn_read]. rewrite <- Z in *. rewrite E2, !app_length, firstn_length, app_length. lia.
  Qed.

  Lemma told_before a T known : ai e T known -> grows (at_call e a) (state e T) -> (length (sofar (at_call e a)) <= length (kn_read (state e T)))%nat ->
    exists l l', fs_shapes T = l ++ l' /\ told (owed (at_call e a)) l.
  Proof.
    intros A ((x & Ex & Nx) & (y & Ey) & Hg & _) L. pose proof (ai_told _ _ _ A) as H.
    pose proof (kinv_at e start a) as K.
    assert (R : exists z, kn_read (state e T) = sofar (at_call e a) ++ z /\ Forall (newer (kn_cookies (at_call e a))) z).
    { unfold sofar at 1 in Ex. destruct (app_split _ _ _ _ Ex) as [(q & E1 & E2)|(q & E1 & E2)]; [exists q; split; [exact E1|]; rewrite E2 in Nx; now apply Forall_app in Nx as [Nx _]|].
      rewrite E1, app_length in L. destruct q; [|cbn in L; lia]. exists []. split; [|constructor]. rewrite app_nil_r in *. now rewrite E1. }
    destruct R as (z & R & Nz). rewrite R in H. destruct (grp_split _ _ _ H _ _ eq_refl (apart_newer _ _ K Nz)) as (l1 & l2 & E & H1).
    exists l1, l2. split; [exact E|]. destruct (ki_log _ K) as (all & Lg & Dd).
    eapply told_log; [exact (ki_fun _ K)|apply le_n| |exact Dd|exact Lg].
    eapply grp_less; [exact H1|]. intros r p Hr Hp. pose proof (ki_wds _ K) as W. rewrite Forall_forall in W. destruct (W r Hr) as (p' & Hp').
    rewrite (ki_fun _ (kinv_state e start T) _ _ _ Hp (Hg _ Hp')). exact Hp'.
  Qed.

  (** ** The loop *)
  Lemma recv_reads ke tr o r : in_recv s ke tr = (o, r) -> exists rd x, o = ORead (kin_fd ke) rd :: x.
  Proof.
    unfold in_recv, bind, sys_read. intros H. match type of H with (match ?t with _ => _ end) = _ => destruct t as [o1 r1] end. cbn [app] in H. destruct r1; injection H as <- _; eauto.
  Qed.
  Lemma ready_reads il : forall fds ok ke tr o r, each_ready kin kin_fd (in_recv s) il fds ok ke tr = (o, Ok r) ->
    In (kin_fd ke) fds -> kin_fd ke <> il -> exists x rd y, o = x ++ ORead (kin_fd ke) rd :: y.
  Proof.
    induction fds as [|fd fds IH]; intros ok ke tr o r E Hin Hne; [destruct Hin|]. cbn [each_ready] in E.
    destruct (Z.eqb_spec fd il) as [->|Hil]; [destruct Hin as [Hin|Hin]; [congruence|eapply IH; eauto]|].
    destruct (Z.eqb_spec fd (kin_fd ke)) as [->|Hfd]; [|destruct Hin as [Hin|Hin]; [congruence|eapply IH; eauto]].
    apply bind_inv in E as [(o1 & [r1 ke1] & o2 & E1 & E2 & ->)|[(? & _ & [=])|[(_ & [=])|(_ & [=])]]].
    apply recv_reads in E1 as (rd & x & ->). exists [], rd, (x ++ o2). reflexivity.
  Qed.
  Lemma recv_post ke : post (in_recv s ke) (fun x => recv_result (fst x) /\ kin_fd (snd x) = kin_fd ke).
  Proof. intros tr o a E. now apply in_recv_result in E. Qed.
  Lemma recv_quiet ke : every (Forall no_wait) (in_recv s ke).
  Proof. apply ev_in_recv, closed_no_wait. Qed.

  Lemma loop_wait il : forall fuel ep ok ke tr o r, kin_fd ke = e_fd e -> ai e tr (fun k => zfind k (kin_dm ke)) ->
    ep_loop s kin kin_fd (in_recv s) il fuel ep ok ke tr = (o, r) ->
    forall a ep' fds b, o = a ++ OEpollWait ep' (Some fds) :: b ->
    exists ok1 ke1 o1 ok2 ke2 o2, let tr1 := tr ++ a ++ [OEpollWait ep' (Some fds)] in
      os_epoll_wait s (tr ++ a) ep' = Some fds /\ kin_fd ke1 = e_fd e /\
      each_ready kin kin_fd (in_recv s) il (firstn 64 fds) ok1 ke1 tr1 = (o1, Ok (ok2, ke2)) /\
      ai e (tr1 ++ o1) (fun k => zfind k (kin_dm ke2)) /\ Forall no_wait o1 /\ b = o1 ++ o2.
  Proof.
    induction fuel as [|n IH]; intros ep ok ke tr o r Hfd A E a ep' fds b Eo; cbn [ep_loop] in E.
    { injection E as <- <-. destruct a; discriminate. }
    destruct (negb (r_lt ok r_complete)).
    { injection E as <- <-. destruct a; discriminate. }
    unfold bind at 1, epoll_wait in E. set (x := OEpollWait ep (os_epoll_wait s tr ep)) in *.
    assert (A' : ai e (tr ++ [x]) (fun k => zfind k (kin_dm ke))) by (apply ai_quiet; auto; repeat constructor).
    destruct (os_epoll_wait s tr ep) as [fds0|] eqn:Ew.
    - destruct (ai_ready e start il (firstn 64 fds0) ok ke _ Hfd A') as (o1 & ok1 & ke1 & E1 & F1 & A1).
      destruct (each_ready_inv kin kin_fd (in_recv s) il recv_post recv_quiet _ _ _ _ _ _ _ E1) as (_ & Q1 & _).
      unfold bind at 1 in E. rewrite E1 in E.
      destruct (ep_loop s kin kin_fd (in_recv s) il n ep ok1 ke1 ((tr ++ [x]) ++ o1)) as [o2 r2] eqn:E2. injection E as <- <-.
      destruct a as [|y a]; cbn [app] in Eo.
      + injection Eo as -> -> <-. exists ok, ke, o1, ok1, ke1, o2. cbv zeta. cbn [app]. rewrite app_nil_r. auto 10.
      + injection Eo as <- Eo. apply app_split in Eo as [(z & E3 & E4)|(z & E3 & E4)].
        * (* the wait in [o1] *)
          destruct z as [|z1 z]; cbn [app] in E4; [|injection E4 as <- E4; exfalso; rewrite E3 in Q1; apply Forall_app in Q1 as [_ Q1]; inversion Q1; contradiction].
          rewrite app_nil_r in E3. subst o1.
          destruct (IH ep ok1 ke1 _ _ _ F1 A1 E2 [] ep' fds b (eq_sym E4)) as (k1 & k2 & k3 & k4 & k5 & k6 & H1 & H2 & H3 & H4 & H5 & H6).
          exists k1, k2, k3, k4, k5, k6. cbv zeta in *. rewrite <- !app_assoc in *. cbn [app] in *. rewrite app_nil_r in H1. auto 10.
        * subst a. destruct (IH ep ok1 ke1 _ _ _ F1 A1 E2 z ep' fds b E4) as (k1 & k2 & k3 & k4 & k5 & k6 & H1 & H2 & H3 & H4 & H5 & H6).
          exists k1, k2, k3, k4, k5, k6. cbv zeta in *. rewrite <- !app_assoc in *. cbn [app] in *. rewrite <- !app_assoc. auto 10.
    - destruct (ep_loop s kin kin_fd (in_recv s) il n ep r_e_sys_api_epoll ke (tr ++ [x])) as [o2 r2] eqn:E2. injection E as <- <-.
      destruct a as [|y a]; cbn [app] in Eo; injection Eo as Ey Eo; [discriminate|]. subst y.
      destruct (IH ep r_e_sys_api_epoll ke _ _ _ Hfd A' E2 a ep' fds b Eo) as (k1 & k2 & k3 & k4 & k5 & k6 & H1 & H2 & H3 & H4 & H5 & H6).
      exists k1, k2, k3, k4, k5, k6. cbv zeta in *. rewrite <- !app_assoc in *. cbn [app] in *. auto 10.
  Qed.

  (** ** The whole run *)
  Lemma no_wait_in a ep fds b : ~ Forall no_wait (a ++ OEpollWait ep fds :: b).
  Proof. intros H. apply Forall_app in H as [_ H]. inversion H. contradiction. Qed.
  Lemma watch_wait fuel path il : (forall tr, os_geteuid s tr <> 0%Z) ->
    forall a ep fds b, fst (linux_watch s fuel path il []) = a ++ OEpollWait ep (Some fds) :: b ->
    exists ok1 ke1 o1 ok2 ke2 o2, let tr1 := a ++ [OEpollWait ep (Some fds)] in
      os_epoll_wait s a ep = Some fds /\ kin_fd ke1 = e_fd e /\
      each_ready kin kin_fd (in_recv s) il (firstn 64 fds) ok1 ke1 tr1 = (o1, Ok (ok2, ke2)) /\
      ai e (tr1 ++ o1) (fun k => zfind k (kin_dm ke2)) /\ Forall no_wait o1 /\ b = o1 ++ o2.
  Proof.
    intros Hu a ep fds b. unfold linux_watch. unfold bind at 1. unfold try_fanotify. unfold bind at 1, geteuid.
    destruct (Z.eqb_spec (os_geteuid s []) 0) as [H0|_]; [now apply Hu in H0|].
    cbn [app ret r_eqb code N.eqb Pos.eqb]. set (g := OGeteuid (os_geteuid s [])).
    assert (A0 : ai e [g] nowhere) by (apply (ai_quiet e start [] [g] nowhere); try apply ai_nil; repeat constructor; assumption).
    unfold bind at 1. unfold run_inotify, platform_watch. unfold bind at 1.
    pose proof (in_make_start s fuel path il [g]) as Hst. pose proof (val_make e fuel path il [g]) as Hv.
    pose proof (in_make_no_wait s fuel path il [g]) as Hnw.
    destruct (in_make_sysres s fuel path il [g]) as [m ra] eqn:Ea. cbn [fst] in Hst, Hv, Hnw.
    pose proof (ai_seg e start [g] m nowhere Hv (start_no_read _ Hst) (start_fs _ Hst) A0) as A1.
    assert (Nog : forall y, g :: m = a ++ OEpollWait ep (Some fds) :: y -> False).
    { intros y E. apply (no_wait_in a ep (Some fds) y). rewrite <- E. constructor; [exact Coq.Init.Logic.I|exact Hnw]. }
    destruct ra as [[[ok ke] ep0]|u| |]; cbn [fst app]; try (intros E; now apply Nog in E).
    pose proof Ea as Ea'. apply in_make_learn in Ea as [Hl _].
    assert (A2 : ai e ([g] ++ m) (fun k => zfind k (kin_dm ke))). { eapply ai_same; [|exact A1]. intros k. symmetry. apply Hl. }
    assert (Hfd : kin_fd ke = e_fd e) by (eapply in_make_fd, Ea').
    unfold bind at 1. destruct (ep_loop s kin kin_fd (in_recv s) il fuel ep0 ok ke (g :: m)) as [o r] eqn:Eb.
    intros E.
    assert (Eo : exists z, g :: m ++ o ++ z = a ++ OEpollWait ep (Some fds) :: b /\ Forall no_wait z).
    { destruct r as [[ok' ke']|u| |]; cbn [fst snd] in E.
      - unfold bind, sys_close, ret, send_msg, new_event, callback, now in E. cbn in E.
        destruct (r_ge ok' r_e); cbn in E.
        + eexists. split; [rewrite <- E, <- ?app_assoc; cbn [app]; reflexivity|]. repeat constructor.
        + eexists. split; [rewrite <- E, <- ?app_assoc; cbn [app]; reflexivity|]. repeat constructor.
      - exists []. split; [now rewrite app_nil_r, <- E|constructor].
      - exists []. split; [now rewrite app_nil_r, <- E|constructor].
      - exists []. split; [now rewrite app_nil_r, <- E|constructor]. }
    clear E. destruct Eo as (z & E & Hz). change (g :: m ++ o ++ z) with ((g :: m) ++ o ++ z) in E.
    apply app_cons_split in E as [(y & E1 & _)|(y & E1 & E2)]; [now apply Nog in E1|].
    apply app_cons_split in E2 as [(w & E3 & E4)|(w & _ & E4)]; [|exfalso; apply (no_wait_in w ep (Some fds) b); now rewrite <- E4].
    destruct (loop_wait il _ _ _ _ _ _ _ Hfd A2 Eb _ _ _ _ E3) as (ok1 & ke1 & o1 & ok2 & ke2 & o2 & H1 & H2 & H3 & H4 & H5 & H6).
    exists ok1, ke1, o1, ok2, ke2, (o2 ++ z). cbv zeta in *.
    subst a. change ([g] ++ m) with (g :: m) in *. rewrite <- !app_assoc in *. 
    split; [exact H1|]. split; [exact H2|]. split; [exact H3|]. split; [exact H4|]. split; [exact H5|]. now rewrite E4, H6, <- app_assoc.
  Qed.

  (** [T]: a part of the run up to the next wait, or all of it. *)
  Lemma told_by_next_wait fuel path il : (forall tr, os_geteuid s tr <> 0%Z) -> e_fd e <> il ->
    (forall tr, (256 <= e_want e tr)%nat) ->
    forall a ep fds b c, fst (linux_watch s fuel path il []) = a ++ OEpollWait ep (Some fds) :: b ++ c -> Forall no_wait b ->
    (c = [] \/ exists ep' r c', c = OEpollWait ep' r :: c') ->
    (kn_queue (at_call e a) <> [] -> In (e_fd e) (firstn 64 fds)) -> (N.of_nat (length (encode (kn_queue (at_call e a)))) <= 4096)%N ->
    exists l l', fs_shapes (a ++ OEpollWait ep (Some fds) :: b) = l ++ l' /\ told (owed (at_call e a)) l.
  Proof.
    intros Hu Hne Hw a ep fds b c E Hb Hc Hr Hs.
    destruct (watch_wait fuel path il Hu _ _ _ _ E) as (ok1 & ke1 & o1 & ok2 & ke2 & o2 & H1 & H2 & H4 & H5 & H6 & H7).
    cbv zeta in *. set (w := OEpollWait ep (Some fds)) in *.
    assert (Hz : exists z, b = o1 ++ z).
    { apply app_split in H7 as [(z & -> & _)|(z & E1 & E2)]; [eauto|]. destruct z as [|x z]; [exists []; now rewrite app_nil_r in *|].
      exfalso. rewrite E1 in H6. apply Forall_app in H6 as [_ H6]. inversion H6 as [|? ? Hx _]; subst x0 l. destruct Hc as [->|(ep' & r & c' & ->)]; [discriminate|].
      injection E2 as <- _. contradiction. }
    destruct Hz as (z & ->).
    replace (a ++ w :: o1 ++ z) with (((a ++ [w]) ++ o1) ++ z) by (rewrite <- !app_assoc; reflexivity).
    destruct (told_before a ((a ++ [w]) ++ o1) _ H5) as (l & l' & El & T).
    - rewrite <- app_assoc. apply grows_from.
    - destruct (kn_queue (at_call e a)) as [|r0 q0] eqn:Q.
      + unfold sofar. rewrite Q, app_nil_r. rewrite <- app_assoc. destruct (grows_from a w o1) as (_ & (y & Ey) & _). cbn [app]. rewrite Ey, app_length. lia.
      + assert (Hin : In (kin_fd ke1) (firstn 64 fds)) by (rewrite H2; apply Hr; discriminate).
        destruct (ready_reads il _ _ _ _ _ _ H4 Hin) as (x & rd & y & Ex); [congruence|]. rewrite H2 in Ex.
        assert (C : (length (sofar (at_call e a)) <= length (kn_read (state e ((a ++ w :: x) ++ [ORead (e_fd e) rd]))))%nat).
        { apply read_covers; [|rewrite Q; exact Hs|apply Hw]. eapply grows_trans; [apply grows_from|apply grows_happens]. }
        destruct (grows_more y ((a ++ w :: x) ++ [ORead (e_fd e) rd])) as (_ & (v & Ev) & _).
        replace ((a ++ [w]) ++ o1) with (((a ++ w :: x) ++ [ORead (e_fd e) rd]) ++ y) by (rewrite Ex, <- !app_assoc; reflexivity).
        rewrite Ev, app_length. lia.
    - exists l, (l' ++ fs_shapes z). split; [|exact T]. now rewrite fs_shapes_app, El, app_assoc.
  Qed.
End Env.

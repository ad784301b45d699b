(** Lemmas: when the fanotify adapter has told of a change, in the environment of [FanWorldSpec]. *)
From Verif Require Import Base PathModel EventModel Sys SysFacts LinuxModel FanotifyModel LinuxWatch LinuxSpec
  LinuxFacts LinuxRun LinuxProps LinuxEnds InotifySpec InotifyRun FanotifySpec FanotifyFacts FanotifyLoop FanotifyRun FanWorldSpec FanWorldFacts FanWorldRun
  LinuxChoice KernelWatch FanLifeSpec.
From Verif Require KernelRun.

(** ** Records are only given more kinds while they wait *)
Definition fuller (r r' : frec) : Prop :=
  f_handle r' = f_handle r /\ f_name r' = f_name r /\ f_pad r' = f_pad r /\ f_dir r' = f_dir r /\ forall k, has k r = true -> has k r' = true.
Lemma fuller_refl r : fuller r r. Proof. repeat split; auto. Qed.
Lemma fuller_trans a b c : fuller a b -> fuller b c -> fuller a c.
Proof. intros (A1 & A2 & A3 & A4 & A5) (B1 & B2 & B3 & B4 & B5). repeat split; try congruence. auto. Qed.
Lemma all_fuller_refl l : Forall2 fuller l l.
Proof. induction l; constructor; auto using fuller_refl. Qed.
Lemma all_fuller_trans : forall a b, Forall2 fuller a b -> forall c, Forall2 fuller b c -> Forall2 fuller a c.
Proof. induction 1 as [|x y a b H _ IH]; intros c Hc; inversion Hc; subst; constructor; eauto using fuller_trans. Qed.
Lemma fuller_count a b : Forall2 fuller a b -> length a = length b.
Proof. induction 1; cbn [length]; congruence. Qed.
Lemma fuller_len r r' : fuller r r' -> f_len r' = f_len r.
Proof. intros (H1 & H2 & H3 & _). unfold f_len. now rewrite H1, H2, H3. Qed.

(** [w'] after [w]. *)
Definition grows (w w' : fworld) : Prop :=
  (exists l x, all_recs w' = l ++ x /\ Forall2 fuller (all_recs w) l) /\ (exists y, fw_batches w' = fw_batches w ++ y).
Lemma grows_refl w : grows w w.
Proof. split; [exists (all_recs w), []; split; [now rewrite app_nil_r|apply all_fuller_refl]|exists []; now rewrite app_nil_r]. Qed.
Lemma grows_trans a b c : grows a b -> grows b c -> grows a c.
Proof.
  intros [(l & x & E & F) (y & Y)] [(l' & x' & E' & F') (y' & Y')]. split; [|exists (y ++ y'); now rewrite Y', Y, app_assoc].
  rewrite E in F'. apply Forall2_app_inv_l in F' as (l1 & l2 & F1 & F2 & ->). exists l1, (l2 ++ x'). rewrite E', app_assoc. split; [reflexivity|]. eapply all_fuller_trans; eassumption.
Qed.
Lemma enqueue_fuller q r : exists l x, enqueue q r = l ++ x /\ Forall2 fuller q l.
Proof.
  induction q as [|y q (l & x & E & F)]; cbn [enqueue]; [exists [], [r]; split; [reflexivity|constructor]|].
  destruct (joins y r) eqn:J.
  - exists (joined y r :: q), []. rewrite app_nil_r. split; [reflexivity|]. constructor; [|apply all_fuller_refl].
    repeat split. intros k Hk. now rewrite has_joined, Hk.
  - exists (y :: l), x. rewrite E. split; [reflexivity|]. constructor; [apply fuller_refl|exact F].
Qed.
Lemma enqueues_fuller rs : forall q, exists l x, fold_left enqueue rs q = l ++ x /\ Forall2 fuller q l.
Proof.
  induction rs as [|r rs IH]; intros q; cbn [fold_left]; [exists q, []; split; [now rewrite app_nil_r|apply all_fuller_refl]|].
  destruct (enqueue_fuller q r) as (l & x & E & F). destruct (IH (enqueue q r)) as (l' & x' & E' & F'). rewrite E in F'.
  apply Forall2_app_inv_l in F' as (l1 & l2 & F1 & F2 & ->). exists l1, (l2 ++ x'). rewrite E', app_assoc. split; [reflexivity|]. eapply all_fuller_trans; eassumption.
Qed.
Lemma grows_happen w o : grows w (happen w o).
Proof.
  unfold happen. destruct (may w o); [|apply grows_refl]. split; [|exists []; cbn; now rewrite app_nil_r].
  destruct (enqueues_fuller (records w o) (fw_queue w)) as (l & x & E & F). unfold all_recs. cbn [fw_batches fw_queue].
  exists (concat (fw_batches w) ++ l), x. rewrite E, app_assoc. split; [reflexivity|]. apply Forall2_app; [apply all_fuller_refl|exact F].
Qed.
Lemma grows_happens os : forall w, grows w (happens w os).
Proof. induction os as [|o os IH]; intros w; [apply grows_refl|]. eapply grows_trans; [apply grows_happen|apply IH]. Qed.
Lemma grows_marking mine deny m w p : grows w (snd (marking mine deny m w p)).
Proof. unfold marking. destruct (_ || _); [apply grows_refl|]. cbn [snd]. destruct (asks m); exact (grows_refl w). Qed.
Lemma grows_reading mine want w : grows w (snd (reading mine want w)).
Proof.
  unfold reading. destruct mine; [|apply grows_refl]. destruct (fw_queue w) as [|r q] eqn:Q; [apply grows_refl|]. set (n := fitting 4095 (S want) (r :: q)). clearbody n. cbn [snd].
  split; [|eexists; reflexivity]. exists (all_recs w), []. split; [|apply all_fuller_refl]. unfold all_recs. cbn [fw_batches fw_queue].
  rewrite concat_app. cbn [concat]. rewrite !app_nil_r, <- app_assoc, firstn_skipn, Q. reflexivity.
Qed.

(** ** What a read takes *)
Lemma rec_bytes r : frec_ok r -> length (fencode_rec (Chg r)) = f_len r.
Proof. intros H. exact (flen_chg r H). Qed.
Lemma queue_bytes q : Forall frec_ok q -> length (fencode (map Chg q)) = list_sum (map f_len q).
Proof.
  induction 1 as [|r q H _ IH]; [reflexivity|]. cbn [map]. rewrite fencode_cons, app_length, IH. change (fencode_rec (Chg r)) with (fencode_rec (Chg r)).
  pose proof (rec_bytes r H) as E. cbn [list_sum fold_right]. unfold list_sum. cbn [fold_right]. lia.
Qed.
Lemma fitting_all x : forall q room n, (N.of_nat (list_sum (map f_len q)) <= room)%N -> (length q <= n)%nat -> (length q <= fitting room n (q ++ x))%nat.
Proof.
  induction q as [|r q IH]; intros room n Hr Hn; cbn [length] in *; [lia|]. destruct n as [|n]; [lia|]. cbn [app fitting].
  unfold list_sum in Hr. cbn [map fold_right] in Hr. fold (list_sum (map f_len q)) in Hr. cbv zeta. destruct (N.leb_spec (N.of_nat (f_len r)) room) as [L|L]; [|lia].
  apply le_n_S, IH; lia.
Qed.
Lemma sum_count q : (44 * length q <= list_sum (map f_len q))%nat.
Proof. induction q as [|r q IH]; [cbn; lia|]. unfold list_sum in *. cbn [map fold_right length]. unfold f_len at 1. lia. Qed.
Lemma sum_fuller a b : Forall2 fuller a b -> list_sum (map f_len b) = list_sum (map f_len a) /\ length b = length a.
Proof. induction 1 as [|x y a b H _ [IH IL]]; [auto|]. unfold list_sum in *. cbn [map fold_right length]. rewrite (fuller_len _ _ H). lia. Qed.

Section Env.
  Variable e : fenv.
  Hypothesis He : fenv_ok e.
  Notation s := (system e).

  Lemma grows_snoc tr x : grows (at_call e tr) (state e (tr ++ [x])).
  Proof. rewrite state_snoc. destruct x; try apply grows_refl; [apply grows_marking|apply grows_reading]. Qed.
  Lemma grows_more o : forall tr, grows (state e tr) (state e (tr ++ o)).
  Proof.
    induction o as [|x o IH]; intros tr; [rewrite app_nil_r; apply grows_refl|].
    replace (tr ++ x :: o) with ((tr ++ [x]) ++ o) by (rewrite <- app_assoc; reflexivity).
    eapply grows_trans; [|apply IH]. eapply grows_trans; [apply grows_happens|apply grows_snoc].
  Qed.
  Lemma grows_from tr x o : grows (at_call e tr) (state e (tr ++ x :: o)).
  Proof.
    replace (tr ++ x :: o) with ((tr ++ [x]) ++ o) by (rewrite <- app_assoc; reflexivity).
    eapply grows_trans; [apply grows_snoc|apply grows_more].
  Qed.
  Lemma queue_ok tr : Forall frec_ok (fw_queue (at_call e tr)).
  Proof.
    apply Forall_forall. intros r Hr. destruct (fi_recs _ (at_call_fine e He tr) r) as (i & Hi); [apply in_or_app; now right|].
    exact (proj1 (rec_in_ok _ _ _ Hi)).
  Qed.

  (** A read after [w0] leaves nothing of what was there unread. *)
  Lemma read_covers a tr rd : let w0 := at_call e a in grows w0 (at_call e tr) -> (fan_waiting w0 <= 4095)%nat -> (256 <= fe_want e tr)%nat ->
    (length (all_recs w0) <= length (concat (fw_batches (state e (tr ++ [ORead (fe_fd e) rd])))))%nat.
  Proof.
    intros w0 [(l & x & E & F) (y & Y)] Hs Hw. unfold fan_waiting in Hs. rewrite queue_bytes in Hs by apply queue_ok.
    rewrite state_snoc. rewrite Z.eqb_refl. set (w := at_call e tr) in *.
    destruct (Nat.le_gt_cases (length (all_recs w0)) (length (concat (fw_batches w)))) as [L|L].
    { destruct (grows_reading true (fe_want e tr) w) as [_ (z & Z)]. rewrite Z, concat_app, app_length. lia. }
    unfold all_recs in E, F, L |- *. rewrite Y, concat_app in E, L.
    apply Forall2_app_inv_l in F as (l1 & l2 & F1 & F2 & ->).
    assert (L1 : length l1 = length (concat (fw_batches w0))) by (symmetry; exact (fuller_count _ _ F1)).
    rewrite <- !app_assoc in E. assert (E' : concat y ++ fw_queue w = l2 ++ x).
    { assert (X : skipn (length l1) (concat (fw_batches w0) ++ concat y ++ fw_queue w) = skipn (length l1) (l1 ++ l2 ++ x)) by now rewrite E.
      rewrite L1 in X at 1. rewrite !skipn_app, !Nat.sub_diag, !skipn_all in X. exact X. }
    pose proof (sum_fuller _ _ F2) as [S2 L2]. rewrite !app_length in L.
    assert (Q : exists q, l2 = concat y ++ q /\ fw_queue w = q ++ x).
    { clear -E' L L2. revert l2 E' L L2. generalize (fw_queue w0) as Q0. generalize (length (concat (fw_batches w0))) as n. induction (concat y) as [|z c IH]; intros n Q0 l2 E L L2; [exists l2; auto|].
      destruct l2 as [|z' l2]; [cbn [length] in *; lia|]. cbn [app] in E. injection E as <- E. destruct Q0 as [|q0 Q0]; [discriminate L2|]. cbn [length] in L, L2.
      destruct (IH n Q0 l2 E) as (q & -> & Hq); [lia|lia|]. exists q. auto. }
    destruct Q as (q & Eq & Ew). rewrite Eq in S2, L2.
    assert (Hsum : (list_sum (map f_len q) <= 4095)%nat) by (rewrite map_app, list_sum_app in S2; lia).
    pose proof (sum_count q) as Hc.
    assert (HF : (length q <= fitting 4095 (S (fe_want e tr)) (q ++ x))%nat) by (apply fitting_all; lia).
    rewrite app_length in L2 |- *. unfold reading. rewrite Ew. destruct (q ++ x) as [|z zs] eqn:Z.
    - apply app_eq_nil in Z as [-> ->]. cbn [snd]. rewrite Y, concat_app, app_length. cbn [length] in L2. lia.
    - rewrite <- Z in *. set (n := fitting _ _ _) in *. clearbody n. rewrite Z. rewrite <- Z. cbn [snd fw_batches]. rewrite Y, !concat_app, !app_length. cbn [concat]. rewrite app_nil_r, firstn_length, app_length. lia.
  Qed.
  (** Then what had changed has a record that was read. *)
  Lemma covered_read a T : let w0 := at_call e a in grows w0 (state e T) -> later w0 (state e T) -> (length (all_recs w0) <= length (concat (fw_batches (state e T))))%nat ->
    forall p k d, In (p, k, d) (fw_log w0) ->
    exists r, In r (concat (fw_batches (state e T))) /\ rec_path (state e T) r = p /\ has k r = true /\ f_dir r = d.
  Proof.
    intros w0 [(l & x & E & F) _] Hl L p k d Hin. destruct (fi_told _ (at_call_fine e He a) p k d Hin) as (r & Hr & Hp & Hk & Hd). fold w0 in Hr, Hp.
    assert (X : exists r', In r' l /\ fuller r r').
    { clear -F Hr. induction F as [|u v m n H _ IH]; [destruct Hr|]. destruct Hr as [->|Hr]; [exists v; split; [now left|exact H]|]. destruct (IH Hr) as (r' & H1 & H2). exists r'. split; [now right|exact H2]. }
    destruct X as (r' & Hr' & (H1 & H2 & _ & H4 & H5)). exists r'. split; [|split; [|split; [now apply H5|congruence]]].
    - pose proof (fuller_count _ _ F) as Hlen. rewrite Hlen in L. unfold all_recs in E.
      assert (P : exists z, concat (fw_batches (state e T)) = l ++ z).
      { exists (skipn (length l) (concat (fw_batches (state e T)))). rewrite <- (firstn_skipn (length l)) at 1. f_equal.
        assert (X : firstn (length l) (concat (fw_batches (state e T)) ++ fw_queue (state e T)) = firstn (length l) (l ++ x)) by now rewrite E.
        rewrite !firstn_app, Nat.sub_diag, firstn_all, firstn_O, app_nil_r in X. replace (length l - length (concat (fw_batches (state e T))))%nat with 0%nat in X by lia.
        now rewrite firstn_O, app_nil_r in X. }
      destruct P as (z & ->). apply in_or_app. now left.
    - destruct (fi_recs _ (at_call_fine e He a) r Hr) as (i & Hi). rewrite <- Hp. unfold rec_path. rewrite H1, H2.
      destruct Hl as [[more Em] _]. fold w0 in Hi. rewrite Em, (handle_of_i _ _ _ Hi (fi_count _ (at_call_fine e He a))).
      rewrite app_nth1 by (pose proof (ri_lt _ _ _ Hi); lia). reflexivity.
  Qed.

  (** ** The loop *)
  Lemma recv_reads ke tr o r : fa_recv s ke tr = (o, r) -> exists rd x, o = ORead (kfa_fd ke) rd :: x.
  Proof.
    unfold fa_recv, bind at 1, sys_read. intros H. match type of H with (match ?t with _ => _ end) = _ => destruct t as [o1 r1] end. cbn [app] in H. injection H as <- _. eauto.
  Qed.
  Lemma ready_reads il : forall fds ok ke tr o r, each_ready kfa kfa_fd (fa_recv s) il fds ok ke tr = (o, Ok r) ->
    In (kfa_fd ke) fds -> kfa_fd ke <> il -> exists x rd y, o = x ++ ORead (kfa_fd ke) rd :: y.
  Proof.
    induction fds as [|fd fds IH]; intros ok ke tr o r E Hin Hne; [destruct Hin|]. cbn [each_ready] in E.
    destruct (Z.eqb_spec fd il) as [->|Hil]; [destruct Hin as [Hin|Hin]; [congruence|eapply IH; eauto]|].
    destruct (Z.eqb_spec fd (kfa_fd ke)) as [->|Hfd]; [|destruct Hin as [Hin|Hin]; [congruence|eapply IH; eauto]].
    apply bind_inv in E as [(o1 & [r1 ke1] & o2 & E1 & E2 & ->)|[(? & _ & [=])|[(_ & [=])|(_ & [=])]]].
    apply recv_reads in E1 as (rd & x & ->). exists [], rd, (x ++ o2). reflexivity.
  Qed.
  Lemma recv_post ke : post (fa_recv s ke) (fun x => recv_result (fst x) /\ kfa_fd (snd x) = kfa_fd ke).
  Proof. apply fa_recv_result. Qed.
  Lemma recv_quiet ke : every (Forall no_wait) (fa_recv s ke).
  Proof. apply ev_fa_recv, closed_no_wait. Qed.

  Lemma loop_wait il : forall fuel ep ok ke tr o r, kfa_fd ke = fe_fd e -> kfa_ok ke ->
    ep_loop s kfa kfa_fd (fa_recv s) il fuel ep ok ke tr = (o, r) ->
    forall a ep' fds b, o = a ++ OEpollWait ep' (Some fds) :: b ->
    exists ok1 ke1 o1 ok2 ke2 o2, let tr1 := tr ++ a ++ [OEpollWait ep' (Some fds)] in
      os_epoll_wait s (tr ++ a) ep' = Some fds /\ kfa_fd ke1 = fe_fd e /\
      each_ready kfa kfa_fd (fa_recv s) il (firstn 64 fds) ok1 ke1 tr1 = (o1, Ok (ok2, ke2)) /\
      went e tr (a ++ OEpollWait ep' (Some fds) :: o1) /\ Forall no_wait o1 /\ b = o1 ++ o2.
  Proof.
    induction fuel as [|n IH]; intros ep ok ke tr o r Hfd A E a ep' fds b Eo; cbn [ep_loop] in E.
    { injection E as <- <-. destruct a; discriminate Eo. }
    destruct (negb (r_lt ok r_complete)).
    { injection E as <- <-. destruct a; discriminate Eo. }
    unfold bind at 1, epoll_wait in E. set (x := OEpollWait ep (os_epoll_wait s tr ep)) in *.
    assert (Wx : went e tr [x]) by (apply went_quiet; [repeat constructor|reflexivity]).
    destruct (os_epoll_wait s tr ep) as [fds0|] eqn:Ew.
    - destruct (each_ready_went e He il (firstn 64 fds0) ok ke (tr ++ [x]) A) as (o1 & ok1 & ke1 & E1 & A1 & W1 & F1). rewrite Hfd in F1.
      destruct (each_ready_inv kfa kfa_fd (fa_recv s) il recv_post recv_quiet _ _ _ _ _ _ _ E1) as (_ & Q1 & _).
      unfold bind at 1 in E. rewrite E1 in E.
      destruct (ep_loop s kfa kfa_fd (fa_recv s) il n ep ok1 ke1 ((tr ++ [x]) ++ o1)) as [o2 r2] eqn:E2. injection E as <- <-.
      destruct a as [|y a]; cbn [app] in Eo.
      + injection Eo as -> -> <-. exists ok, ke, o1, ok1, ke1, o2. cbv zeta. cbn [app]. rewrite app_nil_r. split; [exact Ew|]. split; [exact Hfd|]. split; [exact E1|]. split; [|split; [exact Q1|reflexivity]].
        exact (went_app e tr [x] o1 Wx W1).
      + injection Eo as <- Eo. apply app_cons_split in Eo as [(z & E3 & _)|(z & E3 & E4)].
        { exfalso. rewrite E3 in Q1. apply Forall_app in Q1 as [_ Q1]. inversion Q1. contradiction. }
        subst a. destruct (IH ep ok1 ke1 _ _ _ F1 A1 E2 z ep' fds b E4) as (k1 & k2 & k3 & k4 & k5 & k6 & H1 & H2 & H3 & H4 & H5 & H6).
        exists k1, k2, k3, k4, k5, k6. cbv zeta in *. rewrite <- !app_assoc in H1. cbn [app] in H1. rewrite <- !app_assoc in H3. cbn [app] in H3.
        cbn [app]. rewrite <- !app_assoc. split; [exact H1|]. split; [exact H2|]. split; [exact H3|]. split; [|split; [exact H5|exact H6]].
        exact (went_app e tr [x] _ Wx (went_app e _ o1 _ W1 H4)).
    - destruct (ep_loop s kfa kfa_fd (fa_recv s) il n ep r_e_sys_api_epoll ke (tr ++ [x])) as [o2 r2] eqn:E2. injection E as <- <-.
      destruct a as [|y a]; cbn [app] in Eo; [unfold x in Eo; discriminate Eo|]. injection Eo as Ey Eo. subst y.
      destruct (IH ep r_e_sys_api_epoll ke _ _ _ Hfd A E2 a ep' fds b Eo) as (k1 & k2 & k3 & k4 & k5 & k6 & H1 & H2 & H3 & H4 & H5 & H6).
      exists k1, k2, k3, k4, k5, k6. cbv zeta in *. rewrite <- !app_assoc in H1, H3. cbn [app] in *. split; [exact H1|]. split; [exact H2|]. split; [exact H3|]. split; [|split; [exact H5|exact H6]].
      exact (went_app e tr [x] _ Wx H4).
  Qed.
  Lemma make_fd fuel path il tr o ok ke ep : fa_make_sysres s fuel path il tr = (o, Ok (ok, ke, ep)) -> kfa_fd ke = fe_fd e \/ r_lt ok r_complete = false.
  Proof.
    intros E. unfold fa_make_sysres in E.
    apply bind_inv in E as [(o1 & fd & o2 & E1 & E2 & ->)|[(u & _ & [=])|[(_ & [=])|(_ & [=])]]]. cbv zeta in E2.
    assert (Ef : fd = fe_fd e) by (unfold fanotify_init in E1; cbn in E1; congruence). subst fd. clear E1.
    destruct (Z.ltb_spec (fe_fd e) 1) as [Hlt|_]; [pose proof (fv_fd e He); lia|].
    apply bind_inv in E2 as [(o3 & u & o4 & E3 & E4 & ->)|[(u & _ & [=])|[(_ & [=])|(_ & [=])]]].
    apply bind_inv in E4 as [(o5 & ep1 & o6 & E5 & E6 & ->)|[(u' & _ & [=])|[(_ & [=])|(_ & [=])]]]. clear E3 E5.
    destruct (ep1 <? 1)%Z.
    - apply bind_inv in E6 as [(o7 & u' & o8 & E7 & E8 & ->)|[(u' & _ & [=])|[(_ & [=])|(_ & [=])]]]. injection E8 as _ <- _ _. right. reflexivity.
    - injection E6 as _ _ <- _. now left.
  Qed.

  (** ** The whole run *)
  Lemma no_wait_in a ep fds b : ~ Forall no_wait (a ++ OEpollWait ep fds :: b).
  Proof. intros H. apply Forall_app in H as [_ H]. inversion H. contradiction. Qed.
  Lemma watch_fan fuel path il : exists z, fst (linux_watch s fuel path il []) = OGeteuid 0 :: fst (run_fanotify s fuel path il [OGeteuid 0]) ++ z /\ Forall no_wait z.
  Proof.
    rewrite linux_watch_split. unfold adapters, try_fanotify. rewrite !bind_assoc. unfold bind at 1, geteuid.
    change (os_geteuid s []) with 0%Z. change (0 =? 0)%Z with true. cbv iota. cbn [app]. set (g := OGeteuid 0).
    destruct (run_fanotify_init s fuel path il [g]) as (fd0 & rest0 & Hini & _ & _ & Hnf).
    assert (Hfd0 : (1 <= fd0)%Z).
    { unfold run_fanotify, platform_watch, fa_make_sysres in Hini. rewrite bind_assoc in Hini. unfold bind at 1, fanotify_init in Hini.
      match type of Hini with context [let (_, _) := ?m ?t in _] => destruct (m t) end. injection Hini as <- _. apply (fv_fd e He). }
    specialize (Hnf Hfd0). destruct (run_fanotify s fuel path il [g]) as [o r] eqn:E. cbn [fst snd] in *. unfold bind at 1. rewrite E.
    destruct r as [r|u| |]; cbn [fst]; try (exists []; rewrite app_nil_r; split; [reflexivity|constructor]).
    assert (Hneq : r_eqb r r_e_sys_api_fanotify = false) by (destruct r; try reflexivity; exfalso; now apply Hnf).
    rewrite Hneq. rewrite bind_ret. destruct (r_ge r r_e); cbn; eexists; (split; [reflexivity|repeat constructor]).
  Qed.
  Lemma watch_wait fuel path il :
    forall a ep fds b, fst (linux_watch s fuel path il []) = a ++ OEpollWait ep (Some fds) :: b ->
    exists m n ok1 ke1 o1 ok2 ke2 o2, let tr1 := a ++ [OEpollWait ep (Some fds)] in
      a = m ++ n /\ Forall no_read m /\ (forall x, In x (shown m) -> warns x) /\
      os_epoll_wait s a ep = Some fds /\ kfa_fd ke1 = fe_fd e /\
      each_ready kfa kfa_fd (fa_recv s) il (firstn 64 fds) ok1 ke1 tr1 = (o1, Ok (ok2, ke2)) /\
      went e m (n ++ OEpollWait ep (Some fds) :: o1) /\ Forall no_wait o1 /\ b = o1 ++ o2.
  Proof.
    intros a ep fds b. destruct (watch_fan fuel path il) as (z & -> & Hz). set (g := OGeteuid 0). unfold run_fanotify, platform_watch. unfold bind at 1.
    pose proof (fa_make_start s fuel path il [g]) as (Hst & Hub & Hko). pose proof (fa_make_no_wait s fuel path il [g]) as Hnw. pose proof (make_fd fuel path il [g]) as Hfd.
    destruct (fa_make_sysres s fuel path il [g]) as [m ra]. cbn [fst snd] in *.
    assert (Nog : forall y, g :: m = a ++ OEpollWait ep (Some fds) :: y -> False).
    { intros y E. apply (no_wait_in a ep (Some fds) y). rewrite <- E. constructor; [exact Coq.Init.Logic.I|exact Hnw]. }
    assert (Noz : forall y x, z = y ++ OEpollWait ep (Some fds) :: x -> False) by (intros y x ->; now apply no_wait_in in Hz).
    destruct ra as [[[ok ke] ep0]|u| |]; cbn [fst app]; 
      try (intros E; change (g :: m ++ z) with ((g :: m) ++ z) in E; apply app_cons_split in E as [(y & E1 & _)|(y & _ & E1)]; exfalso; [exact (Nog _ E1)|exact (Noz _ _ E1)]).
    assert (Hma : forall x, In x (shown (g :: m)) -> warns x).
    { change (shown (g :: m)) with (shown m). intros x Hx. unfold shown in Hx. apply in_map_iff in Hx as (ev & <- & Hev).
      assert (Hin : In (OCallback ev) m).
      { clear -Hev. induction m as [|y m IH]; [destruct Hev|]. destruct y; try (right; now apply IH). cbn [callbacks] in Hev. destruct Hev as [->|Hev]; [now left|right; now apply IH]. }
      rewrite Forall_forall in Hst. apply (Hst _ Hin). }
    assert (Hra : Forall no_read (g :: m)) by (constructor; [exact Coq.Init.Logic.I|apply start_no_read, Hst]).
    unfold bind at 1. change ([g] ++ m) with (g :: m).
    destruct (ep_loop s kfa kfa_fd (fa_recv s) il fuel ep0 ok ke (g :: m)) as [o r] eqn:Eb.
    intros E.
    assert (Eo : exists z, (g :: m) ++ o ++ z = a ++ OEpollWait ep (Some fds) :: b /\ Forall no_wait z).
    { destruct r as [[ok' ke']|u| |]; cbn [fst snd] in E.
      - unfold bind, sys_close, ret in E. cbn in E. exists (OClose (kfa_fd ke') :: OClose ep0 :: z). split; [rewrite <- E; cbn [app]; rewrite <- !app_assoc; reflexivity|]. repeat (constructor; [exact Coq.Init.Logic.I|]). exact Hz.
      - exists z. split; [rewrite <- E; cbn [app]; rewrite <- !app_assoc; reflexivity|exact Hz].
      - exists z. split; [rewrite <- E; cbn [app]; rewrite <- !app_assoc; reflexivity|exact Hz].
      - exists z. split; [rewrite <- E; cbn [app]; rewrite <- !app_assoc; reflexivity|exact Hz]. }
    clear E Hz Noz z. destruct Eo as (z & E & Hz).
    apply app_cons_split in E as [(y & E1 & _)|(y & E1 & E2)]; [destruct (Nog _ E1)|].
    apply app_cons_split in E2 as [(w & E3 & E4)|(w & _ & E4)]; [|exfalso; apply (no_wait_in w ep (Some fds) b); now rewrite <- E4].
    assert (Hf : kfa_fd ke = fe_fd e).
    { destruct (Hfd _ _ _ _ eq_refl) as [H|H]; [exact H|]. exfalso. rewrite E3 in Eb. clear -Eb H. destruct fuel; cbn [ep_loop] in Eb; [|rewrite H in Eb]; injection Eb as Eb _; destruct y; discriminate Eb. }
    destruct (loop_wait il _ _ _ _ _ _ _ Hf (Hko _ _ _ eq_refl) Eb _ _ _ _ E3) as (ok1 & ke1 & o1 & ok2 & ke2 & o2 & H1 & H2 & H3 & H4 & H5 & H6).
    exists (g :: m), y, ok1, ke1, o1, ok2, ke2, (o2 ++ z). cbv zeta in *. subst a.
    split; [reflexivity|]. split; [exact Hra|]. split; [exact Hma|]. split; [exact H1|]. split; [exact H2|]. split; [rewrite <- app_assoc; exact H3|]. split; [exact H4|]. split; [exact H5|].
    now rewrite E4, H6, <- app_assoc.
  Qed.

  (** What was told at a point like that. *)
  Lemma went_facts m n : Forall no_read m -> (forall x, In x (shown m) -> warns x) -> went e m n ->
    exists shs, fs_events (m ++ n) = filter about_fs (concat shs) /\ Forall2 (took e (state e (m ++ n))) (fw_batches (state e (m ++ n))) shs.
  Proof.
    intros Hm Hw [(bs & shs & Eb & Es & Ht) _]. exists shs. split.
    - unfold fs_events. rewrite shown_app, filter_app, Es.
      assert (Fa : filter about_fs (shown m) = []).
      { clear -Hw. induction (shown m) as [|x l IH]; [reflexivity|]. cbn [filter]. destruct (Hw x (or_introl eq_refl)) as (q & ->). cbn. apply IH. intros y Hy. apply Hw. now right. }
      now rewrite Fa.
    - assert (E0 : fw_batches (state e m) = []).
      { rewrite <- (app_nil_l m), state_batches by exact Hm. unfold state. cbn [rev state_rev]. destruct (fv_start e He) as (d & f & -> & _). reflexivity. }
      rewrite E0 in Eb. cbn [app] in Eb. now rewrite Eb.
  Qed.
  (** [T]: a part of the run up to the next wait, or all of it. *)
  Lemma told_by_next_wait fuel path il : fan_honest e il ->
    forall a ep fds b c, fst (linux_watch s fuel path il []) = a ++ OEpollWait ep (Some fds) :: b ++ c -> Forall no_wait b ->
    (c = [] \/ exists ep' r c', c = OEpollWait ep' r :: c') -> (fan_waiting (at_call e a) <= 4095)%nat ->
    forall p k d, In (p, k, d) (fw_log (at_call e a)) ->
    exists T y shs r, a ++ OEpollWait ep (Some fds) :: b = T ++ y /\
      fs_events T = filter about_fs (concat shs) /\ Forall2 (took e (state e T)) (fw_batches (state e T)) shs /\
      In r (concat (fw_batches (state e T))) /\ rec_path (state e T) r = p /\ has k r = true /\ f_dir r = d.
  Proof.
    intros [Hne Hwt Hrd] a ep fds b c E Hb Hc Hs p k d Hin.
    destruct (watch_wait fuel path il _ _ _ _ E) as (m & n & ok1 & ke1 & o1 & ok2 & ke2 & o2 & Ea & Hm & Hwm & H1 & H2 & H4 & H5 & H6 & H7).
    cbv zeta in *. set (w := OEpollWait ep (Some fds)) in *.
    assert (Hz : exists z, b = o1 ++ z).
    { apply KernelRun.app_split in H7 as [(z & -> & _)|(z & E1 & E2)]; [eauto|]. destruct z as [|x z]; [exists []; now rewrite app_nil_r in *|].
      exfalso. rewrite E1 in H6. apply Forall_app in H6 as [_ H6]. inversion H6 as [|? ? Hx _]; subst x0 l. destruct Hc as [->|(ep' & r & c' & ->)]; [discriminate E2|].
      injection E2 as <- _. contradiction. }
    destruct Hz as (z & ->). set (T := a ++ w :: o1). exists T, z. unfold T.
    destruct (went_facts m (n ++ w :: o1) Hm Hwm H5) as (shs & Fs & Ht). rewrite app_assoc, <- Ea in Fs, Ht. exists shs.
    destruct (covered_read a T) with (p := p) (k := k) (d := d) as (r & Hr & Hp & Hk & Hd).
    - apply grows_from.
    - unfold T. replace (a ++ w :: o1) with ((a ++ [w]) ++ o1) by (rewrite <- app_assoc; reflexivity).
      refine (later_trans _ _ _ _ (state_later e (a ++ [w]) o1)). rewrite state_snoc. apply later_refl.
    - destruct (fw_queue (at_call e a)) as [|r0 q0] eqn:Q.
      + unfold all_recs. rewrite Q, app_nil_r. destruct (grows_from a w o1) as [_ (y & Ey)]. unfold T. rewrite Ey, concat_app, app_length. lia.
      + assert (Hin' : In (kfa_fd ke1) (firstn 64 fds)).
        { rewrite H2. apply (Hwt a ep fds H1). rewrite Q. discriminate. }
        destruct (ready_reads il _ _ _ _ _ _ H4 Hin') as (x & rd & y & Ex); [congruence|]. rewrite H2 in Ex.
        assert (C : (length (all_recs (at_call e a)) <= length (concat (fw_batches (state e ((a ++ w :: x) ++ [ORead (fe_fd e) rd])))))%nat).
        { apply read_covers; [|exact Hs|apply Hrd]. eapply grows_trans; [apply grows_from|apply grows_happens]. }
        destruct (grows_more y ((a ++ w :: x) ++ [ORead (fe_fd e) rd])) as [_ (v & Ev)].
        unfold T. replace (a ++ w :: o1) with (((a ++ w :: x) ++ [ORead (fe_fd e) rd]) ++ y) by (rewrite Ex, <- !app_assoc; reflexivity).
        rewrite Ev, concat_app, app_length. lia.
    - exact Hin.
    - exists r. split; [now rewrite <- app_assoc|]. split; [exact Fs|]. split; [exact Ht|]. unfold T in *. auto.
  Qed.
  (** The batches of [T] are among those of the whole. *)
  Lemma batches_prefix T y : exists l, fw_batches (state e (T ++ y)) = fw_batches (state e T) ++ l.
  Proof. destruct (grows_more y T) as [_ H]. exact H. Qed.
  Lemma mentioned_by_next_wait fuel path il : fan_honest e il ->
    forall a ep fds b c, fst (linux_watch s fuel path il []) = a ++ OEpollWait ep (Some fds) :: b ++ c -> Forall no_wait b ->
    (c = [] \/ exists ep' r c', c = OEpollWait ep' r :: c') -> (fan_waiting (at_call e a) <= 4095)%nat ->
    let T := a ++ OEpollWait ep (Some fds) :: b in
    (forall p k d, In (p, k, d) (fw_log (at_call e a)) -> (exists x, In x (fs_events T) /\ mentions p x) \/ behind_crossing (state e T) p k d) /\
    (no_renames e -> forall p k d, In (p, k, d) (fw_log (at_call e a)) -> exists x, In x (fs_events T) /\ told_as p k d x).
  Proof.
    intros Hh a ep fds b c E Hb Hc Hs T. split; [intros p k d Hin|intros Hu p k d Hin];
      destruct (told_by_next_wait fuel path il Hh a ep fds b c E Hb Hc Hs p k d Hin) as (T' & y & shs & r & ET & Fs & Ht & Hr & Hp & Hk & Hd).
    - unfold T in *. rewrite ET in *. apply in_concat in Hr as (bt & Hbt & Hr).
      destruct (in_concat_took e _ _ _ bt Ht Hbt) as (sh & Hsh & Hsub). destruct (batches_prefix T' y) as (l & El).
      apply in_split in Hr as (b1 & b2 & ->). destruct (took_reaches e He _ _ _ Hsh b1 r b2 eq_refl) as [(x & Hx & Hm)|H].
      + left. rewrite Hp in Hm. exists x. split; [|exact Hm].
        unfold fs_events in *. rewrite shown_app, filter_app. apply in_or_app. left. rewrite Fs. apply filter_In in Hx as [Hx Hfs]. apply filter_In. auto.
      + right. exists b1, r, b2. split; [rewrite El; apply in_or_app; now left|]. split; [|auto].
        rewrite <- Hp. destruct Hsh as (t & en & _ & Hg & Hl). rewrite Forall_forall in Hg. specialize (Hg r (in_elt r b1 b2)).
        rewrite (rec_path_later e He t _ r Hg Hl). apply (rec_path_later e He t _ r Hg). apply (later_trans _ _ _ Hl). apply state_later.
    - unfold T. rewrite ET. apply in_concat in Hr as (bt & Hbt & Hr).
      destruct (in_concat_took e _ _ _ bt Ht Hbt) as (sh & Hsh & Hsub).
      assert (Hmv : forall x, In x bt -> has FFrom x = false /\ has FTo x = false).
      { intros x Hx. apply (no_moves_recs e He Hu T'). apply in_or_app. left. apply in_concat. eauto. }
      pose proof (took_exact e He _ _ _ Hsh Hmv) as Ex.
      assert (Hev : In (rec_event (state e T') r) (filter about_fs sh)) by (rewrite Ex; now apply in_map).
      exists (rec_event (state e T') r). split.
      + unfold fs_events in *. rewrite shown_app, filter_app. apply in_or_app. left. rewrite Fs. apply filter_In in Hev as [Hx Hfs]. apply filter_In. auto.
      + assert (Hall : has FFrom r = false /\ has FTo r = false) by now apply Hmv.
        exists (f_effect r). unfold rec_event, f_ptype. rewrite Hp, Hd. split; [reflexivity|]. destruct Hall as [M1 M2].
        unfold f_effect. destruct k; try congruence; rewrite ?Hk; auto; destruct (has FCreate r); auto; destruct (has FDelete r); auto; rewrite ?Hk; auto.
  Qed.
  (** Events tell of what had happened when they were sent. *)
  Lemma run_sound fuel path il o r : linux_watch s fuel path il [] = (o, r) ->
    forall x ev y, o = x ++ OCallback ev :: y -> about_fs (shape_of ev) = true -> happened (fw_log (state e x)) (shape_of ev).
  Proof.
    intros E x ev y Ex Hf. destruct (watch_went e He fuel path il) as (a & b & c & r' & E' & _ & Ha & Hwa & [_ Hsd] & Hc & Hcs). rewrite E in E'. injection E' as Eo _. rewrite Ex in Eo.
    symmetry in Eo. apply app_cons_split in Eo as [(z & E1 & _)|(z & E1 & E2)].
    { exfalso. destruct (Hwa (shape_of ev)) as (q & Hq); [rewrite E1, shown_app; apply in_or_app; right; now left|]. rewrite Hq in Hf. discriminate Hf. }
    apply app_cons_split in E2 as [(u & E3 & _)|(u & E3 & E4)].
    - subst x. destruct (Hsd z ev u E3) as [(q & Hq)|H]; [rewrite Hq in Hf; discriminate Hf|exact H].
    - exfalso. destruct Hcs as [Hcs|(ev' & Ec & (Herr & _) & _)].
      + rewrite E4, shown_app in Hcs. destruct (shown u); discriminate Hcs.
      + rewrite E4, callbacks_app in Ec. destruct (callbacks u) as [|v vs]; [|destruct vs; discriminate Ec]. cbn in Ec. injection Ec as -> _.
        destruct ev' as [p f t n0 a0]. destruct Herr as (Hm & _). unfold is_message in *. cbn in *. destruct t; try discriminate Hf; discriminate Hm.
  Qed.
End Env.

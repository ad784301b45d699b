(** Lemmas: when the fanotify adapter has told of a change, in the environment of [FanDeepSpec]
    (as [FanLife] for that of [FanWorldSpec]). *)
From Verif Require Import Base PathModel EventModel Sys SysFacts LinuxModel FanotifyModel LinuxWatch LinuxSpec
  LinuxFacts LinuxRun LinuxProps LinuxEnds InotifySpec InotifyRun FanotifySpec FanotifyFacts FanotifyLoop FanotifyRun FanWorldSpec FanWorldFacts FanWorldRun
  FanDeepSpec FanDeepFacts FanDeepRun LinuxChoice KernelWatch FanDeepLifeSpec.
From Verif Require KernelRun FanLife.
Notation fuller := FanLife.fuller.

(** ** Records are only given more kinds while they wait *)
Definition gfuller (x y : fan) : Prop := match x, y with Ovf, Ovf => True | Chg r, Chg r' => fuller r r' | _, _ => False end.
Lemma gfuller_refl x : gfuller x x. Proof. destruct x; [apply FanLife.fuller_refl|exact Coq.Init.Logic.I]. Qed.
Lemma gfuller_trans a b c : gfuller a b -> gfuller b c -> gfuller a c.
Proof. destruct a, b, c; cbn; try contradiction; auto. apply FanLife.fuller_trans. Qed.
Lemma all_gfuller_refl l : Forall2 gfuller l l.
Proof. induction l; constructor; auto using gfuller_refl. Qed.
Lemma all_gfuller_trans : forall a b, Forall2 gfuller a b -> forall c, Forall2 gfuller b c -> Forall2 gfuller a c.
Proof. induction 1 as [|x y a b H _ IH]; intros c Hc; inversion Hc; subst; constructor; eauto using gfuller_trans. Qed.
Lemma gfuller_count a b : Forall2 gfuller a b -> length a = length b.
Proof. induction 1; cbn [length]; congruence. Qed.

(** [w'] after [w]. *)
Definition ggrows (w w' : gworld) : Prop :=
  (exists l x, gall w' = l ++ x /\ Forall2 gfuller (gall w) l) /\ (exists y, gw_batches w' = gw_batches w ++ y).
Lemma ggrows_refl w : ggrows w w.
Proof. split; [exists (gall w), []; split; [now rewrite app_nil_r|apply all_gfuller_refl]|exists []; now rewrite app_nil_r]. Qed.
Lemma ggrows_trans a b c : ggrows a b -> ggrows b c -> ggrows a c.
Proof.
  intros [(l & x & E & F) (y & Y)] [(l' & x' & E' & F') (y' & Y')]. split; [|exists (y ++ y'); now rewrite Y', Y, app_assoc].
  rewrite E in F'. apply Forall2_app_inv_l in F' as (l1 & l2 & F1 & F2 & ->). exists l1, (l2 ++ x'). rewrite E', app_assoc. split; [reflexivity|]. eapply all_gfuller_trans; eassumption.
Qed.
Lemma gjoin_fuller q r : exists l x, gjoin q r = l ++ x /\ Forall2 gfuller q l.
Proof.
  induction q as [|[y|] q (l & x & E & F)]; cbn [gjoin]; [exists [], [Chg r]; split; [reflexivity|constructor]| |].
  - destruct (joins y r) eqn:J.
    + exists (Chg (joined y r) :: q), []. rewrite app_nil_r. split; [reflexivity|]. constructor; [|apply all_gfuller_refl].
      repeat split. intros k Hk. now rewrite has_joined, Hk.
    + exists (Chg y :: l), x. rewrite E. split; [reflexivity|]. constructor; [apply gfuller_refl|exact F].
  - exists (Ovf :: l), x. rewrite E. split; [reflexivity|]. constructor; [exact Coq.Init.Logic.I|exact F].
Qed.
Lemma gpost_fuller max pid w t : exists l x, gw_queue (gpost max pid w t) = l ++ x /\ Forall2 gfuller (gw_queue w) l.
Proof.
  assert (Same : exists l x, gw_queue w = l ++ x /\ Forall2 gfuller (gw_queue w) l) by (exists (gw_queue w), []; rewrite app_nil_r; split; [reflexivity|apply all_gfuller_refl]).
  destruct t as [[[p n] k] d]. cbn [gpost]. destruct (number w p); [|exact Same]. destruct (existsb _ (gw_marks w)); [|exact Same]. cbv zeta. cbn [gw_queue].
  destruct (_ <=? _)%nat; [|apply gjoin_fuller]. destruct (existsb is_ovf _); [exact Same|]. exists (gw_queue w), [Ovf]. split; [reflexivity|apply all_gfuller_refl].
Qed.
Lemma gposts_fuller max pid ts : forall w, exists l x, gw_queue (fold_left (gpost max pid) ts w) = l ++ x /\ Forall2 gfuller (gw_queue w) l.
Proof.
  induction ts as [|t ts IH]; intros w; cbn [fold_left]; [exists (gw_queue w), []; split; [now rewrite app_nil_r|apply all_gfuller_refl]|].
  destruct (gpost_fuller max pid w t) as (l & x & E & F). destruct (IH (gpost max pid w t)) as (l' & x' & E' & F'). rewrite E in F'.
  apply Forall2_app_inv_l in F' as (l1 & l2 & F1 & F2 & ->). exists l1, (l2 ++ x'). rewrite E', app_assoc. split; [reflexivity|]. eapply all_gfuller_trans; eassumption.
Qed.
Lemma ggrows_happen max w o : ggrows w (ghappen max w o).
Proof.
  unfold ghappen. destruct (gmay w o); [|apply ggrows_refl]. split; [|exists []; cbn; now rewrite app_nil_r].
  destruct (gposts_fuller max (gpid o) (gtouches o) w) as (l & x & E & F). unfold gall. cbn [gw_batches gw_queue].
  exists (concat (gw_batches w) ++ l), x. rewrite E, app_assoc. split; [reflexivity|]. apply Forall2_app; [apply all_gfuller_refl|exact F].
Qed.
Lemma ggrows_happens max os : forall w, ggrows w (ghappens max w os).
Proof. induction os as [|o os IH]; intros w; [apply ggrows_refl|]. eapply ggrows_trans; [apply ggrows_happen|apply IH]. Qed.
Lemma ggrows_marking mine deny m w p : ggrows w (snd (gmarking mine deny m w p)).
Proof. unfold gmarking. destruct (number w p); [|apply ggrows_refl]. destruct (_ || _); [apply ggrows_refl|]. cbn [snd]. destruct (asks m); exact (ggrows_refl w). Qed.
Lemma ggrows_reading mine want w : ggrows w (snd (greading mine want w)).
Proof.
  unfold greading. destruct mine; [|apply ggrows_refl]. destruct (gw_queue w) as [|r q] eqn:Q; [apply ggrows_refl|]. set (n := gfitting 4095 (S want) (r :: q)). clearbody n. cbn [snd].
  split; [|eexists; reflexivity]. exists (gall w), []. split; [|apply all_gfuller_refl]. unfold gall. cbn [gw_batches gw_queue].
  rewrite concat_app. cbn [concat]. rewrite !app_nil_r, <- app_assoc, firstn_skipn, Q. reflexivity.
Qed.

(** ** What a read takes *)
Definition flen (x : fan) : nat := length (fencode_rec x).
Lemma queue_bytes q : length (fencode q) = list_sum (map flen q).
Proof. induction q as [|r q IH]; [reflexivity|]. rewrite fencode_cons, app_length, IH. reflexivity. Qed.
Lemma gfitting_all x : forall q room n, (N.of_nat (list_sum (map flen q)) <= room)%N -> (length q <= n)%nat -> (length q <= gfitting room n (q ++ x))%nat.
Proof.
  induction q as [|r q IH]; intros room n Hr Hn; cbn [length] in *; [lia|]. destruct n as [|n]; [lia|]. cbn [app gfitting].
  unfold list_sum in Hr. cbn [map fold_right] in Hr. fold (list_sum (map flen q)) in Hr. cbv zeta. fold (flen r). destruct (N.leb_spec (N.of_nat (flen r)) room) as [L|L]; [|lia].
  apply le_n_S, IH; lia.
Qed.
Lemma flen_least x : (match x with Chg r => frec_ok r | Ovf => True end) -> (24 <= flen x)%nat.
Proof. destruct x as [r|]; intros H; unfold flen; [rewrite FanLife.rec_bytes by exact H; unfold f_len; lia|cbn; lia]. Qed.
Lemma sum_count q : Forall (fun x => match x with Chg r => frec_ok r | Ovf => True end) q -> (24 * length q <= list_sum (map flen q))%nat.
Proof. induction 1 as [|r q H _ IH]; [cbn; lia|]. apply flen_least in H. unfold list_sum in *. cbn [map fold_right length]. lia. Qed.
Lemma sum_fuller a b : Forall2 gfuller a b -> Forall (fun x => match x with Chg r => frec_ok r | Ovf => True end) a -> Forall (fun x => match x with Chg r => frec_ok r | Ovf => True end) b ->
  list_sum (map flen b) = list_sum (map flen a) /\ length b = length a.
Proof.
  induction 1 as [|x y a b H _ IH]; [auto|]. intros A B. inversion A; inversion B; subst. destruct (IH) as [S L]; auto. unfold list_sum in *. cbn [map fold_right length].
  split; [|lia]. f_equal; [|exact S]. destruct x as [r|], y as [r'|]; cbn in H; try contradiction; [|reflexivity]. unfold flen. rewrite !FanLife.rec_bytes by assumption. now apply FanLife.fuller_len.
Qed.

Section Env.
  Variable e : genv.
  Hypothesis He : genv_ok e.
  Notation s := (gsystem e).

  Lemma ggrows_snoc tr x : ggrows (gat_call e tr) (gstate e (tr ++ [x])).
  Proof. rewrite gstate_snoc. destruct x; try apply ggrows_refl; [apply ggrows_marking|apply ggrows_reading]. Qed.
  Lemma ggrows_more o : forall tr, ggrows (gstate e tr) (gstate e (tr ++ o)).
  Proof.
    induction o as [|x o IH]; intros tr; [rewrite app_nil_r; apply ggrows_refl|].
    replace (tr ++ x :: o) with ((tr ++ [x]) ++ o) by (rewrite <- app_assoc; reflexivity).
    eapply ggrows_trans; [|apply IH]. eapply ggrows_trans; [apply ggrows_happens|apply ggrows_snoc].
  Qed.
  Lemma ggrows_from tr x o : ggrows (gat_call e tr) (gstate e (tr ++ x :: o)).
  Proof.
    replace (tr ++ x :: o) with ((tr ++ [x]) ++ o) by (rewrite <- app_assoc; reflexivity).
    eapply ggrows_trans; [apply ggrows_snoc|apply ggrows_more].
  Qed.
  Lemma queue_ok tr : Forall (fun x => match x with Chg r => frec_ok r | Ovf => True end) (gw_queue (gat_call e tr)).
  Proof.
    apply Forall_forall. intros [r|] Hr; [|exact Coq.Init.Logic.I].
    exact (proj1 (grec_ok _ _ (gf_recs _ (gat_call_fine e He tr) r (in_or_app _ _ _ (or_intror Hr))))).
  Qed.

  (** A read after [w0] leaves nothing of what was there unread. *)
  Lemma read_covers a tr rd : let w0 := gat_call e a in ggrows w0 (gat_call e tr) -> (deep_waiting w0 <= 4095)%nat -> (256 <= ge_want e tr)%nat ->
    (length (gall w0) <= length (concat (gw_batches (gstate e (tr ++ [ORead (ge_fd e) rd])))))%nat.
  Proof.
    intros w0 [(l & x & E & F) (y & Y)] Hs Hw. unfold deep_waiting in Hs. rewrite queue_bytes in Hs.
    rewrite gstate_snoc. rewrite Z.eqb_refl. pose proof (queue_ok a) as Qa. pose proof (queue_ok tr) as Qt. fold w0 in Qa. set (w := gat_call e tr) in *.
    destruct (Nat.le_gt_cases (length (gall w0)) (length (concat (gw_batches w)))) as [L|L].
    { destruct (ggrows_reading true (ge_want e tr) w) as [_ (z & Z)]. rewrite Z, concat_app, app_length. lia. }
    unfold gall in E, F, L |- *. rewrite Y, concat_app in E, L.
    apply Forall2_app_inv_l in F as (l1 & l2 & F1 & F2 & ->).
    assert (L1 : length l1 = length (concat (gw_batches w0))) by (symmetry; exact (gfuller_count _ _ F1)).
    rewrite <- !app_assoc in E. assert (E' : concat y ++ gw_queue w = l2 ++ x).
    { assert (X : skipn (length l1) (concat (gw_batches w0) ++ concat y ++ gw_queue w) = skipn (length l1) (l1 ++ l2 ++ x)) by now rewrite E.
      rewrite L1 in X at 1. rewrite !skipn_app, !Nat.sub_diag, !skipn_all in X. exact X. }
    pose proof (gfuller_count _ _ F2) as L2. symmetry in L2. rewrite !app_length in L.
    assert (Q : exists q, l2 = concat y ++ q /\ gw_queue w = q ++ x).
    { clear -E' L L2. revert l2 E' L L2. generalize (gw_queue w0) as Q0. generalize (length (concat (gw_batches w0))) as n. induction (concat y) as [|z c IH]; intros n Q0 l2 E L L2; [exists l2; auto|].
      destruct l2 as [|z' l2]; [cbn [length] in *; lia|]. cbn [app] in E. injection E as <- E. destruct Q0 as [|q0 Q0]; [discriminate L2|]. cbn [length] in L, L2.
      destruct (IH n Q0 l2 E) as (q & -> & Hq); [lia|lia|]. exists q. auto. }
    destruct Q as (q & Eq & Ew).
    assert (Qq : Forall (fun x => match x with Chg r => frec_ok r | Ovf => True end) q) by (rewrite Ew in Qt; apply Forall_app in Qt; apply Qt).
    assert (F3 : exists q0, Forall2 gfuller q0 q /\ (list_sum (map flen q0) <= 4095)%nat /\ Forall (fun x => match x with Chg r => frec_ok r | Ovf => True end) q0).
    { rewrite Eq in F2. apply Forall2_app_inv_r in F2 as (q1 & q0 & _ & F3 & E0). rewrite E0 in *. exists q0. split; [exact F3|]. apply Forall_app in Qa as [_ Qa].
      rewrite map_app, list_sum_app in Hs. split; [lia|exact Qa]. }
    destruct F3 as (q0 & F3 & Hs0 & Qq0). destruct (sum_fuller _ _ F3 Qq0 Qq) as [S3 L3].
    assert (Hsum : (list_sum (map flen q) <= 4095)%nat) by lia.
    pose proof (sum_count q Qq) as Hc.
    assert (HF : (length q <= gfitting 4095 (S (ge_want e tr)) (q ++ x))%nat) by (apply gfitting_all; lia).
    rewrite Eq in L2. rewrite app_length in L2 |- *. unfold greading. rewrite Ew. destruct (q ++ x) as [|z zs] eqn:Z.
    - apply app_eq_nil in Z as [-> ->]. cbn [snd]. rewrite Y, concat_app, app_length. cbn [length] in L2. lia.
    - rewrite <- Z in *. set (n := gfitting _ _ _) in *. clearbody n. rewrite Z. rewrite <- Z. cbn [snd gw_batches]. rewrite Y, !concat_app, !app_length. cbn [concat]. rewrite app_nil_r, firstn_length, app_length. lia.
  Qed.
  (** Then what had changed has a record that was read. *)
  Lemma covered_read a T : let w0 := gat_call e a in ggrows w0 (gstate e T) -> (length (gall w0) <= length (concat (gw_batches (gstate e T))))%nat ->
    forall i n k d, In (Did i n k d true) (gw_log w0) ->
    exists r, In (Chg r) (concat (gw_batches (gstate e T))) /\ rec_dir r = i /\ f_name r = n /\ has k r = true /\ f_dir r = d.
  Proof.
    intros w0 [(l & x & E & F) _] L i n k d Hin. destruct (gf_told _ (gat_call_fine e He a) i n k d Hin) as (r & Hr & Hi & Hn & Hk & Hd). fold w0 in Hr.
    assert (X : exists r', In (Chg r') l /\ fuller r r').
    { clear -F Hr. induction F as [|u v m l' H _ IH]; [destruct Hr|]. destruct Hr as [->|Hr]; [destruct v as [r'|]; [exists r'; split; [now left|exact H]|destruct H]|]. destruct (IH Hr) as (r' & H1 & H2). exists r'. split; [now right|exact H2]. }
    destruct X as (r' & Hr' & (H1 & H2 & _ & H4 & H5)). exists r'. split; [|split; [unfold rec_dir in *; congruence|split; [congruence|split; [now apply H5|congruence]]]].
    pose proof (gfuller_count _ _ F) as Hlen. rewrite Hlen in L. unfold gall in E.
    assert (P : exists z, concat (gw_batches (gstate e T)) = l ++ z).
    { exists (skipn (length l) (concat (gw_batches (gstate e T)))). rewrite <- (firstn_skipn (length l)) at 1. f_equal.
      assert (X : firstn (length l) (concat (gw_batches (gstate e T)) ++ gw_queue (gstate e T)) = firstn (length l) (l ++ x)) by now rewrite E.
      rewrite !firstn_app, Nat.sub_diag, firstn_all, firstn_O, app_nil_r in X. replace (length l - length (concat (gw_batches (gstate e T))))%nat with 0%nat in X by lia.
      now rewrite firstn_O, app_nil_r in X. }
    destruct P as (z & ->). apply in_or_app. now left.
  Qed.

  (** ** The loop *)
  Lemma recv_reads ke tr o r : fa_recv s ke tr = (o, r) -> exists rd x, o = ORead (kfa_fd ke) rd :: x.
  Proof.
    unfold fa_recv, bind at 1, sys_read. intros H. match type of H with (match ?t with _ => _ end) = _ => destruct t as [o1 r1] end. cbn [app] in H. injection H as <- _. eauto.
  Qed.
  Lemma ready_reads il : forall fds ok ke tr o r, each_ready kfa kfa_fd (fa_recv s) il fds ok ke tr = (o, Ok r) ->
    In (kfa_fd ke) fds -> kfa_fd ke <> il -> exists x rd y, o = x ++ ORead (kfa_fd ke) rd :: y.
  Proof.
    induction fds as [|fd fds IH]; intros ok ke tr o r E Hin Hne; [destruct Hin|]. cbn [each_ready] in E.
    destruct (Z.eqb_spec fd il) as [->|Hil]; [destruct Hin as [Hin|Hin]; [congruence|eapply IH; eauto]|].
    destruct (Z.eqb_spec fd (kfa_fd ke)) as [->|Hfd]; [|destruct Hin as [Hin|Hin]; [congruence|eapply IH; eauto]].
    apply bind_inv in E as [(o1 & [r1 ke1] & o2 & E1 & E2 & ->)|[(? & _ & [=])|[(_ & [=])|(_ & [=])]]].
    apply recv_reads in E1 as (rd & x & ->). exists [], rd, (x ++ o2). reflexivity.
  Qed.
  Lemma recv_post ke : post (fa_recv s ke) (fun x => recv_result (fst x) /\ kfa_fd (snd x) = kfa_fd ke).
  Proof. apply fa_recv_result. Qed.
  Lemma recv_quiet ke : every (Forall no_wait) (fa_recv s ke).
  Proof. apply ev_fa_recv, closed_no_wait. Qed.

  Lemma loop_wait il : forall fuel ep ok ke tr o r, kfa_fd ke = ge_fd e -> kfa_ok ke ->
    ep_loop s kfa kfa_fd (fa_recv s) il fuel ep ok ke tr = (o, r) ->
    forall a ep' fds b, o = a ++ OEpollWait ep' (Some fds) :: b ->
    exists ok1 ke1 o1 ok2 ke2 o2, let tr1 := tr ++ a ++ [OEpollWait ep' (Some fds)] in
      os_epoll_wait s (tr ++ a) ep' = Some fds /\ kfa_fd ke1 = ge_fd e /\
      each_ready kfa kfa_fd (fa_recv s) il (firstn 64 fds) ok1 ke1 tr1 = (o1, Ok (ok2, ke2)) /\
      FanDeepRun.went e tr (a ++ OEpollWait ep' (Some fds) :: o1) /\ Forall no_wait o1 /\ b = o1 ++ o2.
  Proof.
    induction fuel as [|n IH]; intros ep ok ke tr o r Hfd A E a ep' fds b Eo; cbn [ep_loop] in E.
    { injection E as <- <-. destruct a; discriminate Eo. }
    destruct (negb (r_lt ok r_complete)).
    { injection E as <- <-. destruct a; discriminate Eo. }
    unfold bind at 1, epoll_wait in E. set (x := OEpollWait ep (os_epoll_wait s tr ep)) in *.
    assert (Wx : FanDeepRun.went e tr [x]) by (apply (went_quiet e); [repeat constructor|reflexivity]).
    destruct (os_epoll_wait s tr ep) as [fds0|] eqn:Ew.
    - destruct (FanDeepRun.each_ready_went e He il (firstn 64 fds0) ok ke (tr ++ [x]) A) as (o1 & ok1 & ke1 & E1 & A1 & W1 & F1). rewrite Hfd in F1.
      destruct (each_ready_inv kfa kfa_fd (fa_recv s) il recv_post recv_quiet _ _ _ _ _ _ _ E1) as (_ & Q1 & _).
      unfold bind at 1 in E. rewrite E1 in E.
      destruct (ep_loop s kfa kfa_fd (fa_recv s) il n ep ok1 ke1 ((tr ++ [x]) ++ o1)) as [o2 r2] eqn:E2. injection E as <- <-.
      destruct a as [|y a]; cbn [app] in Eo.
      + injection Eo as -> -> <-. exists ok, ke, o1, ok1, ke1, o2. cbv zeta. cbn [app]. rewrite app_nil_r. split; [exact Ew|]. split; [exact Hfd|]. split; [exact E1|]. split; [|split; [exact Q1|reflexivity]].
        exact (FanDeepRun.went_app e tr [x] o1 Wx W1).
      + injection Eo as <- Eo. apply app_cons_split in Eo as [(z & E3 & _)|(z & E3 & E4)].
        { exfalso. rewrite E3 in Q1. apply Forall_app in Q1 as [_ Q1]. inversion Q1. contradiction. }
        subst a. destruct (IH ep ok1 ke1 _ _ _ F1 A1 E2 z ep' fds b E4) as (k1 & k2 & k3 & k4 & k5 & k6 & H1 & H2 & H3 & H4 & H5 & H6).
        exists k1, k2, k3, k4, k5, k6. cbv zeta in *. rewrite <- !app_assoc in H1. cbn [app] in H1. rewrite <- !app_assoc in H3. cbn [app] in H3.
        cbn [app]. rewrite <- !app_assoc. split; [exact H1|]. split; [exact H2|]. split; [exact H3|]. split; [|split; [exact H5|exact H6]].
        exact (FanDeepRun.went_app e tr [x] _ Wx (FanDeepRun.went_app e _ o1 _ W1 H4)).
    - destruct (ep_loop s kfa kfa_fd (fa_recv s) il n ep r_e_sys_api_epoll ke (tr ++ [x])) as [o2 r2] eqn:E2. injection E as <- <-.
      destruct a as [|y a]; cbn [app] in Eo; [unfold x in Eo; discriminate Eo|]. injection Eo as Ey Eo. subst y.
      destruct (IH ep r_e_sys_api_epoll ke _ _ _ Hfd A E2 a ep' fds b Eo) as (k1 & k2 & k3 & k4 & k5 & k6 & H1 & H2 & H3 & H4 & H5 & H6).
      exists k1, k2, k3, k4, k5, k6. cbv zeta in *. rewrite <- !app_assoc in H1, H3. cbn [app] in *. split; [exact H1|]. split; [exact H2|]. split; [exact H3|]. split; [|split; [exact H5|exact H6]].
      exact (FanDeepRun.went_app e tr [x] _ Wx H4).
  Qed.
  Lemma make_fd fuel path il tr o ok ke ep : fa_make_sysres s fuel path il tr = (o, Ok (ok, ke, ep)) -> kfa_fd ke = ge_fd e \/ r_lt ok r_complete = false.
  Proof.
    intros E. unfold fa_make_sysres in E.
    apply bind_inv in E as [(o1 & fd & o2 & E1 & E2 & ->)|[(u & _ & [=])|[(_ & [=])|(_ & [=])]]]. cbv zeta in E2.
    assert (Ef : fd = ge_fd e) by (unfold fanotify_init in E1; cbn in E1; congruence). subst fd. clear E1.
    destruct (Z.ltb_spec (ge_fd e) 1) as [Hlt|_]; [pose proof (gv_fd e He); lia|].
    apply bind_inv in E2 as [(o3 & u & o4 & E3 & E4 & ->)|[(u & _ & [=])|[(_ & [=])|(_ & [=])]]].
    apply bind_inv in E4 as [(o5 & ep1 & o6 & E5 & E6 & ->)|[(u' & _ & [=])|[(_ & [=])|(_ & [=])]]]. clear E3 E5.
    destruct (ep1 <? 1)%Z.
    - apply bind_inv in E6 as [(o7 & u' & o8 & E7 & E8 & ->)|[(u' & _ & [=])|[(_ & [=])|(_ & [=])]]]. injection E8 as _ <- _ _. right. reflexivity.
    - injection E6 as _ _ <- _. now left.
  Qed.

  (** ** The whole run *)
  Lemma no_wait_in a ep fds b : ~ Forall no_wait (a ++ OEpollWait ep fds :: b).
  Proof. intros H. apply Forall_app in H as [_ H]. inversion H. contradiction. Qed.
  Lemma watch_fan fuel path il : exists z, fst (linux_watch s fuel path il []) = OGeteuid 0 :: fst (run_fanotify s fuel path il [OGeteuid 0]) ++ z /\ Forall no_wait z.
  Proof.
    rewrite linux_watch_split. unfold adapters, try_fanotify. rewrite !bind_assoc. unfold bind at 1, geteuid.
    change (os_geteuid s []) with 0%Z. change (0 =? 0)%Z with true. cbv iota. cbn [app]. set (g := OGeteuid 0).
    destruct (run_fanotify_init s fuel path il [g]) as (fd0 & rest0 & Hini & _ & _ & Hnf).
    assert (Hfd0 : (1 <= fd0)%Z).
    { unfold run_fanotify, platform_watch, fa_make_sysres in Hini. rewrite bind_assoc in Hini. unfold bind at 1, fanotify_init in Hini.
      match type of Hini with context [let (_, _) := ?m ?t in _] => destruct (m t) end. injection Hini as <- _. apply (gv_fd e He). }
    specialize (Hnf Hfd0). destruct (run_fanotify s fuel path il [g]) as [o r] eqn:E. cbn [fst snd] in *. unfold bind at 1. rewrite E.
    destruct r as [r|u| |]; cbn [fst]; try (exists []; rewrite app_nil_r; split; [reflexivity|constructor]).
    assert (Hneq : r_eqb r r_e_sys_api_fanotify = false) by (destruct r; try reflexivity; exfalso; now apply Hnf).
    rewrite Hneq. rewrite bind_ret. destruct (r_ge r r_e); cbn; eexists; (split; [reflexivity|repeat constructor]).
  Qed.
  Lemma watch_wait fuel path il :
    forall a ep fds b, fst (linux_watch s fuel path il []) = a ++ OEpollWait ep (Some fds) :: b ->
    exists m n ok1 ke1 o1 ok2 ke2 o2, let tr1 := a ++ [OEpollWait ep (Some fds)] in
      a = m ++ n /\ Forall no_read m /\ (forall x, In x (shown m) -> warns x) /\
      os_epoll_wait s a ep = Some fds /\ kfa_fd ke1 = ge_fd e /\
      each_ready kfa kfa_fd (fa_recv s) il (firstn 64 fds) ok1 ke1 tr1 = (o1, Ok (ok2, ke2)) /\
      FanDeepRun.went e m (n ++ OEpollWait ep (Some fds) :: o1) /\ Forall no_wait o1 /\ b = o1 ++ o2.
  Proof.
    intros a ep fds b. destruct (watch_fan fuel path il) as (z & -> & Hz). set (g := OGeteuid 0). unfold run_fanotify, platform_watch. unfold bind at 1.
    pose proof (fa_make_start s fuel path il [g]) as (Hst & Hub & Hko). pose proof (fa_make_no_wait s fuel path il [g]) as Hnw. pose proof (make_fd fuel path il [g]) as Hfd.
    destruct (fa_make_sysres s fuel path il [g]) as [m ra]. cbn [fst snd] in *.
    assert (Nog : forall y, g :: m = a ++ OEpollWait ep (Some fds) :: y -> False).
    { intros y E. apply (no_wait_in a ep (Some fds) y). rewrite <- E. constructor; [exact Coq.Init.Logic.I|exact Hnw]. }
    assert (Noz : forall y x, z = y ++ OEpollWait ep (Some fds) :: x -> False) by (intros y x ->; now apply no_wait_in in Hz).
    destruct ra as [[[ok ke] ep0]|u| |]; cbn [fst app]; 
      try (intros E; change (g :: m ++ z) with ((g :: m) ++ z) in E; apply app_cons_split in E as [(y & E1 & _)|(y & _ & E1)]; exfalso; [exact (Nog _ E1)|exact (Noz _ _ E1)]).
    assert (Hma : forall x, In x (shown (g :: m)) -> warns x).
    { change (shown (g :: m)) with (shown m). intros x Hx. unfold shown in Hx. apply in_map_iff in Hx as (ev & <- & Hev).
      assert (Hin : In (OCallback ev) m).
      { clear -Hev. induction m as [|y m IH]; [destruct Hev|]. destruct y; try (right; now apply IH). cbn [callbacks] in Hev. destruct Hev as [->|Hev]; [now left|right; now apply IH]. }
      rewrite Forall_forall in Hst. apply (Hst _ Hin). }
    assert (Hra : Forall no_read (g :: m)) by (constructor; [exact Coq.Init.Logic.I|apply start_no_read, Hst]).
    unfold bind at 1. change ([g] ++ m) with (g :: m).
    destruct (ep_loop s kfa kfa_fd (fa_recv s) il fuel ep0 ok ke (g :: m)) as [o r] eqn:Eb.
    intros E.
    assert (Eo : exists z, (g :: m) ++ o ++ z = a ++ OEpollWait ep (Some fds) :: b /\ Forall no_wait z).
    { destruct r as [[ok' ke']|u| |]; cbn [fst snd] in E.
      - unfold bind, sys_close, ret in E. cbn in E. exists (OClose (kfa_fd ke') :: OClose ep0 :: z). split; [rewrite <- E; cbn [app]; rewrite <- !app_assoc; reflexivity|]. repeat (constructor; [exact Coq.Init.Logic.I|]). exact Hz.
      - exists z. split; [rewrite <- E; cbn [app]; rewrite <- !app_assoc; reflexivity|exact Hz].
      - exists z. split; [rewrite <- E; cbn [app]; rewrite <- !app_assoc; reflexivity|exact Hz].
      - exists z. split; [rewrite <- E; cbn [app]; rewrite <- !app_assoc; reflexivity|exact Hz]. }
    clear E Hz Noz z. destruct Eo as (z & E & Hz).
    apply app_cons_split in E as [(y & E1 & _)|(y & E1 & E2)]; [destruct (Nog _ E1)|].
    apply app_cons_split in E2 as [(w & E3 & E4)|(w & _ & E4)]; [|exfalso; apply (no_wait_in w ep (Some fds) b); now rewrite <- E4].
    assert (Hf : kfa_fd ke = ge_fd e).
    { destruct (Hfd _ _ _ _ eq_refl) as [H|H]; [exact H|]. exfalso. rewrite E3 in Eb. clear -Eb H. destruct fuel; cbn [ep_loop] in Eb; [|rewrite H in Eb]; injection Eb as Eb _; destruct y; discriminate Eb. }
    destruct (loop_wait il _ _ _ _ _ _ _ Hf (Hko _ _ _ eq_refl) Eb _ _ _ _ E3) as (ok1 & ke1 & o1 & ok2 & ke2 & o2 & H1 & H2 & H3 & H4 & H5 & H6).
    exists (g :: m), y, ok1, ke1, o1, ok2, ke2, (o2 ++ z). cbv zeta in *. subst a.
    split; [reflexivity|]. split; [exact Hra|]. split; [exact Hma|]. split; [exact H1|]. split; [exact H2|]. split; [rewrite <- app_assoc; exact H3|]. split; [exact H4|]. split; [exact H5|].
    now rewrite E4, H6, <- app_assoc.
  Qed.

  (** [T]: a part of the run up to the next wait, or all of it. *)
  Lemma told_by_next_wait fuel path il : deep_honest e il ->
    forall a ep fds b c, fst (linux_watch s fuel path il []) = a ++ OEpollWait ep (Some fds) :: b ++ c -> Forall no_wait b ->
    (c = [] \/ exists ep' r c', c = OEpollWait ep' r :: c') -> (deep_waiting (gat_call e a) <= 4095)%nat ->
    let T := a ++ OEpollWait ep (Some fds) :: b in
    forall i n k d, In (Did i n k d true) (gw_log (gat_call e a)) -> mentioned e [] T i n \/ cut e T i n k d.
  Proof.
    intros [Hne Hwt Hrd] a ep fds b c E Hb Hc Hs T0 i n k d Hin.
    destruct (watch_wait fuel path il _ _ _ _ E) as (m & n0 & ok1 & ke1 & o1 & ok2 & ke2 & o2 & Ea & Hm & Hwm & H1 & H2 & H4 & H5 & H6 & H7).
    cbv zeta in *. set (w := OEpollWait ep (Some fds)) in *.
    assert (Hz : exists z, b = o1 ++ z).
    { apply KernelRun.app_split in H7 as [(z & -> & _)|(z & E1 & E2)]; [eauto|]. destruct z as [|x z]; [exists []; now rewrite app_nil_r in *|].
      exfalso. rewrite E1 in H6. apply Forall_app in H6 as [_ H6]. inversion H6 as [|? ? Hx _]; subst x0 l. destruct Hc as [->|(ep' & r & c' & ->)]; [discriminate E2|].
      injection E2 as <- _. contradiction. }
    destruct Hz as (z & Ez). set (T := a ++ w :: o1).
    assert (ET : T0 = T ++ z) by (unfold T0, T; rewrite Ez, <- app_assoc; reflexivity).
    destruct (covered_read a T) with (i := i) (n := n) (k := k) (d := d) as (r & Hr & Hi & Hn & Hk & Hd).
    - apply ggrows_from.
    - destruct (gw_queue (gat_call e a)) as [|r0 q0] eqn:Q.
      + unfold gall. rewrite Q, app_nil_r. destruct (ggrows_from a w o1) as [_ (y & Ey)]. unfold T. rewrite Ey, concat_app, app_length. lia.
      + assert (Hin' : In (kfa_fd ke1) (firstn 64 fds)).
        { rewrite H2. apply (Hwt a ep fds H1). rewrite Q. discriminate. }
        destruct (ready_reads il _ _ _ _ _ _ H4 Hin') as (x & rd & y & Ex); [congruence|]. rewrite H2 in Ex.
        assert (C : (length (gall (gat_call e a)) <= length (concat (gw_batches (gstate e ((a ++ w :: x) ++ [ORead (ge_fd e) rd])))))%nat).
        { apply read_covers; [|exact Hs|apply Hrd]. eapply ggrows_trans; [apply ggrows_from|apply ggrows_happens]. }
        destruct (ggrows_more y ((a ++ w :: x) ++ [ORead (ge_fd e) rd])) as [_ (v & Ev)].
        unfold T. replace (a ++ w :: o1) with (((a ++ w :: x) ++ [ORead (ge_fd e) rd]) ++ y) by (rewrite Ex, <- !app_assoc; reflexivity).
        rewrite Ev, concat_app, app_length. lia.
    - exact Hin.
    - destruct H5 as [(bs & Eb & Ht) _].
      assert (E0 : gw_batches (gstate e m) = []).
      { rewrite <- (app_nil_l m), gstate_batches by exact Hm. unfold gstate. cbn [rev gstate_rev]. destruct (gv_start e He) as (d0 & f & -> & _). reflexivity. }
      rewrite E0 in Eb. cbn [app] in Eb. assert (EmT : m ++ n0 ++ w :: o1 = T) by (unfold T; rewrite Ea, <- app_assoc; reflexivity). rewrite EmT in Eb.
      rewrite Eb in Hr. apply in_concat in Hr as (bt & Hbt & Hr). apply in_split in Hr as (b1 & b2 & ->).
      rewrite ET, <- EmT, <- Hi, <- Hn. destruct (Ht b1 r b2 Hbt) as [M|M].
      + left. apply mentioned_left. apply (mentioned_right e [] m). exact M.
      + right. exists b1, r, b2. split; [|auto]. apply cut_left. apply (cut_right e [] m). exact M.
  Qed.
End Env.

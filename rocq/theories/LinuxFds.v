(** Descriptor and directory-stream accounting (C35). *)
From Verif Require Import Base PathModel EventModel Sys SysFacts LinuxModel InotifyModel
  FanotifyModel LinuxWatch LinuxSpec LinuxFacts LinuxRun LinuxProps.

Definition own (x fd : Z) : Z := hits x (if (0 <=? fd)%Z then Some fd else None).

Lemma own_nonneg x fd : (0 <= own x fd)%Z.
Proof. unfold own, hits. destruct (0 <=? fd)%Z; [destruct (fd =? x)%Z|]; lia. Qed.
Lemma own_neg x fd : (fd < 0)%Z -> own x fd = 0%Z.
Proof. unfold own, hits. intros H. destruct (Z.leb_spec 0 fd); [lia|reflexivity]. Qed.

Lemma count_app x a b : open_count x (a ++ b) = (open_count x a + open_count x b)%Z.
Proof. induction a as [|y a IH]; cbn [app open_count]; [lia|]. rewrite IH. lia. Qed.

Lemma count_prefix o : no_bad_close o -> forall x, (0 <= open_count x o)%Z.
Proof. intros H x. apply (H x o []). now rewrite app_nil_r. Qed.

Lemma nb_app_from a b :
  no_bad_close a ->
  (forall x b1 b2, b = b1 ++ b2 -> (0 <= open_count x a + open_count x b1)%Z) ->
  no_bad_close (a ++ b).
Proof.
  intros Ha Hb x o1 o2 E. apply app_eq_app in E as (l & [(E1 & E2)|(E1 & E2)]).
  - subst a. eapply Ha. reflexivity.
  - subst o1. rewrite count_app. eapply Hb, E2.
Qed.
Lemma nb_app a b : no_bad_close a -> no_bad_close b -> no_bad_close (a ++ b).
Proof.
  intros Ha Hb. apply nb_app_from; [exact Ha|]. intros x b1 b2 E.
  pose proof (count_prefix _ Ha x). pose proof (Hb x b1 b2 E). lia.
Qed.
Lemma nb_nil : no_bad_close [].
Proof. intros x o1 o2 E. destruct o1; [cbn; lia|discriminate]. Qed.
Lemma nb_one y : fd_closed y = None -> no_bad_close [y].
Proof.
  intros H x o1 o2 E. destruct o1 as [|z [|z' o1]]; cbn in E; [cbn; lia| |discriminate].
  injection E as -> <-. cbn. rewrite H. cbn. unfold fd_opened, hits.
  destruct z; try lia; destruct (0 <=? _)%Z; try lia; destruct (_ =? _)%Z; lia.
Qed.
Lemma nb_closing a f : no_bad_close a -> (forall x, own x f <= open_count x a)%Z -> no_bad_close (a ++ [OClose f]).
Proof.
  intros Ha Hf. apply nb_app_from; [exact Ha|]. intros x b1 b2 E.
  destruct b1 as [|y [|z b1]]; cbn in E; [cbn; pose proof (count_prefix _ Ha x); lia| |discriminate].
  injection E as <- <-. cbn. specialize (Hf x). unfold own in Hf.
  destruct (0 <=? f)%Z; cbn in *; lia.
Qed.
Lemma count_close x f : open_count x [OClose f] = (- own x f)%Z.
Proof. unfold own. cbn. destruct (0 <=? f)%Z; cbn; lia. Qed.

Definition spent (o : trace) : Prop := forall x, (open_count x o <= 0)%Z.

Lemma spent_app a b : spent a -> spent b -> spent (a ++ b).
Proof. intros Ha Hb x. rewrite count_app. specialize (Ha x). specialize (Hb x). lia. Qed.
Lemma spent_one y : fd_opened y = None -> spent [y].
Proof.
  intros H x. cbn. rewrite H. cbn. unfold fd_closed, hits. destruct y; try lia.
  destruct (0 <=? fd)%Z; [destruct (fd =? x)%Z|]; lia.
Qed.

Section Fds.
  Variable s : os.

  Lemma closed_nb : closed s no_bad_close.
  Proof.
    constructor.
    - apply nb_nil.
    - apply nb_app.
    - intros x Hx. apply nb_one. destruct x; try reflexivity; destruct Hx.
    - intros. now apply nb_one.
    - intros. now apply nb_one.
    - intros e m _ _ _ Hm. apply nb_app; [exact Hm|now apply nb_one].
    - intros. now apply nb_one.
    - intros h fd err l Hfd. change [OOpenHandle h fd err; OReadlink fd l; OClose fd]
        with (([OOpenHandle h fd err] ++ [OReadlink fd l]) ++ [OClose fd]).
      apply nb_closing; [apply nb_app; now apply nb_one|].
      intros x. unfold own. cbn. destruct (0 <=? fd)%Z; cbn; lia.
  Qed.

  Lemma closed_spent : stdin_open s -> closed s spent.
  Proof.
    intros (_ & _ & _ & H0). constructor.
    - intros x. cbn. lia.
    - apply spent_app.
    - intros x Hx. apply spent_one. destruct x; try reflexivity; destruct Hx.
    - intros. now apply spent_one.
    - intros. now apply spent_one.
    - intros e m _ _ _ Hm. apply spent_app; [exact Hm|now apply spent_one].
    - intros h fd err Hfd [tr Htr]. apply spent_one. cbn.
      destruct (Z.leb_spec 0 fd) as [Hle|]; [|reflexivity]. specialize (H0 tr h). lia.
    - intros h fd err l Hfd x. cbn. destruct (0 <=? fd)%Z; cbn; lia.
  Qed.

  Lemma make_ep_count a b tr o r :
    make_ep s a b tr = (o, r) ->
    no_bad_close o /\ exists ep, r = Ok ep /\ forall x, open_count x o = own x ep.
  Proof.
    unfold make_ep, bind, epoll_create, epoll_ctl, sys_close, ret.
    set (fd := os_epoll_create s tr).
    destruct (Z.ltb_spec fd 0) as [Hn|Hp].
    { intros [= <- <-]. split; [now apply nb_one|]. eexists. split; [reflexivity|].
      intros x. cbn. unfold own. destruct (0 <=? fd)%Z; cbn; lia. }
    assert (Hopen : forall l, Forall (fun y => fd_opened y = None /\ fd_closed y = None) l ->
      no_bad_close (OEpollCreate fd :: l) /\ forall x, open_count x (OEpollCreate fd :: l) = own x fd).
    { induction l as [|y l IH] using rev_ind; intros Hl.
      - split; [now apply nb_one|]. intros x. cbn. unfold own. destruct (0 <=? fd)%Z; cbn; lia.
      - apply Forall_app in Hl as [Hl Hy]. inversion_clear Hy as [|? ? [Hy1 Hy2] _]. destruct (IH Hl) as [H1 H2].
        rewrite app_comm_cons. split; [apply nb_app; [exact H1|now apply nb_one]|].
        intros x. rewrite count_app, H2. cbn [open_count]. rewrite Hy1, Hy2. cbn. lia. }
    assert (Hopen2 : forall l, Forall (fun y => fd_opened y = None /\ fd_closed y = None) l ->
      no_bad_close ((OEpollCreate fd :: l) ++ [OClose fd]) /\
      forall x, open_count x ((OEpollCreate fd :: l) ++ [OClose fd]) = own x (-1)).
    { intros l Hl. destruct (Hopen l Hl) as [H1 H2]. split.
      - apply nb_closing; [exact H1|]. intros x. rewrite H2. lia.
      - intros x. rewrite count_app, count_close, H2, (own_neg x (-1)) by lia. lia. }
    cbn [app].
    destruct (Z.ltb_spec (os_epoll_ctl s (tr ++ [OEpollCreate fd]) fd a) 0).
    { intros [= <- <-]. match goal with |- no_bad_close ?l /\ _ =>
        change l with ((OEpollCreate fd :: [OEpollCtl fd a (os_epoll_ctl s (tr ++ [OEpollCreate fd]) fd a)]) ++ [OClose fd]) end.
      destruct (Hopen2 [OEpollCtl fd a (os_epoll_ctl s (tr ++ [OEpollCreate fd]) fd a)]) as [H1 H2]; [repeat constructor|].
      split; [exact H1|]. eexists. split; [reflexivity|exact H2]. }
    match goal with |- context [(?c <? 0)%Z] => destruct (Z.ltb_spec c 0); set (cc := c) in * end.
    { intros [= <- <-]. match goal with |- no_bad_close [?p; ?q; ?z; ?w] /\ _ =>
        change [p; q; z; w] with ((p :: [q; z]) ++ [w]); destruct (Hopen2 [q; z]) as [H1 H2]; [repeat constructor|] end.
      split; [exact H1|]. eexists. split; [reflexivity|exact H2]. }
    intros [= <- <-]. match goal with |- no_bad_close [?p; ?q; ?z] /\ _ =>
        destruct (Hopen [q; z]) as [H1 H2]; [repeat constructor|] end.
    split; [exact H1|]. eexists. split; [reflexivity|exact H2].
  Qed.

  Lemma nb_dirs_open p r : no_bad_close [OOpendir p r]. Proof. now apply nb_one. Qed.
  Lemma nb_dirs_close p : no_bad_close [OClosedir p]. Proof. now apply nb_one. Qed.
  Lemma spent_dirs_open p r : spent [OOpendir p r]. Proof. now apply spent_one. Qed.
  Lemma spent_dirs_close p : spent [OClosedir p]. Proof. now apply spent_one. Qed.

  (** What a computation that returns descriptors [fds a] leaves open. *)
  Definition leaves {A} (m : M A) (fds : A -> list Z) : Prop :=
    forall tr o r, m tr = (o, r) ->
      no_bad_close o /\
      forall a, r = Ok a ->
        let held x := fold_right (fun fd n => own x fd + n)%Z 0%Z (fds a) in
        (forall x, held x <= open_count x o)%Z /\
        (stdin_open s -> forall x, open_count x o = held x).

  Lemma leaves_every {A} (m : M A) :
    every no_bad_close m -> (stdin_open s -> every spent m) -> leaves m (fun _ => []).
  Proof.
    intros H1 H2 tr o r E. specialize (H1 tr). rewrite E in H1. cbn [fst] in H1. split; [exact H1|].
    intros a ->. cbn. split; [intros x; now apply count_prefix|].
    intros Hs x. specialize (H2 Hs tr x). rewrite E in H2. cbn [fst] in H2. pose proof (count_prefix _ H1 x). lia.
  Qed.

  Lemma in_make_leaves fuel path il :
    leaves (in_make_sysres s fuel path il) (fun x => [kin_fd (snd (fst x)); snd x]).
  Proof.
    intros tr o r E. unfold in_make_sysres in E. unfold bind at 1, inotify_init in E.
    set (fd := os_inotify_init s tr) in *. cbv zeta in E.
    set (tr1 := tr ++ [OInotifyInit fd]) in *.
    assert (Hinit : no_bad_close [OInotifyInit fd] /\ forall x, open_count x [OInotifyInit fd] = own x fd).
    { split; [now apply nb_one|]. intros x. cbn. unfold own. destruct (0 <=? fd)%Z; cbn; lia. }
    destruct (Z.ltb_spec fd 0) as [Hn|Hp].
    { injection E as <- <-. split; [apply Hinit|]. intros a [= <-]. cbn [fst snd kin_fd fold_right].
      assert (H : forall x, open_count x [OInotifyInit fd] = (own x fd + (own x (-1) + 0))%Z).
      { intros x. rewrite (proj2 Hinit), (own_neg x (-1)) by lia. lia. }
      split; [intros x; rewrite <- H; apply Z.le_refl|]. intros _ x. apply H. }
    match type of E with context [bind (walkdir s ?fu ?p ?f ?st) ?k] =>
      assert (Hw : leaves (walkdir s fu p f st) (fun _ => [])) end.
    { apply leaves_every.
      - apply ev_walkdir; [apply closed_nb|apply nb_dirs_open|apply nb_dirs_close|].
        intros p st. apply (ev_bind s _ closed_nb); [apply (ev_in_mark s _ closed_nb)|intros; apply (ev_ret s _ closed_nb)].
      - intros Hs. apply ev_walkdir; [now apply closed_spent|apply spent_dirs_open|apply spent_dirs_close|].
        intros p st. apply (ev_bind s _ (closed_spent Hs));
          [apply (ev_in_mark s _ (closed_spent Hs))|intros; apply (ev_ret s _ (closed_spent Hs))]. }
    unfold bind at 1 in E.
    match type of E with context [walkdir s ?fu ?p ?f ?st ?t] =>
      destruct (walkdir s fu p f st t) as [o2 r2] eqn:Ew end.
    specialize (Hw _ _ _ Ew) as [Hnb2 Hcnt2].
    destruct r2 as [dm|u| |].
    2-4: injection E as <- <-; split; [apply (nb_app [_] o2); [apply Hinit|exact Hnb2]|intros a [=]].
    destruct (Hcnt2 dm eq_refl) as [Hge2 Heq2]. cbn [fold_right] in Hge2, Heq2.
    destruct dm as [|x0 dm].
    { injection E as <- <-. rewrite app_nil_r. split; [apply (nb_app [_] o2); [apply Hinit|exact Hnb2]|].
      intros a [= <-]. cbn [fst snd kin_fd fold_right].
      change (OInotifyInit fd :: o2) with ([OInotifyInit fd] ++ o2).
      split; [|intros Hs]; intros x; rewrite (count_app x [_] o2), (proj2 Hinit), (own_neg x (-1)) by lia;
        [specialize (Hge2 x); lia|rewrite (Heq2 Hs); lia]. }
    unfold bind at 1 in E.
    destruct (make_ep s fd il (tr1 ++ o2)) as [o3 r3] eqn:Ee.
    apply make_ep_count in Ee as (Hnb3 & ep & -> & Hcnt3).
    cbn in E. injection E as <- <-. rewrite app_nil_r.
    split; [apply (nb_app [_]); [apply Hinit|now apply nb_app]|].
    intros a [= <-]. cbn [fst snd kin_fd fold_right].
    change (OInotifyInit fd :: o2 ++ o3) with ([OInotifyInit fd] ++ o2 ++ o3).
    split; [|intros Hs]; intros x; rewrite (count_app x [_]), (count_app x o2), (proj2 Hinit), Hcnt3;
      [specialize (Hge2 x); lia|rewrite (Heq2 Hs); lia].
  Qed.

  Lemma fa_make_leaves fuel path il :
    leaves (fa_make_sysres s fuel path il) (fun x => [kfa_fd (snd (fst x)); snd x]).
  Proof.
    intros tr o r E. unfold fa_make_sysres in E. unfold bind at 1, fanotify_init in E.
    set (fd := os_fan_init s tr) in *. cbv zeta in E.
    set (tr1 := tr ++ [OFanInit fd]) in *.
    assert (Hinit : no_bad_close [OFanInit fd] /\ forall x, open_count x [OFanInit fd] = own x fd).
    { split; [now apply nb_one|]. intros x. cbn. unfold own. destruct (0 <=? fd)%Z; cbn; lia. }
    destruct (Z.ltb_spec fd 1) as [Hn|Hp].
    { injection E as <- <-. split; [apply Hinit|]. intros a [= <-]. cbn [fst snd kfa_fd fold_right].
      split; [|intros Hs]; intros x; rewrite (proj2 Hinit), (own_neg x (-1)) by lia.
      - pose proof (own_nonneg x fd). lia.
      - destruct Hs as (_ & Hs & _). specialize (Hs tr). fold fd in Hs. rewrite own_neg; lia. }
    match type of E with context [bind (walkdir s ?fu ?p ?f ?st) ?k] =>
      assert (Hw : leaves (walkdir s fu p f st) (fun _ => [])) end.
    { apply leaves_every.
      - apply ev_walkdir; [apply closed_nb|apply nb_dirs_open|apply nb_dirs_close|].
        intros p st. apply (ev_bind s _ closed_nb); [apply (ev_fa_mark s _ closed_nb)|intros; apply (ev_ret s _ closed_nb)].
      - intros Hs. apply ev_walkdir; [now apply closed_spent|apply spent_dirs_open|apply spent_dirs_close|].
        intros p st. apply (ev_bind s _ (closed_spent Hs));
          [apply (ev_fa_mark s _ (closed_spent Hs))|intros; apply (ev_ret s _ (closed_spent Hs))]. }
    unfold bind at 1 in E.
    match type of E with context [walkdir s ?fu ?p ?f ?st ?t] =>
      destruct (walkdir s fu p f st t) as [o2 r2] eqn:Ew end.
    specialize (Hw _ _ _ Ew) as [Hnb2 Hcnt2].
    destruct r2 as [dm|u| |].
    2-4: injection E as <- <-; split; [apply (nb_app [_] o2); [apply Hinit|exact Hnb2]|intros a [=]].
    destruct (Hcnt2 dm eq_refl) as [Hge2 Heq2]. cbn [fold_right] in Hge2, Heq2.
    unfold bind at 1 in E.
    destruct (make_ep s fd il (tr1 ++ o2)) as [o3 r3] eqn:Ee.
    pose proof Ee as Ee'. apply make_ep_count in Ee as (Hnb3 & ep & -> & Hcnt3).
    assert (Hall : no_bad_close ([OFanInit fd] ++ o2 ++ o3)) by (apply nb_app; [apply Hinit|now apply nb_app]).
    assert (Hcnt : forall x, open_count x ([OFanInit fd] ++ o2 ++ o3) = (own x fd + open_count x o2 + own x ep)%Z).
    { intros x. rewrite !count_app, (proj2 Hinit), Hcnt3. lia. }
    destruct (Z.ltb_spec ep 1) as [Hep|Hep].
    - cbn in E. injection E as <- <-.
      replace (OFanInit fd :: o2 ++ o3 ++ [OClose fd]) with (([OFanInit fd] ++ o2 ++ o3) ++ [OClose fd])
        by (cbn [app]; now rewrite <- app_assoc).
      split.
      { apply nb_closing; [exact Hall|]. intros x. rewrite Hcnt. specialize (Hge2 x).
        pose proof (own_nonneg x ep). lia. }
      intros a [= <-]. cbn [fst snd kfa_fd fold_right].
      split; [|intros Hs]; intros x; rewrite count_app, count_close, Hcnt, (own_neg x (-1)) by lia.
      + specialize (Hge2 x). pose proof (own_nonneg x ep). lia.
      + rewrite (Heq2 Hs). rewrite (own_neg x ep); [lia|].
        assert (ep <> 0%Z); [|lia]. destruct Hs as (_ & _ & Hs & _).
        clear -Ee' Hs. unfold make_ep, bind, epoll_create, epoll_ctl, sys_close, ret in Ee'.
        intros ->. specialize (Hs (tr1 ++ o2)). cbn [app] in Ee'.
        repeat match type of Ee' with context [if ?c then _ else _] => destruct c end;
          injection Ee' as _ Ee'; congruence.
    - cbn in E. injection E as <- <-. rewrite app_nil_r. split; [exact Hall|].
      intros a [= <-]. cbn [fst snd kfa_fd fold_right].
      split; [|intros Hs]; intros x.
      + change (OFanInit fd :: o2 ++ o3) with ([OFanInit fd] ++ o2 ++ o3). rewrite Hcnt. specialize (Hge2 x). lia.
      + change (OFanInit fd :: o2 ++ o3) with ([OFanInit fd] ++ o2 ++ o3). rewrite Hcnt, (Heq2 Hs). lia.
  Qed.

  Lemma platform_leaves K k_fd (recv : K -> M (result * K)) il fuel make :
    (forall ke, post (recv ke) (fun x => recv_result (fst x) /\ k_fd (snd x) = k_fd ke)) ->
    (forall ke, every (Forall no_wait) (recv ke)) ->
    (forall P, closed s P -> forall ke, every P (recv ke)) ->
    leaves make (fun x => [k_fd (snd (fst x)); snd x]) ->
    leaves (platform_watch s K k_fd recv il fuel make) (fun _ => []).
  Proof.
    intros Hr Hq Hrecv Hmake tr o r E. unfold platform_watch in E. unfold bind at 1 in E.
    destruct (make tr) as [o1 r1] eqn:E1. specialize (Hmake _ _ _ E1) as [Hnb1 Hc1].
    destruct r1 as [[[ok ke] ep]|u| |]; try (injection E as <- <-; split; [exact Hnb1|intros a [=]]).
    destruct (Hc1 _ eq_refl) as [Hge1 Heq1]. cbn [fst snd fold_right] in Hge1, Heq1. clear Hc1.
    unfold bind at 1 in E.
    assert (Hl : leaves (ep_loop s K k_fd recv il fuel ep ok ke) (fun _ => [])).
    { apply leaves_every.
      - apply ev_ep_loop; [apply closed_nb|intros; now apply nb_one|intros; apply Hrecv, closed_nb].
      - intros Hs. apply ev_ep_loop; [now apply closed_spent|intros; now apply spent_one|intros; now apply Hrecv, closed_spent]. }
    destruct (ep_loop s K k_fd recv il fuel ep ok ke (tr ++ o1)) as [o2 r2] eqn:E2.
    specialize (Hl _ _ _ E2) as [Hnb2 Hc2].
    destruct r2 as [[ok' ke']|u| |]; try (injection E as <- <-; split; [now apply nb_app|intros a [=]]).
    destruct (Hc2 _ eq_refl) as [Hge2 Heq2]. cbn [fold_right] in Hge2, Heq2.
    apply (ep_loop_inv s K k_fd recv il) in E2 as (Hfd & _); auto.
    cbn in E. injection E as <- <-. rewrite Hfd.
    replace (o1 ++ o2 ++ [OClose (k_fd ke); OClose ep]) with (((o1 ++ o2) ++ [OClose (k_fd ke)]) ++ [OClose ep])
      by now rewrite <- !app_assoc.
    split.
    { apply nb_closing; [apply nb_closing; [now apply nb_app|]|].
      - intros x. rewrite count_app. specialize (Hge1 x). specialize (Hge2 x). pose proof (own_nonneg x ep). lia.
      - intros x. rewrite !count_app, count_close. specialize (Hge1 x). specialize (Hge2 x). lia. }
    intros a [= <-]. cbn [fold_right].
    split; [|intros Hs]; intros x; rewrite !count_app, !count_close.
    - specialize (Hge1 x). specialize (Hge2 x). lia.
    - rewrite (Heq1 Hs), (Heq2 Hs). lia.
  Qed.

  Lemma run_inotify_leaves fuel path il : leaves (run_inotify s fuel path il) (fun _ => []).
  Proof.
    apply platform_leaves; [intros; apply in_recv_result|intros; apply ev_in_recv, closed_no_wait|
      intros; now apply ev_in_recv|apply in_make_leaves].
  Qed.
  Lemma run_fanotify_leaves fuel path il : leaves (run_fanotify s fuel path il) (fun _ => []).
  Proof.
    apply platform_leaves; [intros; apply fa_recv_result|intros; apply ev_fa_recv, closed_no_wait|
      intros; now apply ev_fa_recv|apply fa_make_leaves].
  Qed.

  Lemma leaves_bind {A B} (m : M A) (k : A -> M B) :
    leaves m (fun _ => []) -> (forall a, leaves (k a) (fun _ => [])) -> leaves (bind m k) (fun _ => []).
  Proof.
    intros Hm Hk tr o r E. unfold bind in E. destruct (m tr) as [o1 r1] eqn:E1.
    specialize (Hm _ _ _ E1) as [Hnb1 Hc1].
    destruct r1 as [a|u| |]; try (injection E as <- <-; split; [exact Hnb1|intros b [=]]).
    destruct (k a (tr ++ o1)) as [o2 r2] eqn:E2. specialize (Hk _ _ _ _ E2) as [Hnb2 Hc2].
    injection E as <- <-. split; [now apply nb_app|]. intros b ->.
    destruct (Hc1 _ eq_refl) as [Hg1 He1]. destruct (Hc2 _ eq_refl) as [Hg2 He2]. cbn [fold_right] in *.
    split; [|intros Hs]; intros x; rewrite count_app; [specialize (Hg1 x); specialize (Hg2 x); lia|].
    rewrite (He1 Hs), (He2 Hs). lia.
  Qed.
  Lemma leaves_one {A} (f : trace -> obs) (g : trace -> A) :
    (forall tr, fd_opened (f tr) = None /\ fd_closed (f tr) = None) ->
    leaves (fun tr => ([f tr], Ok (g tr))) (fun _ => []).
  Proof.
    intros H. apply leaves_every.
    - intros tr. apply nb_one, H.
    - intros _ tr. apply spent_one, H.
  Qed.
  Lemma leaves_ret {A} (a : A) : leaves (ret a) (fun _ => []).
  Proof. apply leaves_every; [intros tr; apply nb_nil|intros _ tr x; cbn; lia]. Qed.

  Lemma linux_watch_leaves fuel path il : leaves (linux_watch s fuel path il) (fun _ => []).
  Proof.
    unfold linux_watch. apply leaves_bind.
    { unfold try_fanotify. apply leaves_bind; [apply (leaves_one (fun tr => OGeteuid _)); auto|].
      intros u. destruct (u =? 0)%Z; [apply run_fanotify_leaves|apply leaves_ret]. }
    intros r. apply leaves_bind.
    { destruct (r_eqb r _); [apply run_inotify_leaves|apply leaves_ret]. }
    intros r'. destruct (r_ge r' r_e); [|apply leaves_ret].
    apply leaves_bind; [|intros; apply leaves_ret].
    unfold send_msg, new_event. apply leaves_bind.
    - apply leaves_bind; [apply (leaves_one (fun tr => ONow _)); auto|intros; apply leaves_ret].
    - intros e. apply (leaves_one (fun _ => OCallback e) (fun _ => tt)). auto.
  Qed.

  Lemma linux_watch_fds fuel path il tr o r :
    linux_watch s fuel path il tr = (o, r) ->
    no_bad_close o /\ (stdin_open s -> forall b, r = Ok b -> all_closed o).
  Proof.
    intros E. apply linux_watch_leaves in E as [H1 H2]. split; [exact H1|].
    intros Hs b Hb x. destruct (H2 b Hb) as [_ H]. now rewrite (H Hs).
  Qed.
End Fds.

(** ** Directory streams *)
Lemma dir_count_app p a b : dir_count p (a ++ b) = (dir_count p a + dir_count p b)%Z.
Proof.
  induction a as [|x a IH]; cbn [app dir_count]; [lia|].
  destruct x as [| | | | |q [l|]|q| | | | | | | | | | |]; rewrite ?IH; lia.
Qed.

Lemma sb_app a b : streams_balanced a -> streams_balanced b -> streams_balanced (a ++ b).
Proof.
  intros Ha Hb p. destruct (Ha p) as [Ha1 Ha2], (Hb p) as [Hb1 Hb2]. split; [rewrite dir_count_app; lia|].
  intros o1 o2 E. apply app_eq_app in E as (l & [(E1 & E2)|(E1 & E2)]); [eapply Ha2, E1|].
  subst o1. rewrite dir_count_app. specialize (Hb2 l o2 E2). lia.
Qed.
Definition no_dir (x : obs) : Prop :=
  match x with OOpendir _ (Some _) | OClosedir _ => False | _ => True end.
Lemma sb_none o : Forall no_dir o -> streams_balanced o.
Proof.
  intros H p. assert (Hz : forall l, Forall no_dir l -> dir_count p l = 0%Z).
  { induction l as [|x l IH]; intros Hl; [reflexivity|]. inversion_clear Hl as [|? ? Hx Hl'].
    cbn [dir_count]. destruct x as [| | | | |q [l'|]|q| | | | | | | | | | |]; try destruct Hx; auto. }
  split; [now apply Hz|]. intros o1 o2 ->. apply Forall_app in H as [H _]. rewrite (Hz o1 H). lia.
Qed.
Lemma sb_bracket q l o : streams_balanced o -> streams_balanced (OOpendir q (Some l) :: o ++ [OClosedir q]).
Proof.
  intros H p. destruct (H p) as [H1 H2]. split.
  - cbn [dir_count]. rewrite dir_count_app, H1. cbn. destruct (text_eqb q p); lia.
  - intros [|x o1] o2 E; [cbn; lia|]. injection E as <- E. cbn [dir_count].
    apply app_eq_app in E as (r & [(E1 & E2)|(E1 & E2)]).
    + specialize (H2 _ _ E1). destruct (text_eqb q p); lia.
    + destruct r as [|y [|z r]]; cbn in E2.
      * rewrite app_nil_r in E1. subst o1. rewrite H1. destruct (text_eqb q p); lia.
      * injection E2 as <- <-. subst o1. rewrite dir_count_app, H1. cbn. destruct (text_eqb q p); lia.
      * injection E2 as _ E2. destruct r; discriminate.
Qed.

Definition balances {A} (m : M A) : Prop := forall tr o a, m tr = (o, Ok a) -> streams_balanced o.

Lemma bal_bind {A B} (m : M A) (k : A -> M B) : balances m -> (forall a, balances (k a)) -> balances (bind m k).
Proof.
  intros Hm Hk tr o b E. apply bind_inv in E as [(o1 & a & o2 & E1 & E2 & ->)|[(u & _ & [=])|[(_ & [=])|(_ & [=])]]].
  apply sb_app; [eapply Hm, E1|eapply Hk, E2].
Qed.
Lemma bal_every {A} (m : M A) : every (Forall no_dir) m -> balances m.
Proof. intros H tr o a E. specialize (H tr). rewrite E in H. now apply sb_none. Qed.
Lemma bal_ret {A} (a : A) : balances (ret a).
Proof. apply bal_every. intros tr. constructor. Qed.
Lemma bal_fuel {A} : balances (@no_fuel A).
Proof. intros tr o a [=]. Qed.
Lemma bal_one {A} (f : trace -> obs) (g : trace -> A) : (forall tr, no_dir (f tr)) -> balances (fun tr => ([f tr], Ok (g tr))).
Proof. intros H. apply bal_every. intros tr. repeat constructor. apply H. Qed.

Lemma closed_no_dir s : closed s (Forall no_dir).
Proof.
  constructor; try (intros; repeat constructor; fail).
  - intros a b Ha Hb. now apply Forall_app.
  - intros x Hx. constructor; [|constructor]. destruct x; try exact I; destruct Hx.
  - intros e m _ _ _ Hm. apply Forall_app. split; [exact Hm|repeat constructor].
Qed.

Section Streams.
  Variable s : os.

  Lemma bal_walkdir {S} fuel : forall path (f : text -> S -> M S) st,
    (forall p st, balances (f p st)) -> balances (walkdir s fuel path f st).
  Proof.
    induction fuel as [|k IH]; intros path f st Hf; cbn [walkdir]; [apply bal_fuel|].
    intros tr o a E. unfold bind at 1, opendir in E.
    destruct (os_opendir s tr path) as [ents|].
    2:{ injection E as <- <-. apply sb_none. repeat constructor. }
    match type of E with (let (_, _) := ?m ?t in _) = _ => destruct (m t) as [o2 r2] eqn:E2 end.
    injection E as <- ->. rewrite <- (bind_assoc _ _ _) in E2.
    apply bind_inv in E2 as [(o3 & st2 & o4 & E3 & E4 & ->)|[(u & _ & [=])|[(_ & [=])|(_ & [=])]]].
    cbn in E4. injection E4 as <- <-. apply sb_bracket. revert E3. apply bal_bind; [apply Hf|].
    intros st1. revert st1. induction ents as [|de es IHe]; intros st1; [apply bal_ret|].
    destruct (negb (de_type de =? 4)%N); [apply IHe|].
    destruct (text_eqb (de_name de) (lit ".")); [apply IHe|].
    destruct (text_eqb (de_name de) (lit "..")); [apply IHe|].
    apply bal_bind; [apply (bal_one (fun tr => ORealpath _ (os_realpath s tr _))); intros; exact I|].
    intros [real|]; [|apply IHe].
    apply bal_bind; [apply IH, Hf|]. intros st'. apply IHe.
  Qed.

  Lemma bal_make_ep a b : balances (make_ep s a b).
  Proof.
    apply bal_every. intros tr. unfold make_ep, bind, epoll_create, epoll_ctl, sys_close, ret.
    cbn [app]. repeat match goal with |- context [if ?c then _ else _] => destruct c end; repeat constructor.
  Qed.

  Lemma bal_in_make fuel path il : balances (in_make_sysres s fuel path il).
  Proof.
    unfold in_make_sysres. apply bal_bind; [apply (bal_one (fun tr => OInotifyInit _)); intros; exact I|]. intros fd. cbv zeta.
    destruct (fd <? 0)%Z; [apply bal_ret|].
    apply bal_bind.
    { apply bal_walkdir. intros p st. apply bal_bind; [|intros; apply bal_ret].
      apply bal_every, ev_in_mark, closed_no_dir. }
    intros [|x dm]; [apply bal_ret|]. apply bal_bind; [apply bal_make_ep|intros; apply bal_ret].
  Qed.
  Lemma bal_fa_make fuel path il : balances (fa_make_sysres s fuel path il).
  Proof.
    unfold fa_make_sysres. apply bal_bind; [apply (bal_one (fun tr => OFanInit _)); intros; exact I|]. intros fd. cbv zeta.
    destruct (fd <? 1)%Z; [apply bal_ret|].
    apply bal_bind.
    { apply bal_walkdir. intros p st. apply bal_bind; [|intros; apply bal_ret].
      apply bal_every, ev_fa_mark, closed_no_dir. }
    intros _. apply bal_bind; [apply bal_make_ep|]. intros ep.
    destruct (ep <? 1)%Z; [|apply bal_ret].
    apply bal_bind; [apply (bal_one (fun _ => OClose fd) (fun _ => tt)); intros; exact I|intros; apply bal_ret].
  Qed.

  Lemma bal_platform K k_fd (recv : K -> M (result * K)) il fuel make :
    (forall ke, every (Forall no_dir) (recv ke)) -> balances make ->
    balances (platform_watch s K k_fd recv il fuel make).
  Proof.
    intros Hr Hm. unfold platform_watch. apply bal_bind; [exact Hm|]. intros [[ok ke] ep].
    apply bal_bind; [apply bal_every, ev_ep_loop; auto using closed_no_dir; repeat constructor|]. intros [ok' ke'].
    apply bal_bind; [apply (bal_one (fun _ => OClose _) (fun _ => tt)); intros; exact I|]. intros _.
    apply bal_bind; [apply (bal_one (fun _ => OClose _) (fun _ => tt)); intros; exact I|intros; apply bal_ret].
  Qed.

  Lemma linux_watch_streams fuel path il tr o b :
    linux_watch s fuel path il tr = (o, Ok b) -> streams_balanced o.
  Proof.
    revert tr o b. change (balances (linux_watch s fuel path il)).
    unfold linux_watch. apply bal_bind.
    { unfold try_fanotify. apply bal_bind; [apply (bal_one (fun tr => OGeteuid _)); intros; exact I|].
      intros u. destruct (u =? 0)%Z; [|apply bal_ret].
      apply bal_platform; [intros; apply ev_fa_recv, closed_no_dir|apply bal_fa_make]. }
    intros r. apply bal_bind.
    { destruct (r_eqb r _); [|apply bal_ret].
      apply bal_platform; [intros; apply ev_in_recv, closed_no_dir|apply bal_in_make]. }
    intros r'. destruct (r_ge r' r_e); [|apply bal_ret].
    apply bal_every. intros tr. repeat constructor.
  Qed.
End Streams.

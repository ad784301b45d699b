(** Whole runs of the fanotify adapter as sequences of batches. *)
From Verif Require Import Base PathModel EventModel Sys SysFacts LinuxModel InotifyModel FanotifyModel LinuxWatch LinuxSpec
  LinuxFacts LinuxRun LinuxProps LinuxChoice InotifySpec InotifyFacts InotifyRun FanotifySpec FanotifyFacts FanotifyLoop.

Lemma fgave_nil P : fgave P [] [].
Proof. repeat split; constructor. Qed.
Lemma fgave_app P a b x y : fgave P a x -> fgave P b y -> fgave P (a ++ b) (x ++ y).
Proof. intros (H1 & H2 & H3) (H4 & H5 & H6). split; [now rewrite reads_app, map_app, H1, H4|]. split; now apply Forall_app. Qed.
Lemma fsession_app s a x b y : fsession s a x -> fsession s b y -> fsession s (a ++ b) (x ++ y).
Proof. induction 1 as [|rs rss sh sh' e H _ IH]; intros Hb; [exact Hb|]. cbn [app]. rewrite <- app_assoc. econstructor; eauto. Qed.

Section Run.
  Variable s : os.
  Hypothesis Hs : handles_ok s.
  Variable P : list fan -> Prop.
  Hypothesis HK : fanotify_kernel P s.

  Definition kfa_ok (ke : kfa) : Prop := length (kfa_buf ke) = N.to_nat 4096.

  Lemma fa_recv_session ke tr : kfa_ok ke ->
    exists o r ke' rss, fa_recv s ke tr = (o, Ok (r, ke')) /\ kfa_fd ke' = kfa_fd ke /\ kfa_ok ke' /\ fgave P o rss /\ fsession s rss (shown o).
  Proof.
    intros Hk. destruct (HK tr (kfa_fd ke) 4096%N) as [Hneg|(rs & Hne & Hok & HP & Hl & Hb)].
    - set (rd := os_read s tr (kfa_fd ke) 4096) in *.
      assert (E : exists r, fa_recv s ke tr = ([ORead (kfa_fd ke) rd], Ok (r, ke))).
      { unfold fa_recv, bind, sys_read. change fa_buf_len with 4096%N. fold rd.
        replace (Z.to_nat (rd_len rd)) with 0%nat by lia. cbn [firstn overwrite app length skipn].
        destruct (Z.leb_spec (rd_len rd) 0); [|lia]. destruct (Z.ltb_spec (rd_len rd) 0); [|lia].
        destruct ke as [fd buf]. destruct (negb (rd_errno rd =? 11)%Z); cbn; eexists; reflexivity. }
      destruct E as (r & E). exists [ORead (kfa_fd ke) rd], r, ke, []. split; [exact E|]. split; [reflexivity|]. split; [exact Hk|].
      split; [|constructor]. split; [|repeat constructor]. cbn [reads]. destruct (Z.leb_spec 0 (rd_len rd)); [lia|reflexivity].
    - destruct (fa_recv_batch s ke tr rs Hs Hok Hne Hl Hb Hk) as (o & e & Hfb & Hnr & Hrun).
      destruct ke as [fd buf]. cbn [kfa_fd kfa_buf] in *. destruct (Hrun buf Hk) as (buf' & E & Hk').
      eexists _, (result_of e), _, [rs]. split; [exact E|]. split; [reflexivity|]. split; [exact Hk'|]. split.
      + split; [|split; (constructor; [assumption|constructor])]. cbn [reads map]. rewrite Hb, Hl.
        destruct (Z.leb_spec 0 (Z.of_nat (length (fencode rs)))); [|lia]. now rewrite (no_read_reads o Hnr).
      + change (shown (ORead fd (os_read s tr fd 4096) :: o)) with (shown o). rewrite <- (app_nil_r (shown o)). econstructor; [exact Hfb|constructor].
  Qed.

  Lemma each_ready_fses il : forall fds ok ke tr, kfa_ok ke ->
    exists o ok' ke' rss, each_ready kfa kfa_fd (fa_recv s) il fds ok ke tr = (o, Ok (ok', ke')) /\ kfa_ok ke' /\
      fgave P o rss /\ fsession s rss (shown o).
  Proof.
    induction fds as [|fd fds IH]; intros ok ke tr Hk; cbn [each_ready].
    - exists [], ok, ke, []. split; [reflexivity|]. split; [exact Hk|]. split; [apply fgave_nil|constructor].
    - destruct (fd =? il)%Z; [now apply IH|]. destruct (fd =? kfa_fd ke)%Z; [|now apply IH].
      destruct (fa_recv_session ke tr Hk) as (o1 & r1 & ke1 & rss1 & E1 & _ & Hk1 & Hg1 & Hs1).
      destruct (IH r1 ke1 (tr ++ o1) Hk1) as (o2 & ok2 & ke2 & rss2 & E2 & Hk2 & Hg2 & Hs2).
      exists (o1 ++ o2), ok2, ke2, (rss1 ++ rss2). split; [eapply bind_ok_eq; [exact E1|exact E2]|]. split; [exact Hk2|].
      split; [now apply fgave_app|]. rewrite shown_app. now apply fsession_app.
  Qed.

  Lemma ep_loop_fses il : forall fuel ep ok ke tr, kfa_ok ke ->
    exists o r rss, ep_loop s kfa kfa_fd (fa_recv s) il fuel ep ok ke tr = (o, r) /\ not_ub r /\
      fgave P o rss /\ fsession s rss (shown o).
  Proof.
    induction fuel as [|n IH]; intros ep ok ke tr Hk; cbn [ep_loop].
    { exists [], Fuel, []. split; [reflexivity|]. split; [exact I|]. split; [apply fgave_nil|constructor]. }
    destruct (negb (r_lt ok r_complete)).
    { exists [], (Ok (ok, ke)), []. split; [reflexivity|]. split; [exact I|]. split; [apply fgave_nil|constructor]. }
    unfold bind at 1, epoll_wait. set (w := os_epoll_wait s tr ep). destruct w as [fds|].
    - destruct (each_ready_fses il (firstn 64 fds) ok ke (tr ++ [OEpollWait ep (Some fds)]) Hk) as (o1 & ok1 & ke1 & rss1 & E1 & Hk1 & Hg1 & Hs1).
      destruct (IH ep ok1 ke1 ((tr ++ [OEpollWait ep (Some fds)]) ++ o1) Hk1) as (o2 & r2 & rss2 & E2 & Hu2 & Hg2 & Hs2).
      rewrite (bind_ok_eq _ _ _ _ _ _ _ E1 E2).
      exists (OEpollWait ep (Some fds) :: o1 ++ o2), r2, (rss1 ++ rss2). split; [reflexivity|]. split; [exact Hu2|].
      split; [exact (fgave_app _ _ _ _ _ Hg1 Hg2)|]. change (shown (OEpollWait ep (Some fds) :: o1 ++ o2)) with (shown (o1 ++ o2)).
      rewrite shown_app. now apply fsession_app.
    - destruct (IH ep r_e_sys_api_epoll ke (tr ++ [OEpollWait ep None]) Hk) as (o2 & r2 & rss2 & E2 & Hu2 & Hg2 & Hs2). rewrite E2.
      exists (OEpollWait ep None :: o2), r2, rss2. split; [reflexivity|]. auto.
  Qed.

  Lemma fa_mark_start p fd : every (Forall (start_obs)) (fa_mark s p fd).
  Proof.
    intros tr. unfold fa_mark, bind, realpath, stat_dir, fanotify_mark, send_msg, new_event, bind, now, callback, ret.
    destruct (os_realpath s tr p); cbn; [destruct (os_is_dir s _ _); cbn; [destruct (_ =? 0)%Z|]|]; repeat constructor; eexists; reflexivity.
  Qed.

  Lemma nub_bind {A B} (m : M A) (k : A -> M B) tr : not_ub (snd (m tr)) ->
    (forall a o, m tr = (o, Ok a) -> not_ub (snd (k a (tr ++ o)))) -> not_ub (snd (bind m k tr)).
  Proof.
    intros H1 H2. unfold bind. destruct (m tr) as [o [a|u| |]]; cbn in *; auto.
    specialize (H2 a o eq_refl). destruct (k a (tr ++ o)). exact H2.
  Qed.

  Lemma fa_make_start fuel path il tr :
    Forall start_obs (fst (fa_make_sysres s fuel path il tr)) /\ not_ub (snd (fa_make_sysres s fuel path il tr)) /\
    forall ok ke ep, snd (fa_make_sysres s fuel path il tr) = Ok (ok, ke, ep) -> kfa_ok ke.
  Proof.
    assert (Happ : forall a b, Forall start_obs a -> Forall start_obs b -> Forall start_obs (a ++ b))
      by (intros; now apply Forall_app).
    assert (Hret : forall A (x : A), every (Forall start_obs) (ret x)) by (intros; apply every_ret; constructor).
    assert (Hwalk : forall n p fd u, every (Forall start_obs) (walkdir s n p (fun dir _ => fa_mark s dir fd ;;; ret tt) u)).
    { induction n as [|n IH]; intros p fd u; cbn [walkdir]; [intros t; constructor|].
      apply every_bind; auto; [intros t; repeat constructor|]. intros [ents|]; auto.
      apply every_bind; auto; [apply every_bind; auto; apply fa_mark_start|]. intros st1.
      apply every_bind; auto; [|intros; apply every_bind; auto; intros t; repeat constructor].
      revert st1. induction ents as [|de es IHe]; intros st1; auto.
      destruct (negb (de_type de =? 4)%N); auto.
      destruct (text_eqb (de_name de) (lit ".")); auto.
      destruct (text_eqb (de_name de) (lit "..")); auto.
      apply every_bind; auto; [intros t; repeat constructor|]. intros [real|]; auto.
      apply every_bind; auto. }
    assert (Hwub : forall n p fd u t, not_ub (snd (walkdir s n p (fun dir _ => fa_mark s dir fd ;;; ret tt) u t))).
    { induction n as [|n IH]; intros p fd u t; cbn [walkdir]; [exact I|].
      apply nub_bind; [exact I|]. intros [ents|] o _; [|exact I].
      apply nub_bind. { unfold fa_mark, bind, realpath, stat_dir, fanotify_mark, send_msg, new_event, bind, now, callback, ret.
        destruct (os_realpath s _ p); cbn; [destruct (os_is_dir s _ _); cbn; [destruct (_ =? 0)%Z|]|]; exact I. }
      intros st1 o1 _. apply nub_bind; [|intros; exact I].
      generalize ((t ++ o) ++ o1). revert st1. clear o o1. induction ents as [|de es IHe]; intros st1 t1; [exact I|].
      destruct (negb (de_type de =? 4)%N); [apply IHe|].
      destruct (text_eqb (de_name de) (lit ".")); [apply IHe|].
      destruct (text_eqb (de_name de) (lit "..")); [apply IHe|].
      apply nub_bind; [exact I|]. intros [real|] o _; [|apply IHe].
      apply nub_bind; [apply IH|]. intros st' o' _. apply IHe. }
    assert (Hep : forall a b t, exists o ep, make_ep s a b t = (o, Ok ep) /\ Forall start_obs o).
    { intros a b t. unfold make_ep, bind, epoll_create, epoll_ctl, sys_close, ret. cbn [app].
      repeat match goal with |- context [if ?c then _ else _] => destruct c end; do 2 eexists; (split; [reflexivity|repeat constructor]). }
    assert (Hb : length (repeat 0%N (N.to_nat fa_buf_len)) = N.to_nat 4096) by apply repeat_length.
    destruct (fa_make_sysres s fuel path il tr) as [o r] eqn:E. cbn [fst snd].
    unfold fa_make_sysres in E. unfold bind at 1, fanotify_init in E. cbv zeta in E.
    set (fd := os_fan_init s tr) in *.
    destruct (fd <? 1)%Z.
    { cbn in E. injection E as <- <-. split; [repeat constructor|]. split; [exact I|]. intros ok ke ep [= <- <- <-]. exact Hb. }
    unfold bind at 1 in E.
    match type of E with context [walkdir s ?fu ?p ?f ?st ?t] =>
      pose proof (Hwalk fu p fd st t) as Hw1; pose proof (Hwub fu p fd st t) as Hw2; destruct (walkdir s fu p f st t) as [o2 r2] end.
    cbn [fst snd] in *. destruct r2 as [dm|u| |]; try contradiction.
    2:{ injection E as <- <-. split; [constructor; [exact I|exact Hw1]|]. split; [exact I|]. discriminate. }
    unfold bind at 1 in E.
    match type of E with context [make_ep s ?a ?b ?t] => destruct (Hep a b t) as (o3 & ep & E3 & Ho3); rewrite E3 in E end.
    destruct (ep <? 1)%Z; cbn in E; injection E as <- <-; (split; [constructor; [exact I|]|split; [exact I|intros ok ke ep' [= <- <- <-]; exact Hb]]).
    - apply Forall_app. split; [exact Hw1|]. apply Forall_app. split; [exact Ho3|repeat constructor].
    - apply Forall_app. split; [exact Hw1|]. apply Forall_app. split; [exact Ho3|constructor].
  Qed.

  Lemma fanotify_session fuel path il tr : fanotify_used s ->
    exists a b c r rss,
      linux_watch s fuel path il tr = (a ++ b ++ c, r) /\ not_ub r /\
      (forall e, In (OCallback e) a -> exists q, shape_of e = warning "w/sys/not_watched@" q) /\
      reads a = [] /\ fgave P b rss /\ reads c = [] /\ fsession s rss (shown b) /\
      (shown c = [] \/ exists e, callbacks c = [e] /\ fatal_message path e /\ r = Ok false).
  Proof.
    intros [Hu Hi]. rewrite linux_watch_split. unfold adapters, try_fanotify. rewrite !bind_assoc. unfold bind at 1, geteuid. rewrite Hu.
    change (0 =? 0)%Z with true. cbv iota. set (g := OGeteuid 0). set (tr1 := tr ++ [g]).
    destruct (fa_make_start fuel path il tr1) as (Hst & Hub & Hko).
    destruct (run_fanotify_init s fuel path il tr1) as (fd0 & rest0 & Hini & _ & _ & Hnf).
    assert (Hfd0 : (1 <= fd0)%Z).
    { unfold run_fanotify, platform_watch, fa_make_sysres in Hini. rewrite bind_assoc in Hini. unfold bind at 1, fanotify_init in Hini.
      match type of Hini with context [let (_, _) := ?m ?t in _] => destruct (m t) end. injection Hini as <- _. apply Hi. }
    specialize (Hnf Hfd0).
    assert (Hrun : exists a b c r rss, run_fanotify s fuel path il tr1 = (a ++ b ++ c, r) /\ not_ub r /\ Forall start_obs a /\
      fgave P b rss /\ reads c = [] /\ fsession s rss (shown b) /\ callbacks c = []).
    { unfold run_fanotify, platform_watch. unfold bind at 1. destruct (fa_make_sysres s fuel path il tr1) as [a ra]. cbn [fst snd] in *.
      destruct ra as [[[ok ke] ep]|u| |]; try contradiction.
      - destruct (ep_loop_fses il fuel ep ok ke (tr1 ++ a) (Hko _ _ _ eq_refl)) as (b & rb & rss & Eb & Hub' & Hrb & Hsb).
        unfold bind at 1. rewrite Eb. destruct rb as [[ok' ke']|u| |]; try contradiction.
        + exists a, b, [OClose (kfa_fd ke'); OClose ep], (Ok ok'), rss. cbn. split; [reflexivity|]. auto 10.
        + exists a, b, [], Fuel, rss. rewrite app_nil_r. split; [reflexivity|]. auto 10.
      - exists a, [], [], Fuel, []. rewrite app_nil_r. split; [reflexivity|]. split; [exact I|]. split; [exact Hst|].
        split; [apply fgave_nil|]. split; [reflexivity|]. split; [constructor|reflexivity]. }
    destruct Hrun as (a & b & c & r & rss & E & Hubr & Hsta & Hg & Hrc & Hses & Hcc).
    assert (Hma : forall e, In (OCallback e) (g :: a) -> exists q, shape_of e = warning "w/sys/not_watched@" q).
    { intros e [Hg'|Hin]; [discriminate|]. rewrite Forall_forall in Hsta. apply (Hsta _ Hin). }
    assert (Hra : reads (g :: a) = []) by (cbn [reads]; apply no_read_reads, start_no_read, Hsta).
    rewrite E in Hnf. cbn [snd] in Hnf. unfold bind at 1. rewrite E.
    destruct r as [r|u| |]; try contradiction.
    - assert (Hneq : r_eqb r r_e_sys_api_fanotify = false) by (destruct r; try reflexivity; exfalso; now apply Hnf).
      rewrite Hneq. rewrite bind_ret.
      pose proof (linux_watch_inv s fuel path il tr) as Hinv. rewrite linux_watch_split in Hinv.
      unfold adapters, try_fanotify in Hinv. rewrite !bind_assoc in Hinv. unfold bind at 1, geteuid in Hinv. rewrite Hu in Hinv.
      change (0 =? 0)%Z with true in Hinv. cbv iota in Hinv. fold g in Hinv. fold tr1 in Hinv.
      unfold bind at 1 in Hinv. rewrite E in Hinv. rewrite Hneq in Hinv. rewrite bind_ret in Hinv.
      destruct (r_ge r r_e) eqn:Er.
      + cbn in Hinv |- *. match goal with |- context [OCallback ?x] => set (e0 := x) in * end.
        pose proof (Hinv _ _ eq_refl) as [(Hf & _)|(_ & o1 & e & Ho & _ & Hfat)]; [discriminate|].
        exists (g :: a), b, (c ++ [ONow (ev_time e0); OCallback e0]), (Ok false), rss.
        split; [cbn; now rewrite <- !app_assoc|]. split; [exact I|]. split; [exact Hma|]. split; [exact Hra|]. split; [exact Hg|].
        split; [now rewrite reads_app, Hrc|]. split; [exact Hses|]. right. exists e0. split; [|split; [|reflexivity]].
        * rewrite callbacks_app, Hcc. reflexivity.
        * assert (He : e0 = e); [|now rewrite He].
          assert (Hl : last (g :: (a ++ b ++ c) ++ [ONow (ev_time e0); OCallback e0]) g = OCallback e0).
          { rewrite app_comm_cons. change [ONow (ev_time e0); OCallback e0] with ([ONow (ev_time e0)] ++ [OCallback e0]).
            rewrite app_assoc. apply last_last. }
          unfold e0 in Hl at 1. cbn [ev_time ev_make] in Hl. rewrite Ho in Hl.
          change [ONow (ev_time e); OCallback e] with ([ONow (ev_time e)] ++ [OCallback e]) in Hl.
          rewrite app_assoc, last_last in Hl. injection Hl as Hl. symmetry. exact Hl.
      + cbn. exists (g :: a), b, c, (Ok true), rss. rewrite app_nil_r. split; [reflexivity|]. split; [exact I|]. split; [exact Hma|].
        split; [exact Hra|]. split; [exact Hg|]. split; [exact Hrc|]. split; [exact Hses|]. left. unfold shown. now rewrite Hcc.
    - exists (g :: a), b, c, Fuel, rss. split; [reflexivity|]. split; [exact I|]. split; [exact Hma|].
      split; [exact Hra|]. split; [exact Hg|]. split; [exact Hrc|]. split; [exact Hses|]. left. unfold shown. now rewrite Hcc.
  Qed.
End Run.

(** Failures while the Linux adapter sets itself up (C75, C76). *)
From Verif Require Import Base PathModel EventModel Sys SysFacts LinuxModel InotifyModel FanotifyModel LinuxWatch
  LinuxSpec LinuxFacts LinuxRun LinuxProps LinuxLoop LinuxEnds WalkFacts LinuxChoice SetupSpec.

Definition fine (x : obs) : Prop := broken x = None.
Lemma closed_fine s : closed s (Forall fine).
Proof.
  constructor; try (intros; repeat constructor; fail).
  - intros a b Ha Hb. now apply Forall_app.
  - intros x Hx. constructor; [|constructor]. destruct x; try reflexivity; destruct Hx.
  - intros e m _ _ _ Hm. apply Forall_app. split; [exact Hm|repeat constructor].
Qed.
Lemma fine_not x o r : Forall fine o -> In x o -> broken x = Some r -> False.
Proof. intros F H B. rewrite Forall_forall in F. specialize (F _ H). unfold fine in F. congruence. Qed.

Section Setup.
  Variable s : os.
  Definition says (r : result) (m : string) : Prop := to_str r = lit m.
  Lemma fine_walk {S} fuel p (f : text -> S -> M S) st :
    (forall p st, every (Forall fine) (f p st)) -> every (Forall fine) (walkdir s fuel p f st).
  Proof. intros H. apply ev_walkdir; auto; [apply closed_fine| |]; intros; repeat constructor. Qed.
  Lemma make_ep_broken a b tr o ep : make_ep s a b tr = (o, Ok ep) ->
    (forall x m, In x o -> broken x = Some m -> m = "e/sys/api/epoll@"%string /\ (ep < 0)%Z) .
  Proof.
    unfold make_ep, bind, epoll_create, epoll_ctl, sys_close, ret. cbn [app]. intros E x m H B.
    destruct (os_epoll_create s tr <? 0)%Z eqn:C.
    { injection E as <- <-. destruct H as [<-|[]]. cbn in B. rewrite C in B. injection B as <-. split; [reflexivity|lia]. }
    match type of E with context [if ?c then _ else _] => destruct c eqn:C0 end.
    { injection E as <- <-. destruct H as [<-|[<-|[<-|[]]]]; cbn in B; rewrite ?C, ?C0 in B; try discriminate B; injection B as <-; split; [reflexivity|lia]. }
    match type of E with context [if ?c then _ else _] => destruct c eqn:C1 end;
      injection E as <- <-; cbn [In app] in H.
    - destruct H as [<-|[<-|[<-|[<-|[]]]]]; cbn in B; rewrite ?C, ?C0, ?C1 in B; try discriminate B; injection B as <-; split; [reflexivity|lia].
    - destruct H as [<-|[<-|[<-|[]]]]; cbn in B; rewrite ?C, ?C0, ?C1 in B; discriminate B.
  Qed.
  Lemma in_make_broken fuel path il tr o ok ke ep : in_make_sysres s fuel path il tr = (o, Ok (ok, ke, ep)) ->
    forall x m, In x o -> broken x = Some m -> says ok m /\ r_lt ok r_complete = false.
  Proof.
    intros E x m Hx B. unfold in_make_sysres in E. ok_bind E o1 fd. injection E0 as <- <-. cbv zeta in E1.
    destruct (os_inotify_init s tr <? 0)%Z eqn:C.
    - injection E1 as <- <- <- <-. destruct Hx as [<-|[]]. cbn in B. rewrite C in B. injection B as <-. split; reflexivity.
    - cbn [app] in Hx. destruct Hx as [<-|Hx]; [cbn in B; rewrite C in B; discriminate|]. ok_bind E1 o2 dm.
      assert (F : Forall fine o2).
      { pose proof (closed_fine s) as HP. pose proof (fine_walk fuel path (fun dir dm => p <- in_mark s dir (os_inotify_init s tr) dm ;; ret (fst p)) []
          (fun p st => ev_bind s _ HP _ _ (ev_in_mark s _ HP p (os_inotify_init s tr) st) (fun a => ev_ret s _ HP _)) (tr ++ [OInotifyInit (os_inotify_init s tr)])) as W.
        unfold every in W. now rewrite E in W. }
      destruct dm as [|p dm].
      + injection E0 as <- <- <- <-. rewrite app_nil_r in Hx. destruct (fine_not _ _ _ F Hx B).
      + ok_bind E0 o3 ep'. injection E2 as <- <- <- <-. apply in_app_iff in Hx as [Hx|Hx]; [destruct (fine_not _ _ _ F Hx B)|].
        rewrite app_nil_r in Hx. destruct (make_ep_broken _ _ _ _ _ E1 x m Hx B) as [-> L]. apply Z.ltb_lt in L. rewrite L. split; reflexivity.
  Qed.
  Lemma fa_make_broken fuel path il tr o ok ke ep : fa_make_sysres s fuel path il tr = (o, Ok (ok, ke, ep)) ->
    forall x m, In x o -> broken x = Some m -> says ok m /\ r_lt ok r_complete = false.
  Proof.
    intros E x m Hx B. unfold fa_make_sysres in E. ok_bind E o1 fd. injection E0 as <- <-. cbv zeta in E1.
    destruct (os_fan_init s tr <? 1)%Z eqn:C.
    - injection E1 as <- <- <- <-. destruct Hx as [<-|[]]. discriminate B.
    - cbn [app] in Hx. destruct Hx as [<-|Hx]; [discriminate|]. ok_bind E1 o2 dm.
      assert (F : Forall fine o2).
      { pose proof (closed_fine s) as HP. pose proof (fine_walk fuel path (fun dir _ => fa_mark s dir (os_fan_init s tr) ;;; ret tt) tt
          (fun p st => ev_bind s _ HP _ _ (ev_fa_mark s _ HP p (os_fan_init s tr)) (fun a => ev_ret s _ HP _)) (tr ++ [OFanInit (os_fan_init s tr)])) as W.
        unfold every in W. now rewrite E in W. }
      ok_bind E0 o3 ep'. apply in_app_iff in Hx as [Hx|Hx]; [destruct (fine_not _ _ _ F Hx B)|]. apply in_app_iff in Hx as [Hx|Hx].
      + destruct (make_ep_broken _ _ _ _ _ E1 x m Hx B) as [-> L]. replace (ep' <? 1)%Z with true in E2 by lia.
        unfold bind, sys_close, ret in E2. injection E2 as _ <- _ _. split; reflexivity.
      + destruct (ep' <? 1)%Z; unfold bind, sys_close, ret in E2; injection E2 as <- _ _ _; [destruct Hx as [<-|[]]; discriminate B|destruct Hx].
  Qed.

  Lemma ep_loop_fine K (kfd : K -> Z) recv il : (forall ke, every (Forall fine) (recv ke)) ->
    forall fuel ep ok ke, every (Forall fine) (ep_loop s K kfd recv il fuel ep ok ke).
  Proof.
    intros Hr. pose proof (closed_fine s) as HP. induction fuel as [|n IH]; intros ep ok ke; [intros tr; constructor|]. cbn [ep_loop].
    destruct (negb _); [apply (ev_ret s _ HP)|]. apply (ev_bind s _ HP); [intros tr; repeat constructor|]. intros [fds|]; [|apply IH].
    apply (ev_bind s _ HP); [|intros [ok' ke']; apply IH]. apply (ev_each_ready s); [exact HP|exact Hr].
  Qed.
  Lemma platform_broken K (kfd : K -> Z) recv il fuel make tr o r :
    (forall ke, every (Forall fine) (recv ke)) -> every (Forall no_wait) make ->
    (forall tr o ok ke ep, make tr = (o, Ok (ok, ke, ep)) -> forall x m, In x o -> broken x = Some m -> says ok m /\ r_lt ok r_complete = false) ->
    platform_watch s K kfd recv il fuel make tr = (o, Ok r) ->
    forall x m, In x o -> broken x = Some m -> says r m /\ Forall no_wait o.
  Proof.
    intros Hr Hw Hm E x m Hx B. unfold platform_watch in E. ok_bind E o1 y. destruct y as [[ok ke] ep]. specialize (Hm _ _ _ _ _ E0). specialize (Hw tr). rewrite E0 in Hw. cbn in Hw.
    ok_bind E1 o2 z. destruct z as [ok' ke']. unfold bind, sys_close, ret in E2. injection E2 as <- <-.
    apply in_app_iff in Hx as [Hx|Hx].
    - destruct (Hm _ _ Hx B) as [S L]. destruct fuel as [|n]; [discriminate|]. cbn [ep_loop] in E. rewrite L in E. injection E as <- <- _.
      split; [exact S|]. apply Forall_app. split; [exact Hw|]. repeat constructor.
    - exfalso. apply in_app_iff in Hx as [Hx|[<-|[<-|[]]]]; try discriminate B.
      pose proof (ep_loop_fine K kfd recv il Hr fuel ep ok ke (tr ++ o1)) as F. rewrite E in F. exact (fine_not _ _ _ F Hx B).
  Qed.

  Lemma no_wait_mono (a b : trace) : Forall no_wait a -> Forall no_wait b -> Forall no_wait (a ++ b).
  Proof. intros. now apply Forall_app. Qed.

  Lemma linux_broken fuel path il tr o b : linux_watch s fuel path il tr = (o, Ok b) -> forall x m, In x o -> broken x = Some m ->
    b = false /\ Forall no_wait o /\ exists o' t, o = o' ++ [ONow t; OCallback (Ev (lit m ++ path) EtOther PtWatcher t None)].
  Proof.
    intros E x m Hx B. rewrite linux_watch_split in E. ok_bind E o1 r.
    assert (T : (forall y k, In y o1 -> broken y = Some k -> says r k /\ Forall no_wait o1)).
    { unfold adapters in E0. apply bind_inv in E0 as [(p & r1 & p' & E & E1' & ->)|[(? & _ & [=])|[(_ & [=])|(_ & [=])]]]. unfold try_fanotify in E.
      apply bind_inv in E as [(q & u & q' & E2 & E3 & ->)|[(? & _ & [=])|[(_ & [=])|(_ & [=])]]]. injection E2 as <- <-.
      assert (A : forall y k, In y q' -> broken y = Some k -> says r1 k /\ Forall no_wait q').
      { destruct (_ =? 0)%Z.
        - exact (platform_broken _ _ _ _ _ _ _ _ _ (fun ke => ev_fa_recv s _ (closed_fine s) ke) (fa_make_no_wait s fuel path il) (fun tr o ok ke ep H => fa_make_broken _ _ _ _ _ _ _ _ H) E3).
        - injection E3 as <- <-. intros y k []. }
      intros y k Hy Bk. apply in_app_iff in Hy as [Hy|Hy].
      - destruct Hy as [<-|Hy]; [discriminate Bk|]. destruct (A y k Hy Bk) as [S W].
        assert (NF : r_eqb r1 r_e_sys_api_fanotify = false).
        { destruct y; cbn in Bk; try discriminate Bk; destruct (_ <? 0)%Z; try discriminate Bk; injection Bk as <-; destruct r1; try reflexivity; discriminate S. }
        rewrite NF in E1'. injection E1' as <- <-. split; [exact S|]. rewrite app_nil_r. constructor; [exact I|exact W].
      - destruct (r_eqb r1 r_e_sys_api_fanotify) eqn:RF.
        + destruct (platform_broken _ _ _ _ _ _ _ _ _ (fun ke => ev_in_recv s _ (closed_fine s) ke) (in_make_no_wait s fuel path il) (fun tr o ok ke ep H => in_make_broken _ _ _ _ _ _ _ _ H) E1' y k Hy Bk) as [S W]. split; [exact S|]. constructor; [exact I|]. apply no_wait_mono; [|exact W].
          (* fanotify was given up before any wait *)
          destruct (_ =? 0)%Z.
          * destruct r1; try discriminate RF. clear - E3.
            unfold run_fanotify, platform_watch in E3.
            apply bind_inv in E3 as [(a & y & a' & Ea & Eb & ->)|[(? & _ & [=])|[(_ & [=])|(_ & [=])]]]. destruct y as [[ok ke] ep].
            pose proof (fa_make_no_wait s fuel path il (tr ++ [OGeteuid (os_geteuid s tr)])) as Fa. rewrite Ea in Fa. cbn in Fa.
            apply bind_inv in Eb as [(c & z & c' & Ec & Ed & ->)|[(? & _ & [=])|[(_ & [=])|(_ & [=])]]]. destruct z as [ok' ke']. unfold bind, sys_close, ret in Ed. injection Ed as <- ->.
            assert (Hk : c = []); [|subst c; apply no_wait_mono; [exact Fa|repeat constructor]].
            destruct (r_lt ok r_complete) eqn:L.
            -- exfalso. apply (ep_loop_inv) in Ec as (_ & _ & H); [|intros; apply fa_recv_result|intros; apply ev_fa_recv, closed_no_wait].
               destruct H as [[<- H]|[[H _]|H]]; [discriminate L|discriminate H|cbn in H; intuition discriminate].
            -- destruct fuel as [|n]; [discriminate|]. cbn [ep_loop] in Ec. rewrite L in Ec. now injection Ec as <- _ _.
          * injection E3 as <- _. constructor.
        + injection E1' as <- <-. destruct Hy. }
    assert (Q : ~ In x o1' ).
    { intros Hq. destruct (r_ge r r_e); [unfold send_msg, new_event, bind, now, callback, ret in E1; cbn [app] in E1|]; injection E1 as <- <-;
        [destruct Hq as [<-|[<-|[]]]; discriminate B|destruct Hq]. }
    apply in_app_iff in Hx as [Hx|Hx]; [|contradiction]. destruct (T x m Hx B) as [S W].
    assert (G : r_ge r r_e = true).
    { destruct x; cbn in B; try discriminate B; destruct (_ <? 0)%Z; try discriminate B; injection B as <-; destruct r; try reflexivity; discriminate S. }
    rewrite G in E1. unfold send_msg, new_event, bind, now, callback, ret in E1. cbn [app] in E1. injection E1 as <- <-.
    split; [reflexivity|]. split; [apply no_wait_mono; [exact W|repeat constructor]|]. exists o1. eexists. unfold ev_make. rewrite S. reflexivity.
  Qed.

  Definition still {S} (f : S -> M S) : Prop := forall st tr o st', f st tr = (o, Ok st') -> Forall no_mark o -> st' = st.
  Lemma still_walk {S} (f : text -> S -> M S) : (forall p, still (f p)) -> forall fuel p, still (walkdir s fuel p f).
  Proof.
    intros Hf. induction fuel as [|k IH]; intros p st tr o st' E F; [discriminate|]. rewrite WalkFacts.walkdir_S in E.
    ok_bind E o1 d. injection E0 as <- <-. apply Forall_app in F as [_ F]. destruct (os_opendir s tr p) as [es|]; [|now injection E1 as _ <-].
    ok_bind E1 o2 st1. apply Forall_app in F as [F2 F]. rewrite (Hf _ _ _ _ _ E F2) in *. clear E F2.
    ok_bind E0 o3 st2. apply Forall_app in F as [F3 _]. unfold bind, closedir, ret in E1. injection E1 as _ <-.
    match type of E with _ ?t = _ => generalize dependent t end. intros t1 E. revert E F3. revert t1.
    revert st o3 st2. induction es as [|e es IHe]; intros st o3 st2 t1 E F3; [now injection E as _ <-|]. rewrite WalkFacts.each_cons in E.
    destruct (negb _); [eapply IHe; eassumption|]. destruct (text_eqb _ _); [eapply IHe; eassumption|]. destruct (text_eqb _ _); [eapply IHe; eassumption|].
    ok_bind E o4 r. injection E0 as <- <-. apply Forall_app in F3 as [_ F3]. destruct (os_realpath s t1 _) as [q|]; [|eapply IHe; eassumption].
    ok_bind E1 o5 st3. apply Forall_app in F3 as [F4 F5]. rewrite (IH _ _ _ _ _ E F4) in *. eapply IHe; eassumption.
  Qed.
  Lemma still_in_mark fd p : still (fun dm => q <- in_mark s p fd dm ;; ret (fst q)).
  Proof.
    intros st tr o st' E F. ok_bind E o1 q. injection E1 as <- <-. rewrite app_nil_r in F. unfold in_mark in E0.
    ok_bind E0 o2 r. apply Forall_app in F as [_ F]. destruct r as [real|].
    - ok_bind E1 o3 d. apply Forall_app in F as [_ F]. ok_bind E2 o4 wd. apply Forall_app in F as [F _].
      destruct (0 <? wd)%Z eqn:W.
      + destruct d; injection E1 as <- <-; [|discriminate W]. apply Forall_inv in F. apply Z.ltb_lt in W. unfold no_mark in F. lia.
      + match goal with H : bind (send_msg _ _ _) _ _ = _ |- _ => ok_bind H o5 u end. match goal with H : ret _ _ = _ |- _ => now injection H as _ <- end.
    - ok_bind E1 o5 u. match goal with H : ret _ _ = _ |- _ => now injection H as _ <- end.
  Qed.

  Lemma inotify_empty fuel path il tr o r fd : run_inotify s fuel path il tr = (o, Ok r) -> In (OInotifyInit fd) o -> (0 <= fd)%Z ->
    Forall no_mark o -> r = r_e_self_noent /\ Forall no_wait o.
  Proof.
    intros E Hi Hfd F. destruct (run_inotify_init s fuel path il tr) as (fd' & rest & Er & Hn). rewrite E in Er. cbn [fst] in Er.
    unfold run_inotify, platform_watch in E.
    apply bind_inv in E as [(o1 & y & o1' & E0 & E1 & ->)|[(? & _ & [=])|[(_ & [=])|(_ & [=])]]]. destruct y as [[ok ke] ep].
    pose proof (in_make_no_wait s fuel path il tr) as W. rewrite E0 in W. cbn in W.
    assert (Hi' : In (OInotifyInit fd) o1).
    { apply in_app_iff in Hi as [Hi|Hi]; [exact Hi|exfalso].
      unfold in_make_sysres in E0. ok_bind E0 o2 f. injection E as <- <-. cbn [app] in Er. injection Er as <- <-.
      unfold none_of in Hn. rewrite Forall_forall in Hn. apply (Hn (OInotifyInit fd)); [|right; exact I]. apply in_app_iff. now right. }
    apply Forall_app in F as [F _].
    assert (Ok1 : ok = r_e_self_noent).
    { clear - E0 Hi' Hfd F. unfold in_make_sysres in E0. apply bind_inv in E0 as [(a & f & a' & Ea & Eb & ->)|[(? & _ & [=])|[(_ & [=])|(_ & [=])]]].
      injection Ea as <- <-. cbv zeta in Eb. destruct (os_inotify_init s tr <? 0)%Z eqn:C.
      - injection Eb as <- _ _ _. destruct Hi' as [H|[]]. injection H as <-. lia.
      - apply bind_inv in Eb as [(b & dm & b' & Ec & Ed & ->)|[(? & _ & [=])|[(_ & [=])|(_ & [=])]]].
        apply Forall_app in F as [_ F]. apply Forall_app in F as [F _].
        apply (still_walk _ (still_in_mark (os_inotify_init s tr))) in Ec. specialize (Ec F). subst dm. now injection Ed as _ <- _ _. }
    subst ok. destruct fuel as [|n]; [discriminate E1|]. unfold bind at 1 in E1. cbn [ep_loop] in E1.
    change (r_lt r_e_self_noent r_complete) with false in E1. cbn [negb ret] in E1. unfold bind, sys_close, ret in E1. injection E1 as <- <-.
    split; [reflexivity|]. apply no_wait_mono; [exact W|repeat constructor].
  Qed.

  Lemma linux_empty fuel path il tr o b fd : linux_watch s fuel path il tr = (o, Ok b) -> In (OInotifyInit fd) o -> (0 <= fd)%Z -> Forall no_mark o ->
    b = false /\ Forall no_wait o /\ exists o' t, o = o' ++ [ONow t; OCallback (Ev (lit "e/self/noent@" ++ path) EtOther PtWatcher t None)].
  Proof.
    intros E Hi Hfd F. rewrite linux_watch_split in E. ok_bind E o1 r. apply Forall_app in F as [F _].
    assert (T : r = r_e_self_noent /\ Forall no_wait o1).
    { assert (Hi1 : In (OInotifyInit fd) o1).
      { apply in_app_iff in Hi as [Hi|Hi]; [exact Hi|].
        destruct (r_ge r r_e); [unfold send_msg, new_event, bind, now, callback, ret in E1; cbn [app] in E1|]; injection E1 as <- _; [destruct Hi as [H|[H|[]]]; discriminate H|destruct Hi]. }
      clear E1 Hi. unfold adapters in E0.
      apply bind_inv in E0 as [(p & r1 & p' & E & E1' & ->)|[(? & _ & [=])|[(_ & [=])|(_ & [=])]]]. unfold try_fanotify in E.
      apply bind_inv in E as [(q & u & q' & E2 & E3 & ->)|[(? & _ & [=])|[(_ & [=])|(_ & [=])]]]. injection E2 as <- <-.
      apply Forall_app in F as [_ F].
      assert (A : ~ In (OInotifyInit fd) q' /\ (r1 = r_e_sys_api_fanotify -> Forall no_wait q')).
      { destruct (_ =? 0)%Z; [|injection E3 as <- <-; split; [intros []|constructor]].
        destruct (run_fanotify_init s fuel path il (tr ++ [OGeteuid (os_geteuid s tr)])) as (f & rest & Ef & Hn & Hlow & Hhigh).
        rewrite E3 in Ef, Hlow, Hhigh. cbn [fst snd] in *. subst q'. split.
        - intros [H|H]; [discriminate H|]. unfold none_of in Hn. rewrite Forall_forall in Hn. apply (Hn _ H). right. exact I.
        - intros ->. destruct (Z.lt_ge_cases f 1) as [L|L]; [|destruct (Hhigh L); reflexivity].
          destruct fuel as [|n]; [|destruct (Hlow (fun H => ltac:(discriminate H)) L) as [-> _]; repeat constructor].
          exfalso. clear - E3. revert E3. generalize (OFanInit f :: rest). intros oo E3. unfold run_fanotify, platform_watch in E3. apply bind_inv in E3 as [(a & y & c & E0 & E1 & ->)|[(? & _ & [=])|[(_ & [=])|(_ & [=])]]]. destruct y as [[ok ke] ep]. unfold bind at 1 in E1. discriminate E1. }
      destruct A as [A1 A2].
      assert (Hi2 : In (OInotifyInit fd) p').
      { rewrite <- app_assoc in Hi1. apply in_app_iff in Hi1 as [[H|[]]|Hi1]; [discriminate H|]. apply in_app_iff in Hi1 as [H|H]; [contradiction|exact H]. }
      destruct (r_eqb r1 r_e_sys_api_fanotify) eqn:RF; [|injection E1' as <- _; destruct Hi2].
      assert (r1 = r_e_sys_api_fanotify) by (destruct r1; try discriminate RF; reflexivity). specialize (A2 H).
      destruct (inotify_empty _ _ _ _ _ _ _ E1' Hi2 Hfd F) as [-> W]. split; [reflexivity|]. repeat apply no_wait_mono; [repeat constructor|exact A2|exact W]. }
    destruct T as [-> W]. change (r_ge r_e_self_noent r_e) with true in E1. unfold send_msg, new_event, bind, now, callback, ret in E1. cbn [app] in E1. injection E1 as <- <-.
    split; [reflexivity|]. split; [apply no_wait_mono; [exact W|repeat constructor]|]. exists o1. eexists. reflexivity.
  Qed.
  (** fanotify: set up, the adapter waits, whatever it could mark. *)
  Lemma fa_make_ready fuel path il tr o ok ke ep fd : fa_make_sysres s fuel path il tr = (o, Ok (ok, ke, ep)) -> In (OFanInit fd) o -> (1 <= fd)%Z ->
    Forall fine o -> (forall e, In (OEpollCreate e) o -> (1 <= e)%Z) -> ok = r_pending.
  Proof.
    intros E Hf L F Ep. unfold fa_make_sysres in E. ok_bind E o1 fd0. injection E0 as <- <-. cbv zeta in E1.
    destruct (os_fan_init s tr <? 1)%Z eqn:C.
    - injection E1 as <- <- <- <-. destruct Hf as [H|[]]. injection H as <-. lia.
    - ok_bind E1 o2 dm. ok_bind E0 o3 ep'. destruct (ep' <? 1)%Z eqn:C1; [|now injection E2 as _ <- _ _].
      exfalso. apply Forall_app in F as [_ F]. apply Forall_app in F as [_ F]. apply Forall_app in F as [F _].
      assert (Ep' : forall e, In (OEpollCreate e) o3 -> (1 <= e)%Z) by (intros e He; apply Ep; rewrite !in_app_iff; tauto).
      clear - E1 C1 F Ep'. unfold make_ep, bind, epoll_create, epoll_ctl, sys_close, ret in E1. cbn [app] in E1.
      match type of E1 with context [if ?c then _ else _] => destruct c eqn:C end.
      { injection E1 as <- <-. apply Forall_inv in F. unfold fine in F. cbn in F. rewrite C in F. discriminate. }
      match type of E1 with context [if ?c then _ else _] => destruct c eqn:C0 end.
      { injection E1 as <- <-. apply Forall_inv_tail, Forall_inv in F. unfold fine in F. cbn in F. rewrite C0 in F. discriminate. }
      match type of E1 with context [if ?c then _ else _] => destruct c eqn:C2 end.
      { injection E1 as <- <-. do 2 apply Forall_inv_tail in F. apply Forall_inv in F. unfold fine in F. cbn in F. rewrite C2 in F. discriminate. }
      injection E1 as <- <-. assert (1 <= os_epoll_create s (((tr ++ [OFanInit (os_fan_init s tr)]) ++ o2)))%Z by (apply Ep'; now left). lia.
  Qed.
  Lemma linux_fan_waits fuel path il tr o b fd : linux_watch s fuel path il tr = (o, Ok b) -> In (OFanInit fd) o -> (1 <= fd)%Z ->
    (forall x, In x o -> broken x = None) -> (forall e, In (OEpollCreate e) o -> (1 <= e)%Z) -> exists ep r, In (OEpollWait ep r) o.
  Proof.
    intros E Hf L F Ep. rewrite linux_watch_split in E. ok_bind E o1 r. unfold adapters in E0.
    apply bind_inv in E0 as [(p & r1 & p' & E & E1' & ->)|[(? & _ & [=])|[(_ & [=])|(_ & [=])]]]. unfold try_fanotify in E.
    apply bind_inv in E as [(q & u & q' & E2 & E3 & ->)|[(? & _ & [=])|[(_ & [=])|(_ & [=])]]]. injection E2 as <- <-.
    assert (Hp : ~ In (OFanInit fd) p').
    { destruct (r_eqb r1 _); [|injection E1' as <- _; intros []]. destruct (run_inotify_init s fuel path il (tr ++ [OGeteuid (os_geteuid s tr)] ++ q')) as (f & rest & Ef & Hn).
      rewrite E1' in Ef. cbn [fst] in Ef. subst p'. intros [H|H]; [discriminate H|]. unfold none_of in Hn. rewrite Forall_forall in Hn. apply (Hn _ H). left. exact I. }
    assert (Ho : ~ In (OFanInit fd) o1').
    { destruct (r_ge r r_e); [unfold send_msg, new_event, bind, now, callback, ret in E1; cbn [app] in E1|]; injection E1 as <- _; [intros [H|[H|[]]]; discriminate H|intros []]. }
    assert (Hq : In (OFanInit fd) q').
    { rewrite !in_app_iff in Hf. destruct Hf as [[[[H|[]]|H]|H]|H]; [discriminate H|exact H|contradiction|contradiction]. }
    destruct (_ =? 0)%Z; [|injection E3 as <- <-; destruct Hq].
    assert (Sub : forall x, In x q' -> In x (([OGeteuid (os_geteuid s tr)] ++ q') ++ p') ) by (intros x Hx; rewrite !in_app_iff; tauto).
    assert (Sub' : forall x, In x q' -> In x ((([OGeteuid (os_geteuid s tr)] ++ q') ++ p') ++ o1')) by (intros x Hx; apply in_app_iff; left; now apply Sub).
    enough (W : exists ep r0, In (OEpollWait ep r0) q') by (destruct W as (ep & r0 & W); exists ep, r0; now apply Sub').
    assert (F' : Forall fine q') by (apply Forall_forall; intros x Hx; now apply F, Sub').
    assert (Ep' : forall e, In (OEpollCreate e) q' -> (1 <= e)%Z) by (intros e He; now apply Ep, Sub').
    destruct (run_fanotify_init s fuel path il (tr ++ [OGeteuid (os_geteuid s tr)])) as (f & rest & Ef & Hn & _).
    rewrite E3 in Ef. cbn [fst] in Ef.
    assert (Efd : f = fd).
    { subst q'. destruct Hq as [H|H]; [now injection H|]. unfold none_of in Hn. rewrite Forall_forall in Hn. destruct (Hn _ H). left. exact I. }
    clear - E3 Ef Efd L F' Ep'. unfold run_fanotify, platform_watch in E3.
    apply bind_inv in E3 as [(a & y & c & E0 & E1 & ->)|[(? & _ & [=])|[(_ & [=])|(_ & [=])]]]. destruct y as [[ok ke] ep].
    apply Forall_app in F' as [F1 F2].
    assert (Ha : In (OFanInit fd) a).
    { pose proof E0 as X. unfold fa_make_sysres in X. ok_bind X o2 g. injection E as <- <-. cbn [app] in Ef. injection Ef as -> _. subst f. now left. }
    assert (Eok : ok = r_pending) by (eapply fa_make_ready; [exact E0|exact Ha|exact L|exact F1|intros e He; apply Ep', in_app_iff; now left]).
    subst ok. destruct fuel as [|n]; [discriminate E1|]. unfold bind at 1 in E1. cbn [ep_loop] in E1. change (negb (r_lt r_pending r_complete)) with false in E1. cbv iota in E1.
    unfold bind at 1, epoll_wait in E1. cbn [app] in E1.
    match type of E1 with (let (_, _) := let (_, _) := ?m in _ in _) = _ => destruct m as [ow [x| | |]] end; try discriminate E1.
    all: try (destruct x as [ok' ke']; unfold bind, sys_close, ret in E1; injection E1 as <- <-).
    eexists _, _. apply in_app_iff. right. left. reflexivity.
  Qed.
End Setup.

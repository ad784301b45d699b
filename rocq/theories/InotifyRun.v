(** Whole runs of the inotify adapter (C19-C27). *)
From Verif Require Import Base PathModel EventModel Sys SysFacts LinuxModel InotifyModel
  FanotifyModel LinuxWatch LinuxSpec LinuxFacts LinuxRun LinuxProps InotifySpec InotifyFacts.

Definition same (a b : dirs) : Prop := forall k, a k = b k.

Lemma learn_same a b wd d : same a b -> same (learn a wd d) (learn b wd d).
Proof. intros H k. unfold learn. now rewrite H. Qed.
Lemma learn_all_same is : forall a b, same a b -> same (learn_all a is) (learn_all b is).
Proof.
  induction is as [|[x|wd d] is IH]; intros a b H; cbn [learn_all]; auto. apply IH, learn_same, H.
Qed.
Lemma learn_all_app a is is' : learn_all a (is ++ is') = learn_all (learn_all a is) is'.
Proof. revert a. induction is as [|[x|wd d] is IH]; intros a; cbn [app learn_all]; auto. Qed.

Lemma marks_same s a b p is a' : same a b -> marks s a p is a' -> exists b', marks s b p is b' /\ same a' b'.
Proof.
  intros H [wd real Hw|].
  - exists (learn b wd real). split; [now constructor|now apply learn_same].
  - exists b. split; [constructor|exact H].
Qed.
Lemma batch_same s l a rs is a' : batch s l a rs is a' -> forall b, same a b -> exists b', batch s l b rs is b' /\ same a' b'.
Proof.
  induction 1 as [|known r rs is known' Hw _ IH|known d r rs is known' Hw Hk _ IH|known d r rs is known' Hw He Ho _ IH|known d d' r n rs is known' Hp Hw Hw' _ IH|known d r rs ms is known1 known' Hw Hk Hd Hm _ IH|known d f r rs is known' Hw He Hn Hp _ IH]; intros b Hb.
  - exists b. split; [constructor|exact Hb].
  - destruct (IH b Hb) as (b' & H1 & H2). exists b'. split; [|exact H2]. apply BPhantom; [now rewrite <- Hb|exact H1].
  - destruct (IH b Hb) as (b' & H1 & H2). exists b'. split; [|exact H2]. eapply BOverflow; [now rewrite <- Hb|exact Hk|exact H1].
  - destruct (IH b Hb) as (b' & H1 & H2). exists b'. split; [|exact H2]. eapply BSilent; [rewrite <- Hb; exact Hw|exact He|exact Ho|exact H1].
  - destruct (IH b Hb) as (b' & H1 & H2). exists b'. split; [|exact H2].
    apply BRename; [exact Hp|now rewrite <- Hb|rewrite <- Hb; exact Hw'|exact H1].
  - destruct (marks_same _ _ _ _ _ _ Hb Hm) as (b1 & Hm1 & Hs1). destruct (IH b1 Hs1) as (b' & H1 & H2).
    exists b'. split; [|exact H2]. eapply BNewDir; [now rewrite <- Hb|exact Hk|exact Hd|exact Hm1|exact H1].
  - destruct (IH b Hb) as (b' & H1 & H2). exists b'. split; [|exact H2].
    apply BOne; [now rewrite <- Hb|exact He|exact Hn|exact Hp|exact H1].
Qed.
Lemma forget_same rs a b : same a b -> same (forget_deleted rs a) (forget_deleted rs b).
Proof. intros H k. unfold forget_deleted. now rewrite H. Qed.
Lemma session_same s l a rss is : session s l a rss is -> forall b, same a b -> session s l b rss is.
Proof.
  induction 1 as [|known rs rss is is' known' Hb _ IH]; intros b Hs; [constructor|].
  destruct (batch_same _ _ _ _ _ _ Hb b Hs) as (b' & H1 & H2). econstructor; [exact H1|]. apply IH, forget_same, H2.
Qed.

Lemma reads_app a b : reads (a ++ b) = reads a ++ reads b.
Proof.
  induction a as [|x a IH]; [reflexivity|]. cbn [app reads]. destruct x; rewrite ?IH; try reflexivity.
  destruct (0 <=? rd_len r)%Z; rewrite ?IH; reflexivity.
Qed.

Definition no_read (x : obs) : Prop := match x with ORead _ _ => False | _ => True end.
Lemma no_read_reads o : Forall no_read o -> reads o = [].
Proof.
  induction 1 as [|x o Hx _ IH]; [reflexivity|]. cbn [reads]. destruct x; auto. destruct Hx.
Qed.

Lemma gave_nil : gave [] [].
Proof. split; [reflexivity|constructor]. Qed.
Lemma gave_app a b x y : gave a x -> gave b y -> gave (a ++ b) (x ++ y).
Proof. intros [H1 H2] [H3 H4]. split; [now rewrite reads_app, map_app, H1, H3|now apply Forall_app]. Qed.

Section Run.
  Variable s : os.
  Variable loose : bool.

  (** *** No read outside the receive *)
  Lemma send_msg_no_read r p tr : Forall no_read (fst (send_msg s r p tr)).
  Proof. repeat constructor. Qed.

  Lemma recs_run_no_read fd : forall rs dm, every (Forall no_read) (recs_run s fd dm rs).
  Proof.
    assert (Happ : forall a b, Forall no_read a -> Forall no_read b -> Forall no_read (a ++ b))
      by (intros; now apply Forall_app).
    assert (Hmark : forall p fd dm, every (Forall no_read) (in_mark s p fd dm)).
    { intros p fd' dm tr. unfold in_mark, bind, realpath, stat_dir, inotify_add_watch, send_msg, new_event, bind, now, callback, ret.
      destruct (os_realpath s tr p); cbn; [destruct (os_is_dir s _ _); cbn; [destruct (0 <? _)%Z|]|]; repeat constructor. }
    intros rs. remember (length rs) as len eqn:El. revert rs El.
    induction len as [len IH] using lt_wf_ind. intros rs El dm. subst len.
    destruct rs as [|r rest]; [apply every_ret; constructor|].
    assert (Hgo : forall dm, every (Forall no_read) (recs_run s fd dm rest)) by (intros; apply (IH (length rest)); auto).
    cbn [recs_run]. destruct (zfind (k_wd r) dm) as [d|].
    2:{ apply every_bind; auto. intros tr. apply send_msg_no_read. }
    destruct (is_overflow (k_kind r)).
    { apply every_bind; auto. intros tr. apply send_msg_no_read. }
    destruct (effect_of (k_kind r)) as [f|]; [|apply Hgo].
    assert (Hev : forall d r f t, every (Forall no_read) (mk_event s d r f t)) by (intros; intros tr; repeat constructor).
    assert (Hpr : forall d a b f t, every (Forall no_read) (show_pair s d a b f t)) by (intros; intros tr; repeat constructor).
    assert (Hcb : forall e, every (Forall no_read) (callback e)) by (intros e tr; repeat constructor).
    assert (Hsingle : every (Forall no_read)
       (ev <- mk_event s d r f (type_of r) ;;
         dm1 <- (if k_dir r && match k_kind r with KCreate => true | _ => false end
                 then p <- in_mark s (ev_path ev) fd dm ;; ret (fst p) else ret dm) ;;
         callback ev ;;; recs_run s fd dm1 rest)).
    { apply every_bind; auto. intros ev. apply every_bind; auto.
      - destruct (k_dir r && _); [|apply every_ret; constructor].
        apply every_bind; auto. intros; apply every_ret; constructor.
      - intros dm1. apply every_bind; auto. }
    destruct rest as [|n rest']; [exact Hsingle|].
    assert (Hgo' : forall dm, every (Forall no_read) (recs_run s fd dm rest'))
      by (intros; apply (IH (length rest')); auto; cbn; lia).
    destruct (pairb r n); [apply every_bind; auto; intros; apply every_bind; auto|].
    destruct (pairb n r); [apply every_bind; auto; intros; apply every_bind; auto|exact Hsingle].
  Qed.

  (** *** One receive of a conforming kernel *)
  Lemma in_recv_session ke tr :
    inotify_kernel loose s ->
    exists o ke' rss, in_recv s ke tr = (o, Ok (r_pending, ke')) /\ kin_fd ke' = kin_fd ke /\
      gave o rss /\
      (rss = [] /\ items o = [] /\ kin_dm ke' = kin_dm ke \/
       exists rs known', rss = [rs] /\ batch s loose (fun k => zfind k (kin_dm ke)) rs (items o) known' /\
         same (fun k => zfind k (kin_dm ke')) (forget_deleted rs known')).
  Proof.
    intros HK. destruct (HK tr (kin_fd ke) in_buf_len) as [[Hl He]|(rs & Hok & Hloc & Hl & Hb)].
    - unfold in_recv, bind, sys_read. rewrite Hl, He. cbn [Z.ltb Z.compare andb negb Z.eqb Pos.eqb].
      do 3 eexists. split; [reflexivity|]. split; [reflexivity|]. split; [|left; repeat split].
      split; [|constructor]. cbn [reads app]. rewrite Hl. reflexivity.
    - pose proof Hok as Hbok. destruct Hok as [Hok Hsz Hord].
      assert (Hsz' : (N.of_nat (length (encode rs)) <= in_buf_len)%N) by (unfold in_buf_len; lia).
      assert (Hrd : read_gives s ke tr rs) by (split; assumption).
      destruct (in_recv_batch s loose ke tr rs Hok Hsz' Hrd Hord Hloc) as (o & ke' & known' & E & Hba & Hk).
      destruct (in_recv_recs s ke tr rs Hok Hsz' Hrd) as (o1 & dm' & E1 & ER).
      rewrite E in ER. injection ER as -> ->.
      eexists _, _, [rs]. split; [exact E|]. split; [reflexivity|]. split.
      + split; [|now constructor]. cbn [reads map]. rewrite Hl. destruct (Z.leb_spec 0 (Z.of_nat (length (encode rs)))); [|lia].
        rewrite no_read_reads, Hb; [reflexivity|].
        pose proof (recs_run_no_read (kin_fd ke) rs (kin_dm ke) (tr ++ [ORead (kin_fd ke) (os_read s tr (kin_fd ke) in_buf_len)])) as Hnr.
        now rewrite E1 in Hnr.
      + right. exists rs, known'. auto.
  Qed.

  (** *** The loop *)
  Definition not_ub {A} (r : out A) : Prop := match r with Ok _ | Fuel => True | _ => False end.

  Section Conforming.
    Hypothesis HK : inotify_kernel loose s.
    Variable il : Z.

    (** Sessions that end in a known state, for sequencing. *)
    Inductive ses : dirs -> list (list krec) -> list item -> dirs -> Prop :=
    | ses_nil a b : same a b -> ses a [] [] b
    | ses_cons a rs rss is is' a' b :
        batch s loose a rs is a' -> ses (forget_deleted rs a') rss is' b -> ses a (rs :: rss) (is ++ is') b.

    Lemma ses_session a rss is b : ses a rss is b -> session s loose a rss is.
    Proof. induction 1; [constructor|econstructor; eauto]. Qed.
    Lemma ses_left a rss is b : ses a rss is b -> forall a', same a a' -> ses a' rss is b.
    Proof.
      induction 1 as [a b H|a rs rss is is' a1 b Hb _ IH]; intros a' Ha.
      - constructor. intros k. rewrite <- Ha. apply H.
      - destruct (batch_same _ _ _ _ _ _ Hb _ Ha) as (b' & H1 & H2). econstructor; [exact H1|]. apply IH, forget_same, H2.
    Qed.
    Lemma ses_app a rss is b : ses a rss is b -> forall rss' is' c, ses b rss' is' c -> ses a (rss ++ rss') (is ++ is') c.
    Proof.
      induction 1 as [a b H|a rs rss is is' a1 b Hb _ IH]; intros rss2 is2 c Hc; cbn [app].
      - eapply ses_left; [exact Hc|]. intros k. symmetry. apply H.
      - rewrite <- app_assoc. econstructor; [exact Hb|]. now apply IH.
    Qed.

    Lemma each_ready_ses : forall fds ok ke tr,
      exists o ok' ke' rss, each_ready kin kin_fd (in_recv s) il fds ok ke tr = (o, Ok (ok', ke')) /\
        gave o rss /\ ses (fun k => zfind k (kin_dm ke)) rss (items o) (fun k => zfind k (kin_dm ke')).
    Proof.
      induction fds as [|fd fds IH]; intros ok ke tr; cbn [each_ready].
      - exists [], ok, ke, []. split; [reflexivity|]. split; [apply gave_nil|]. constructor. intros k. reflexivity.
      - destruct (fd =? il)%Z; [apply IH|]. destruct (fd =? kin_fd ke)%Z; [|apply IH].
        destruct (in_recv_session ke tr HK) as (o1 & ke1 & rss1 & E1 & Hfd & Hr1 & Hs1).
        destruct (IH r_pending ke1 (tr ++ o1)) as (o2 & ok2 & ke2 & rss2 & E2 & Hr2 & Hs2).
        exists (o1 ++ o2), ok2, ke2, (rss1 ++ rss2). split; [now rewrite (bind_ok_eq _ _ _ _ _ _ _ E1 E2)|].
        split; [now apply gave_app|]. rewrite items_app.
        destruct Hs1 as [(-> & Hi & Hd)|(rs & known' & -> & Hb & Hd)].
        + rewrite Hi. cbn [app]. rewrite <- Hd. exact Hs2.
        + apply (ses_cons _ rs rss2 (items o1) (items o2) known'); [exact Hb|].
          eapply ses_left; [exact Hs2|]. exact Hd.
    Qed.

    Lemma ep_loop_ses : forall fuel ep ok ke tr,
      exists o r rss, ep_loop s kin kin_fd (in_recv s) il fuel ep ok ke tr = (o, r) /\ not_ub r /\
        gave o rss /\ session s loose (fun k => zfind k (kin_dm ke)) rss (items o).
    Proof.
      induction fuel as [|n IH]; intros ep ok ke tr; cbn [ep_loop].
      { exists [], Fuel, []. split; [reflexivity|]. split; [exact I|]. split; [apply gave_nil|constructor]. }
      destruct (negb (r_lt ok r_complete)).
      { exists [], (Ok (ok, ke)), []. split; [reflexivity|]. split; [exact I|]. split; [apply gave_nil|constructor]. }
      unfold bind at 1, epoll_wait. set (w := os_epoll_wait s tr ep).
      set (tr1 := tr ++ [OEpollWait ep w]).
      destruct w as [fds|].
      - destruct (each_ready_ses (firstn 64 fds) ok ke tr1) as (o1 & ok1 & ke1 & rss1 & E1 & Hr1 & Hs1).
        destruct (IH ep ok1 ke1 (tr1 ++ o1)) as (o2 & r2 & rss2 & E2 & Hu & Hr2 & Hs2).
        rewrite (bind_ok_eq _ _ _ _ _ _ _ E1 E2).
        eexists _, _, (rss1 ++ rss2). split; [reflexivity|]. split; [exact Hu|].
        cbn [app items]. split; [exact (gave_app _ _ _ _ Hr1 Hr2)|]. rewrite items_app.
        clear -Hs1 Hs2. induction Hs1 as [a b H|a rs rss is is' a1 b Hb _ IHs]; cbn [app].
        + eapply session_same; [exact Hs2|]. intros k. symmetry. apply H.
        + rewrite <- app_assoc. econstructor; [exact Hb|]. now apply IHs.
      - destruct (IH ep r_e_sys_api_epoll ke tr1) as (o2 & r2 & rss2 & E2 & Hu & Hr2 & Hs2).
        rewrite E2. eexists _, _, rss2. split; [reflexivity|]. auto.
    Qed.
  End Conforming.

  (** *** The start *)
  Lemma in_mark_learn p fd dm tr o dm' r :
    in_mark s p fd dm tr = (o, Ok (dm', r)) ->
    same (fun k => zfind k dm') (learn_all (fun k => zfind k dm) (items o)) /\ Forall no_read o.
  Proof.
    unfold in_mark, bind, realpath, stat_dir, inotify_add_watch, send_msg, new_event, bind, now, callback, ret.
    assert (Hs : same (fun k => zfind k dm) (fun k => zfind k dm)) by (intros k; reflexivity).
    destruct (os_realpath s tr p) as [real|]; cbn.
    - destruct (os_is_dir s _ real); cbn.
      + match goal with |- context [(0 <? ?wd)%Z] => destruct (Z.ltb_spec 0 wd) as [Hw|Hw]; set (w := wd) in * end; cbn.
        * intros [= <- <- <-]. cbn. destruct (Z.ltb_spec 0 w); [|lia]. cbn. split; [|repeat constructor].
          intros k. unfold learn. apply zfind_zemplace.
        * intros [= <- <- <-]. cbn. destruct (Z.ltb_spec 0 w); [lia|]. split; [exact Hs|repeat constructor].
      + intros [= <- <- <-]. split; [exact Hs|repeat constructor].
    - intros [= <- <- <-]. split; [exact Hs|repeat constructor].
  Qed.

  Lemma mark_fun_learn p fd dm tr o dm' :
    (q <- in_mark s p fd dm ;; ret (fst q)) tr = (o, Ok dm') ->
    same (fun k => zfind k dm') (learn_all (fun k => zfind k dm) (items o)) /\ Forall no_read o.
  Proof.
    intros E. apply bind_inv in E as [(o1 & [dm1 r1] & o2 & E1 & E2 & ->)|[(u & _ & [=])|[(_ & [=])|(_ & [=])]]].
    cbn in E2. injection E2 as <- <-. rewrite app_nil_r. eapply in_mark_learn, E1.
  Qed.

  Lemma same_trans a b c : same a b -> same b c -> same a c.
  Proof. intros H1 H2 k. now rewrite H1. Qed.

  Lemma walk_learn fd fuel : forall path dm tr o dm',
    walkdir s fuel path (fun dir dm => q <- in_mark s dir fd dm ;; ret (fst q)) dm tr = (o, Ok dm') ->
    same (fun k => zfind k dm') (learn_all (fun k => zfind k dm) (items o)) /\ Forall no_read o.
  Proof.
    induction fuel as [|n IH]; intros path dm tr o dm' E; cbn [walkdir] in E; [discriminate|].
    apply bind_inv in E as [(o1 & d & o2 & E1 & E2 & ->)|[(u & _ & [=])|[(_ & [=])|(_ & [=])]]].
    injection E1 as <- <-. set (tr1 := tr ++ _) in E2.
    destruct (os_opendir s tr path) as [ents|].
    2:{ injection E2 as <- <-. split; [intros k; reflexivity|repeat constructor]. }
    apply bind_inv in E2 as [(o3 & dm1 & o4 & E3 & E4 & ->)|[(u & _ & [=])|[(_ & [=])|(_ & [=])]]].
    apply mark_fun_learn in E3 as [H3 H3'].
    apply bind_inv in E4 as [(o5 & dm2 & o6 & E5 & E6 & ->)|[(u & _ & [=])|[(_ & [=])|(_ & [=])]]].
    cbn in E6. injection E6 as <- <-.
    assert (H5 : same (fun k => zfind k dm2) (learn_all (fun k => zfind k dm1) (items o5)) /\ Forall no_read o5).
    { clear H3 H3'. revert dm1 E5. generalize (tr1 ++ o3). revert o5 dm2.
      induction ents as [|de es IHe]; intros o5 dm2 t dm1 E5.
      - injection E5 as <- <-. split; [intros k; reflexivity|constructor].
      - destruct (negb (de_type de =? 4)%N); [eapply IHe, E5|].
        destruct (text_eqb (de_name de) (lit ".")); [eapply IHe, E5|].
        destruct (text_eqb (de_name de) (lit "..")); [eapply IHe, E5|].
        apply bind_inv in E5 as [(o7 & rp & o8 & E7 & E8 & ->)|[(u & _ & [=])|[(_ & [=])|(_ & [=])]]].
        injection E7 as <- <-.
        match type of E8 with (match ?x with _ => _ end) _ = _ => destruct x as [real|] end.
        + apply bind_inv in E8 as [(o9 & dm3 & o10 & E9 & E10 & ->)|[(u & _ & [=])|[(_ & [=])|(_ & [=])]]].
          apply IH in E9 as [H9 H9']. apply IHe in E10 as [H10 H10'].
          cbn [app items]. rewrite items_app, learn_all_app. split.
          * eapply same_trans; [exact H10|]. apply learn_all_same, H9.
          * constructor; [exact I|]. now apply Forall_app.
        + apply IHe in E8 as [H8 H8']. split; [exact H8|]. constructor; [exact I|exact H8']. }
    destruct H5 as [H5 H5'].
    cbn [app items]. rewrite !items_app, !learn_all_app. cbn [items learn_all]. split.
    - eapply same_trans; [exact H5|]. apply learn_all_same, H3.
    - constructor; [exact I|]. apply Forall_app. split; [exact H3'|]. apply Forall_app. split; [exact H5'|repeat constructor].
  Qed.

  Lemma make_ep_quiet a b tr : exists ep o, make_ep s a b tr = (o, Ok ep) /\ items o = [] /\ Forall no_read o.
  Proof.
    unfold make_ep, bind, epoll_create, epoll_ctl, sys_close, ret. cbn [app].
    repeat match goal with |- context [if ?c then _ else _] => destruct c end;
      do 2 eexists; (split; [reflexivity|split; [reflexivity|repeat constructor]]).
  Qed.

  Lemma in_make_learn fuel path il tr o ok ke ep :
    in_make_sysres s fuel path il tr = (o, Ok (ok, ke, ep)) ->
    same (fun k => zfind k (kin_dm ke)) (learn_all nowhere (items o)) /\ Forall no_read o.
  Proof.
    intros E. unfold in_make_sysres in E. unfold bind at 1, inotify_init in E. cbv zeta in E.
    set (fd := os_inotify_init s tr) in *.
    destruct (fd <? 0)%Z.
    { injection E as <- <- <- <-. split; [intros k; reflexivity|repeat constructor]. }
    unfold bind at 1 in E.
    match type of E with context [walkdir s ?fu ?p ?f ?st ?t] => destruct (walkdir s fu p f st t) as [o2 [dm|u| |]] eqn:Ew end;
      try discriminate.
    apply walk_learn in Ew as [H1 H2].
    destruct dm as [|x dm].
    { injection E as <- <- <- <-. cbn [kin_dm app items]. rewrite app_nil_r. split; [exact H1|constructor; [exact I|exact H2]]. }
    unfold bind at 1 in E.
    match type of E with context [make_ep s ?a ?b ?t] => destruct (make_ep_quiet a b t) as (ep' & o3 & E3 & H3 & H3'); rewrite E3 in E end.
    cbn in E. injection E as <- <- <- <-. cbn [kin_dm]. rewrite app_nil_r. cbn [items].
    rewrite items_app, learn_all_app, H3. split; [exact H1|].
    constructor; [exact I|]. now apply Forall_app.
  Qed.

  (** *** The whole adapter, when inotify is used *)
  Lemma walk_ok fd fuel : forall path dm tr,
    not_ub (snd (walkdir s fuel path (fun dir dm => q <- in_mark s dir fd dm ;; ret (fst q)) dm tr)).
  Proof.
    assert (Hmk : forall p dm tr, exists o dm', (q <- in_mark s p fd dm ;; ret (fst q)) tr = (o, Ok dm')).
    { intros p dm tr. destruct (in_mark_run s p fd dm tr) as (o & dm' & r & E & _).
      exists (o ++ []), dm'. apply (bind_ok_eq _ _ _ _ _ _ _ E). reflexivity. }
    assert (Hb : forall {A B} (m : M A) (k : A -> M B) tr, not_ub (snd (m tr)) ->
       (forall a o, m tr = (o, Ok a) -> not_ub (snd (k a (tr ++ o)))) -> not_ub (snd (bind m k tr))).
    { intros A B m k tr H1 H2. unfold bind. destruct (m tr) as [o [a|u| |]]; cbn in *; auto.
      specialize (H2 a o eq_refl). destruct (k a (tr ++ o)). exact H2. }
    induction fuel as [|n IH]; intros path dm tr; cbn [walkdir]; [exact I|].
    apply Hb; [exact I|]. intros [ents|] o Eo; [|exact I].
    apply Hb. { destruct (Hmk path dm (tr ++ o)) as (o' & dm' & E). rewrite E. exact I. }
    intros st1 o1 _. apply Hb; [|intros; exact I].
    generalize ((tr ++ o) ++ o1). revert st1. clear o Eo o1.
    induction ents as [|de es IHe]; intros st1 t; [exact I|].
    destruct (negb (de_type de =? 4)%N); [apply IHe|].
    destruct (text_eqb (de_name de) (lit ".")); [apply IHe|].
    destruct (text_eqb (de_name de) (lit "..")); [apply IHe|].
    apply Hb; [exact I|]. intros [real|] o _; [|apply IHe].
    apply Hb; [apply IH|]. intros st' o' _. apply IHe.
  Qed.

  (** Observations of the start: no read, and the only messages are about
      directories that could not be marked. *)
  Definition start_obs (x : obs) : Prop :=
    match x with ORead _ _ => False | OCallback e => exists q, shape_of e = warning "w/sys/not_watched@" q | _ => True end.
  Lemma start_no_read o : Forall start_obs o -> Forall no_read o.
  Proof. apply Forall_impl. intros []; cbn; auto. Qed.

  Lemma in_mark_start p fd dm : every (Forall start_obs) (in_mark s p fd dm).
  Proof.
    intros tr. unfold in_mark, bind, realpath, stat_dir, inotify_add_watch, send_msg, new_event, bind, now, callback, ret.
    destruct (os_realpath s tr p); cbn; [destruct (os_is_dir s _ _); cbn; [destruct (0 <? _)%Z|]|]; repeat constructor; eexists; reflexivity.
  Qed.

  Lemma in_make_start fuel path il : every (Forall start_obs) (in_make_sysres s fuel path il).
  Proof.
    assert (Happ : forall a b, Forall start_obs a -> Forall start_obs b -> Forall start_obs (a ++ b))
      by (intros; now apply Forall_app).
    assert (Hret : forall A (x : A), every (Forall start_obs) (ret x)) by (intros; apply every_ret; constructor).
    assert (Hwalk : forall n p fd dm, every (Forall start_obs) (walkdir s n p (fun dir dm => q <- in_mark s dir fd dm ;; ret (fst q)) dm)).
    { induction n as [|n IH]; intros p fd dm; cbn [walkdir]; [intros t; constructor|].
      apply every_bind; auto; [intros t; repeat constructor|]. intros [ents|]; auto.
      apply every_bind; auto; [apply every_bind; auto; apply in_mark_start|]. intros st1.
      apply every_bind; auto; [|intros; apply every_bind; auto; intros t; repeat constructor].
      revert st1. induction ents as [|de es IHe]; intros st1; auto.
      destruct (negb (de_type de =? 4)%N); auto.
      destruct (text_eqb (de_name de) (lit ".")); auto.
      destruct (text_eqb (de_name de) (lit "..")); auto.
      apply every_bind; auto; [intros t; repeat constructor|]. intros [real|]; auto.
      apply every_bind; auto. }
    unfold in_make_sysres. apply every_bind; auto; [intros t; repeat constructor|]. intros fd. cbv zeta.
    destruct (fd <? 0)%Z; auto. apply every_bind; auto.
    intros [|x dm]; auto. apply every_bind; auto.
    intros t. unfold make_ep, bind, epoll_create, epoll_ctl, sys_close, ret. cbn [app].
    repeat match goal with |- context [if ?c then _ else _] => destruct c end; repeat constructor.
  Qed.

  Lemma run_inotify_session fuel path il tr :
    inotify_kernel loose s ->
    exists a b c r rss,
      run_inotify s fuel path il tr = (a ++ b ++ c, r) /\ not_ub r /\
      reads a = [] /\ gave b rss /\ reads c = [] /\
      session s loose (learn_all nowhere (items a)) rss (items b) /\ items c = [] /\ Forall start_obs a /\
      a = fst (in_make_sysres s fuel path il tr).
  Proof.
    intros HK. pose proof (in_make_start fuel path il tr) as Hst. unfold run_inotify, platform_watch. unfold bind at 1.
    destruct (in_make_sysres s fuel path il tr) as [a ra] eqn:Ea. cbn [fst] in Hst.
    assert (Hna : not_ub ra).
    { unfold in_make_sysres in Ea. unfold bind at 1, inotify_init in Ea. cbv zeta in Ea.
      set (fd := os_inotify_init s tr) in *.
      destruct (fd <? 0)%Z; [injection Ea as <- <-; exact I|].
      unfold bind at 1 in Ea.
      match type of Ea with context [walkdir s ?fu ?p ?f ?st ?t] =>
        pose proof (walk_ok fd fu p st t) as Hw; destruct (walkdir s fu p f st t) as [o2 r2] end.
      cbn [snd] in Hw. destruct r2 as [dm|u| |]; try contradiction; [|injection Ea as <- <-; exact I].
      destruct dm as [|x dm]; [injection Ea as <- <-; exact I|].
      unfold bind at 1 in Ea.
      match type of Ea with context [make_ep s ?a ?b ?t] => destruct (make_ep_quiet a b t) as (ep' & o3 & E3 & H3 & H3'); rewrite E3 in Ea end.
      injection Ea as <- <-. exact I. }
    destruct ra as [[[ok ke] ep]|u| |]; try contradiction.
    - apply in_make_learn in Ea as [Hl Hr]. unfold bind at 1.
      destruct (ep_loop_ses HK il fuel ep ok ke (tr ++ a)) as (b & rb & rss & Eb & Hub & Hrb & Hsb).
      rewrite Eb. destruct rb as [[ok' ke']|u| |]; try contradiction.
      + cbn. exists a, b, [OClose (kin_fd ke'); OClose ep], (Ok ok'), rss.
        split; [reflexivity|]. split; [exact I|]. split; [now apply no_read_reads|]. split; [exact Hrb|].
        split; [reflexivity|]. split; [|split; [reflexivity|split; [exact Hst|reflexivity]]]. eapply session_same; [exact Hsb|exact Hl].
      + exists a, b, [], Fuel, rss. rewrite app_nil_r.
        split; [reflexivity|]. split; [exact I|]. split; [now apply no_read_reads|]. split; [exact Hrb|].
        split; [reflexivity|]. split; [|split; [reflexivity|split; [exact Hst|reflexivity]]]. eapply session_same; [exact Hsb|exact Hl].
    - (* still walking *)
      exists a, [], [], Fuel, []. rewrite app_nil_r. split; [reflexivity|]. split; [exact I|].
      split; [apply no_read_reads, start_no_read, Hst|]. split; [apply gave_nil|]. repeat split; try constructor. exact Hst.
  Qed.

  Lemma linux_watch_session fuel path il tr :
    (forall t, os_geteuid s t <> 0%Z) -> inotify_kernel loose s ->
    exists a b c r rss,
      linux_watch s fuel path il tr = (a ++ b ++ c, r) /\ not_ub r /\
      (forall e, In (OCallback e) a -> exists q, shape_of e = warning "w/sys/not_watched@" q) /\ reads a = [] /\ gave b rss /\ reads c = [] /\
      session s loose (learn_all nowhere (items a)) rss (items b) /\
      ((items c = [] /\ r <> Ok false) \/
       exists e, items c = [Shown (shape_of e)] /\ callbacks c = [e] /\ fatal_message path e /\ r = Ok false) /\
      (exists u, a = OGeteuid u :: fst (in_make_sysres s fuel path il (tr ++ [OGeteuid u]))).
  Proof.
    intros Hu HK. pose proof (linux_watch_inv s fuel path il tr) as Hinv.
    unfold linux_watch in *. unfold bind at 1 in Hinv. unfold bind at 1. unfold try_fanotify in *.
    unfold bind at 1, geteuid in Hinv. unfold bind at 1, geteuid.
    destruct (Z.eqb_spec (os_geteuid s tr) 0) as [H0|_]; [now apply Hu in H0|].
    cbn [app ret r_eqb code N.eqb Pos.eqb] in *.
    set (g := OGeteuid (os_geteuid s tr)) in *.
    destruct (run_inotify_session fuel path il (tr ++ [g]) HK) as (a & b & c & r & rss & E & Hub & Ha & Hb & Hc & Hs & Hi & Hst & Ham).
    assert (Hma : forall e, In (OCallback e) (g :: a) -> exists q, shape_of e = warning "w/sys/not_watched@" q).
    { intros e [Hg|Hin]; [discriminate|]. rewrite Forall_forall in Hst. apply (Hst _ Hin). }
    unfold bind at 1 in Hinv. unfold bind at 1. rewrite E in *.
    destruct r as [r|u| |]; try contradiction.
    - destruct (r_ge r r_e) eqn:Er.
      + pose proof (Hinv _ _ eq_refl) as [(Hf & _)|(_ & o1 & e & Ho & _ & Hfat)]; [discriminate|].
        cbn. cbn in Ho.
        match goal with |- context [OCallback ?x] => set (e0 := x) in * end.
        exists (g :: a), b, (c ++ [ONow (ev_time e0); OCallback e0]), (Ok false), rss.
        split; [cbn; now rewrite <- !app_assoc|]. split; [exact I|]. split; [exact Hma|].
        cbn [reads items]. split; [exact Ha|]. split; [exact Hb|]. split; [now rewrite reads_app, Hc|].
        split; [exact Hs|]. split; [|eexists; rewrite Ham; reflexivity]. right. exists e0. split; [now rewrite items_app, Hi|]. split; [|split; [|reflexivity]].
        * rewrite callbacks_app. cbn. assert (Hcc : callbacks c = []).
          { clear -Hi. induction c as [|x c IH]; [reflexivity|]. cbn in *. destruct x; auto; try discriminate.
            destruct (0 <? wd)%Z; [discriminate|auto]. }
          now rewrite Hcc.
        * assert (He : e0 = e); [|now rewrite He].
          assert (Hl : last (g :: (a ++ b ++ c) ++ [ONow (ev_time e0); OCallback e0]) g = OCallback e0).
          { rewrite app_comm_cons. change [ONow (ev_time e0); OCallback e0] with ([ONow (ev_time e0)] ++ [OCallback e0]).
            rewrite app_assoc. apply last_last. }
          unfold e0 in Hl at 1. cbn [ev_time ev_make] in Hl. rewrite Ho in Hl.
          change [ONow (ev_time e); OCallback e] with ([ONow (ev_time e)] ++ [OCallback e]) in Hl.
          rewrite app_assoc, last_last in Hl. injection Hl as Hl. symmetry. exact Hl.
      + cbn. exists (g :: a), b, c, (Ok true), rss. rewrite app_nil_r.
        split; [reflexivity|]. split; [exact I|]. split; [exact Hma|]. cbn [reads items]. split; [exact Ha|]. split; [exact Hb|]. split; [exact Hc|]. split; [exact Hs|]. split; [|eexists; rewrite Ham; reflexivity].
        left. split; [exact Hi|discriminate].
    - exists (g :: a), b, c, Fuel, rss. split; [reflexivity|]. split; [exact I|]. split; [exact Hma|]. cbn [reads items]. split; [exact Ha|]. split; [exact Hb|]. split; [exact Hc|]. split; [exact Hs|]. split; [|eexists; rewrite Ham; reflexivity].
      left. split; [exact Hi|discriminate].
  Qed.
End Run.

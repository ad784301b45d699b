(** Adapter selection (C36) and the stop request (C09). *)
From Verif Require Import Base PathModel EventModel Sys SysFacts LinuxModel InotifyModel
  FanotifyModel LinuxWatch LinuxSpec LinuxFacts LinuxRun LinuxProps.

Section Choice.
  Variable s : os.

  Lemma closed_none (P : obs -> Prop) :
    (forall x, P x -> uses_fanotify x \/ uses_inotify x) -> closed s (none_of P).
  Proof.
    intros HP. unfold none_of. constructor.
    - constructor.
    - intros a b Ha Hb. now apply Forall_app.
    - intros x Hx. constructor; [|constructor]. intros H. apply HP in H. destruct x, H; try contradiction; destruct Hx.
    - intros. constructor; [|constructor]. intros H'. now apply HP in H' as [H'|H'].
    - intros. constructor; [|constructor]. intros H'. now apply HP in H' as [H'|H'].
    - intros e m _ _ _ Hm. apply Forall_app. split; [exact Hm|].
      constructor; [|constructor]. intros H. now apply HP in H as [H|H].
    - intros. constructor; [|constructor]. intros H'. now apply HP in H' as [H'|H'].
    - intros. repeat constructor; intros H'; now apply HP in H' as [H'|H'].
  Qed.

  Lemma none_one (P : obs -> Prop) x : ~ P x -> none_of P [x].
  Proof. intros H. constructor; [exact H|constructor]. Qed.

  Lemma none_walk_loop (P : obs -> Prop) :
    (forall x, P x -> uses_fanotify x \/ uses_inotify x) ->
    (forall p r, none_of P [OOpendir p r]) /\ (forall p, none_of P [OClosedir p]) /\
    (forall ep r, none_of P [OEpollWait ep r]) /\ (forall fd, none_of P [OClose fd]) /\
    (forall a b, every (none_of P) (make_ep s a b)).
  Proof.
    intros HP. repeat split; intros; try (apply none_one; intros H; now apply HP in H as [H|H]).
    intros tr. unfold make_ep, bind, epoll_create, epoll_ctl, sys_close, ret. cbn [app].
    repeat match goal with |- context [if ?c then _ else _] => destruct c end;
      repeat constructor; intros H; now apply HP in H as [H|H].
  Qed.

  Lemma platform_none (P : obs -> Prop) K k_fd (recv : K -> M (result * K)) il fuel make :
    (forall x, P x -> uses_fanotify x \/ uses_inotify x) ->
    (forall ke, every (none_of P) (recv ke)) -> every (none_of P) make ->
    every (none_of P) (platform_watch s K k_fd recv il fuel make).
  Proof.
    intros HP Hr Hm. pose proof (closed_none P HP) as HC. destruct (none_walk_loop P HP) as (H1 & H2 & H3 & H4 & H5).
    unfold platform_watch. apply (ev_bind s _ HC); [exact Hm|]. intros [[ok ke] ep].
    apply (ev_bind s _ HC); [now apply ev_ep_loop|]. intros [ok' ke'].
    apply (ev_bind s _ HC); [intros tr; apply H4|]. intros _.
    apply (ev_bind s _ HC); [intros tr; apply H4|]. intros _. apply (ev_ret s _ HC).
  Qed.

  (** After its own init, a run of an adapter inits nothing. *)
  Lemma run_inotify_init fuel path il tr :
    exists fd rest, fst (run_inotify s fuel path il tr) = OInotifyInit fd :: rest /\
      none_of (fun x => uses_fanotify x \/ uses_inotify x) rest.
  Proof.
    set (P := fun x => uses_fanotify x \/ uses_inotify x).
    assert (HP : forall x, P x -> uses_fanotify x \/ uses_inotify x) by auto.
    pose proof (closed_none P HP) as HC. destruct (none_walk_loop P HP) as (H1 & H2 & H3 & H4 & H5).
    unfold run_inotify, platform_watch, in_make_sysres.
    rewrite bind_assoc. unfold bind at 1, inotify_init.
    set (fd := os_inotify_init s tr).
    match goal with |- context [let (_, _) := ?m ?t in _] => assert (Hm : every (none_of P) m) end.
    { cbv zeta. apply (ev_bind s _ HC).
      - destruct (fd <? 0)%Z; [apply (ev_ret s _ HC)|]. apply (ev_bind s _ HC).
        { apply ev_walkdir; auto. intros p st. apply (ev_bind s _ HC);
            [apply (ev_in_mark s _ HC)|intros; apply (ev_ret s _ HC)]. }
        intros [|x dm]; [apply (ev_ret s _ HC)|].
        apply (ev_bind s _ HC); [apply H5|intros; apply (ev_ret s _ HC)].
      - intros [[ok ke] ep].
        apply (ev_bind s _ HC); [apply ev_ep_loop; auto; intros; apply (ev_in_recv s _ HC)|]. intros [ok' ke'].
        apply (ev_bind s _ HC); [intros t; apply H4|]. intros _.
        apply (ev_bind s _ HC); [intros t; apply H4|]. intros _. apply (ev_ret s _ HC). }
    match goal with |- context [let (_, _) := ?m ?t in _] => specialize (Hm t); destruct (m t) as [o2 r2] end.
    cbn [fst app] in *. eauto.
  Qed.

  Lemma run_fanotify_init fuel path il tr :
    exists fd rest, fst (run_fanotify s fuel path il tr) = OFanInit fd :: rest /\
      none_of (fun x => uses_fanotify x \/ uses_inotify x) rest /\
      (fuel <> 0 -> (fd < 1)%Z -> rest = [OClose (-1); OClose (-1)] /\
        snd (run_fanotify s fuel path il tr) = Ok r_e_sys_api_fanotify) /\
      ((1 <= fd)%Z -> snd (run_fanotify s fuel path il tr) <> Ok r_e_sys_api_fanotify).
  Proof.
    set (P := fun x => uses_fanotify x \/ uses_inotify x).
    assert (HP : forall x, P x -> uses_fanotify x \/ uses_inotify x) by auto.
    pose proof (closed_none P HP) as HC. destruct (none_walk_loop P HP) as (H1 & H2 & H3 & H4 & H5).
    remember (run_fanotify s fuel path il tr) as R eqn:ER.
    unfold run_fanotify, platform_watch, fa_make_sysres in ER.
    rewrite bind_assoc in ER. unfold bind at 1, fanotify_init in ER.
    set (fd := os_fan_init s tr) in *.
    match type of ER with _ = let (_, _) := ?m ?t in _ => assert (Hm : every (none_of P) m) end.
    { cbv zeta. apply (ev_bind s _ HC).
      - destruct (fd <? 1)%Z; [apply (ev_ret s _ HC)|]. apply (ev_bind s _ HC).
        { apply ev_walkdir; auto. intros p st. apply (ev_bind s _ HC);
            [apply (ev_fa_mark s _ HC)|intros; apply (ev_ret s _ HC)]. }
        intros _. apply (ev_bind s _ HC); [apply H5|]. intros ep. destruct (ep <? 1)%Z; [|apply (ev_ret s _ HC)].
        apply (ev_bind s _ HC); [intros t; apply H4|intros; apply (ev_ret s _ HC)].
      - intros [[ok ke] ep].
        apply (ev_bind s _ HC); [apply ev_ep_loop; auto; intros; apply (ev_fa_recv s _ HC)|]. intros [ok' ke'].
        apply (ev_bind s _ HC); [intros t; apply H4|]. intros _.
        apply (ev_bind s _ HC); [intros t; apply H4|]. intros _. apply (ev_ret s _ HC). }
    match type of ER with _ = let (_, _) := ?m ?t in _ =>
      specialize (Hm t); destruct (m t) as [o2 r2] eqn:E2 end.
    subst R. cbn [fst snd app] in *. exists fd, o2. split; [reflexivity|]. split; [exact Hm|].
    cbv zeta in E2. split.
    - intros Hf Hlt. destruct (Z.ltb_spec fd 1); [|lia]. destruct fuel; [contradiction|].
      cbn in E2. injection E2 as <- <-. auto.
    - intros Hge ->. destruct (Z.ltb_spec fd 1); [lia|].
      apply bind_inv in E2 as [(o3 & [[ok ke] ep] & o4 & E3 & E4 & ->)|[(u & _ & [=])|[(_ & [=])|(_ & [=])]]].
      assert (Hok : ok = r_pending \/ ok = r_e_sys_api_epoll).
      { revert E3. match goal with |- ?m ?t = _ -> _ =>
          assert (Hp : post m (fun x => fst (fst x) = r_pending \/ fst (fst x) = r_e_sys_api_epoll)) end.
        { posts; cbn; auto. }
        intros E3. apply (Hp _ _ _ E3). }
      apply bind_inv in E4 as [(o5 & [ok' ke'] & o6 & E5 & E6 & ->)|[(u & _ & [=])|[(_ & [=])|(_ & [=])]]].
      cbn in E6. injection E6 as <- ->.
      apply (ep_loop_inv s kfa kfa_fd (fa_recv s) il) in E5 as (_ & _ & Hres).
      + destruct Hres as [[Hx _]|[[Hx _]|Hx]]; [destruct Hok; congruence|discriminate|].
        cbn in Hx. intuition discriminate.
      + intros ke0. apply fa_recv_result.
      + intros ke0. apply ev_fa_recv, closed_no_wait.
  Qed.

  Lemma final_none r path (P : obs -> Prop) : (forall x, P x -> uses_fanotify x \/ uses_inotify x) ->
    every (none_of P) (if r_ge r r_e then send_msg s r path ;;; ret false else ret true).
  Proof.
    intros HP tr. destruct (r_ge r r_e); cbn; repeat constructor; intros H; now apply HP in H as [H|H].
  Qed.

  Lemma linux_watch_choice fuel path il tr :
    fuel <> 0 ->
    exists uid rest, fst (linux_watch s fuel path il tr) = OGeteuid uid :: rest /\
    (uid <> 0%Z -> exists fd rest', rest = OInotifyInit fd :: rest' /\
       none_of uses_fanotify rest' /\ none_of uses_inotify rest') /\
    (uid = 0%Z -> exists fd rest', rest = OFanInit fd :: rest' /\ none_of uses_fanotify rest' /\
       ((fd < 1)%Z -> exists fd2 rest'', rest' = [OClose (-1); OClose (-1)] ++ OInotifyInit fd2 :: rest'' /\
                        none_of uses_inotify rest'') /\
       ((1 <= fd)%Z -> none_of uses_inotify rest')).
  Proof.
    intros Hfuel. rewrite linux_watch_split. unfold adapters, try_fanotify.
    rewrite bind_assoc, bind_assoc. unfold bind at 1, geteuid. set (uid := os_geteuid s tr).
    match goal with |- context [let (_, _) := ?m ?t in _] => set (k := m); set (tr1 := t) end.
    destruct (k tr1) as [o2 r2] eqn:E2. cbn [fst app]. exists uid, o2. split; [reflexivity|].
    assert (Hw1 : forall o, none_of (fun x => uses_fanotify x \/ uses_inotify x) o -> none_of uses_fanotify o)
      by (intros o; apply Forall_impl; tauto).
    assert (Hw2 : forall o, none_of (fun x => uses_fanotify x \/ uses_inotify x) o -> none_of uses_inotify o)
      by (intros o; apply Forall_impl; tauto).
    set (fin := fun r => if r_ge r r_e then send_msg s r path ;;; ret false else ret true) in *.
    assert (Hfin : forall r, every (none_of (fun x => uses_fanotify x \/ uses_inotify x)) (fin r))
      by (intros r; now apply final_none).
    assert (Hino : forall t, exists fd rest', fst ((r' <- run_inotify s fuel path il ;; fin r') t) = OInotifyInit fd :: rest' /\
       none_of (fun x => uses_fanotify x \/ uses_inotify x) rest').
    { intros t. destruct (run_inotify_init fuel path il t) as (fd & rest & E & Hn).
      unfold bind. destruct (run_inotify s fuel path il t) as [o3 [r3|u| |]]; cbn [fst] in E; subst o3; cbn [fst]; eauto.
      specialize (Hfin r3 (t ++ OInotifyInit fd :: rest)).
      destruct (fin r3 (t ++ OInotifyInit fd :: rest)) as [o4 r4]. cbn [fst app] in *.
      exists fd, (rest ++ o4). split; [reflexivity|]. now apply Forall_app. }
    unfold k in E2. clear k. split; intros Huid.
    - destruct (Z.eqb_spec uid 0); [contradiction|]. rewrite bind_ret in E2.
      cbn [r_eqb code N.eqb Pos.eqb] in E2. destruct (Hino tr1) as (fd & rest' & E & Hn).
      assert (Eo : o2 = OInotifyInit fd :: rest') by (rewrite <- E; change o2 with (fst (o2, r2)); rewrite <- E2; reflexivity).
      exists fd, rest'. auto.
    - rewrite Huid in E2. cbn [Z.eqb] in E2.
      destruct (run_fanotify_init fuel path il tr1) as (fd & rest & E & Hn & Hlow & Hhigh).
      unfold bind at 1 in E2. destruct (run_fanotify s fuel path il tr1) as [o3 r3]. cbn [fst snd] in *. subst o3.
      destruct (Z.ltb_spec fd 1) as [Hfd|Hfd].
      + destruct (Hlow Hfuel Hfd) as [-> ->]. cbn [r_eqb code N.eqb Pos.eqb] in E2.
        match type of E2 with (let (_, _) := ?m ?t in _) = _ => destruct (Hino t) as (fd2 & rest2 & E & Hn2) end.
        match type of E2 with (let (_, _) := ?m ?t in _) = _ => destruct (m t) as [o4 r4] end.
        cbn [fst] in E. subst o4. injection E2 as <- _. cbn [app].
        exists fd, ([OClose (-1); OClose (-1)] ++ OInotifyInit fd2 :: rest2). repeat split.
        * apply Forall_app. split; [repeat constructor; intros []|]. constructor; [intros []|now apply Hw1].
        * intros _. exists fd2, rest2. split; [reflexivity|now apply Hw2].
        * intros. lia.


      + specialize (Hhigh Hfd). destruct r3 as [r3|u| |]; try (injection E2 as <- _; exists fd, rest; repeat split; auto; intros; lia).
        destruct (r_eqb r3 r_e_sys_api_fanotify) eqn:Eq.
        { exfalso. apply Hhigh. destruct r3; try discriminate Eq; reflexivity. }
        rewrite bind_ret in E2. specialize (Hfin r3 (tr1 ++ OFanInit fd :: rest)).
        destruct (fin r3 (tr1 ++ OFanInit fd :: rest)) as [o4 r4]. injection E2 as <- _. cbn [fst] in Hfin.
        exists fd, (rest ++ o4). repeat split; try (intros; lia).
        * apply Forall_app. split; now apply Hw1.
        * intros _. apply Forall_app. split; now apply Hw2.
  Qed.
End Choice.

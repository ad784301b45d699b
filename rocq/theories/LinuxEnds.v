(** What a failed wait does to the Linux adapter (C65). *)
From Verif Require Import Base PathModel EventModel Sys SysFacts LinuxModel InotifyModel FanotifyModel LinuxWatch
  LinuxSpec LinuxFacts LinuxRun LinuxProps LinuxLoop.

Definition failed_wait (x : obs) : Prop := match x with OEpollWait _ None => True | _ => False end.

Lemma failed_dec x : failed_wait x \/ ~ failed_wait x.
Proof. destruct x; cbn; try tauto. match goal with |- context [match ?r with _ => _ end] => destruct r end; tauto. Qed.
Lemma no_failed_wait o1 x o2 : Forall no_wait (o1 ++ x :: o2) -> ~ failed_wait x.
Proof.
  intros H. apply Forall_app in H as [_ H]. inversion H; subst. destruct x; cbn in *; try tauto.
Qed.

Section Loop.
  Variable s : os.
  Variable K : Type.
  Variable k_fd : K -> Z.
  Variable recv : K -> M (result * K).
  Variable il : Z.
  Hypothesis Hr : forall ke, post (recv ke) (fun x => recv_result (fst x) /\ k_fd (snd x) = k_fd ke).
  Hypothesis Hq : forall ke, every (Forall no_wait) (recv ke).

  Lemma ep_loop_failed : forall fuel ep ok ke tr o1 x o2 ok' ke',
    ep_loop s K k_fd recv il fuel ep ok ke tr = (o1 ++ x :: o2, Ok (ok', ke')) -> failed_wait x ->
    ok' = r_e_sys_api_epoll /\ o2 = [] /\ k_fd ke' = k_fd ke.
  Proof.
    induction fuel as [|n IH]; intros ep ok ke tr o1 x o2 ok' ke' E Hx; cbn [ep_loop] in E; [discriminate|].
    destruct (r_lt ok r_complete) eqn:Elt; cbn [negb] in E.
    2:{ unfold ret in E. injection E as E _ _. destruct o1; discriminate. }
    apply bind_inv in E as [(a & r & b & E1 & E2 & E)|[(u & _ & [=])|[(_ & [=])|(_ & [=])]]].
    injection E1 as <- <-. destruct (os_epoll_wait s tr ep) as [fds|] eqn:Ew.
    - apply bind_inv in E2 as [(c & [ok1 ke1] & d & E3 & E4 & ->)|[(u & _ & [=])|[(_ & [=])|(_ & [=])]]].
      apply each_ready_inv in E3 as (H1 & H2 & H3); auto. cbn [app] in E.
      destruct o1 as [|y o1]; cbn [app] in E.
      + injection E as Ex _. subst x. cbn in Hx. destruct Hx.
      + injection E as _ E.
        assert (Hsp : exists o1', o1 = c ++ o1' /\ d = o1' ++ x :: o2).
        { clear -E H2 Hx. revert o1 E. induction c as [|z c IHc]; intros o1 E; [exists o1; auto|].
          inversion H2 as [|? ? Hz H2']; subst. destruct o1 as [|y o1]; cbn [app] in E; injection E as Ey E.
          - subst z; destruct x; cbn in *; tauto.
          - destruct (IHc H2' _ E) as (o1' & -> & ->). subst. now exists o1'. }
        destruct Hsp as (o1' & -> & ->). apply IH in E4 as (-> & -> & Hk); auto. split; [reflexivity|]. split; [reflexivity|congruence].
    - destruct n as [|n]; [discriminate|]. cbn [ep_loop] in E2. change (negb (r_lt r_e_sys_api_epoll r_complete)) with true in E2.
      unfold ret in E2. injection E2 as <- <- <-. cbn [app] in E. destruct o1 as [|y o1]; cbn [app] in E.
      + injection E as _ Eo. auto.
      + injection E as _ E. destruct o1; discriminate.
  Qed.

  (** No wait fails, or it is the last thing before the end. *)
  Lemma platform_failed fuel make tr o r :
    every (Forall no_wait) make ->
    platform_watch s K k_fd recv il fuel make tr = (o, Ok r) ->
    Forall (fun x => ~ failed_wait x) o \/
    r = r_e_sys_api_epoll /\ exists a x c1 c2, o = a ++ [x; OClose c1; OClose c2] /\ failed_wait x /\ Forall (fun x => ~ failed_wait x) a.
  Proof.
    intros Hm E. unfold platform_watch in E.
    apply bind_inv in E as [(o1 & [[ok ke] ep] & o2 & E1 & E2 & ->)|[(u & _ & [=])|[(_ & [=])|(_ & [=])]]].
    specialize (Hm tr). rewrite E1 in Hm. cbn in Hm.
    assert (Hm' : Forall (fun x => ~ failed_wait x) o1).
    { revert Hm. apply Forall_impl. intros x. destruct x; cbn; tauto. }
    apply bind_inv in E2 as [(o3 & [ok' ke'] & o4 & E3 & E4 & ->)|[(u & _ & [=])|[(_ & [=])|(_ & [=])]]].
    unfold bind, sys_close, ret in E4. cbn [app] in E4. injection E4 as <- <-.
    assert (Hdec : Forall (fun x => ~ failed_wait x) o3 \/ exists a x b, o3 = a ++ x :: b /\ failed_wait x /\ Forall (fun x => ~ failed_wait x) a).
    { clear. induction o3 as [|x o3 IH]; [left; constructor|].
      assert (Hd : failed_wait x \/ ~ failed_wait x) by apply failed_dec.
      destruct Hd as [Hd|Hd]; [right; exists [], x, o3; auto|].
      destruct IH as [IH|(a & y & b & -> & Hy & Ha)]; [left; now constructor|]. right. exists (x :: a), y, b. auto. }
    destruct Hdec as [Hn|(a & x & b & -> & Hx & Ha)].
    - left. rewrite !Forall_app. split; [exact Hm'|]. split; [exact Hn|]. repeat constructor; cbn; auto.
    - right. apply ep_loop_failed in E3 as (-> & -> & _); auto. split; [reflexivity|].
      exists (o1 ++ a), x, (k_fd ke'), ep. split; [now rewrite <- !app_assoc|]. split; [exact Hx|]. now apply Forall_app.
  Qed.
End Loop.

Section Whole.
  Variable s : os.
  Lemma in_make_no_wait fuel path il : every (Forall no_wait) (in_make_sysres s fuel path il).
  Proof. apply quiet_in_make. Qed.
  Lemma fa_make_no_wait fuel path il : every (Forall no_wait) (fa_make_sysres s fuel path il).
  Proof. apply quiet_fa_make. Qed.

  Lemma linux_failed fuel path il tr o1 x o2 b :
    linux_watch s fuel path il tr = (o1 ++ x :: o2, Ok b) -> failed_wait x ->
    b = false /\ exists c1 c2 t, o2 = [OClose c1; OClose c2; ONow t; OCallback (Ev (lit "e/sys/api/epoll@" ++ path) EtOther PtWatcher t None)].
  Proof.
    intros E Hx. rewrite linux_watch_split in E.
    apply bind_inv in E as [(p & r & q & E1 & E2 & E)|[(u & _ & [=])|[(_ & [=])|(_ & [=])]]].
    assert (Hp : Forall (fun x => ~ failed_wait x) p \/
      r = r_e_sys_api_epoll /\ exists a x c1 c2, p = a ++ [x; OClose c1; OClose c2] /\ failed_wait x /\ Forall (fun x => ~ failed_wait x) a).
    { unfold adapters in E1.
      apply bind_inv in E1 as [(a & r1 & c & E3 & E4 & ->)|[(u & _ & [=])|[(_ & [=])|(_ & [=])]]].
      unfold try_fanotify in E3.
      apply bind_inv in E3 as [(a1 & u & a2 & E5 & E6 & ->)|[(u & _ & [=])|[(_ & [=])|(_ & [=])]]].
      injection E5 as <- <-.
      assert (Ha : Forall (fun x => ~ failed_wait x) a2 \/
        r1 = r_e_sys_api_epoll /\ exists a x c1 c2, a2 = a ++ [x; OClose c1; OClose c2] /\ failed_wait x /\ Forall (fun x => ~ failed_wait x) a).
      { destruct (_ =? 0)%Z.
        - apply platform_failed in E6; auto using fa_make_no_wait. + intros; apply fa_recv_result. + intros; apply ev_fa_recv, closed_no_wait.
        - injection E6 as <- <-. left. constructor. }
      destruct Ha as [Ha|(-> & a & y & c1 & c2 & -> & Hy & Ha)].
      - destruct (r_eqb r1 r_e_sys_api_fanotify).
        + apply platform_failed in E4; auto using in_make_no_wait; [|intros; apply in_recv_result|intros; apply ev_in_recv, closed_no_wait].
          destruct E4 as [H|(-> & a' & y & c1 & c2 & -> & Hy & H)].
          * left. rewrite !Forall_app. repeat split; auto; repeat constructor; cbn; auto.
          * right. split; [reflexivity|]. exists (([OGeteuid (os_geteuid s tr)] ++ a2) ++ a'), y, c1, c2. split; [now rewrite <- !app_assoc|].
            split; [exact Hy|]. rewrite !Forall_app. repeat split; auto; repeat constructor; cbn; auto.
        + injection E4 as <- <-. rewrite app_nil_r. left. apply Forall_app. split; [|exact Ha]. repeat constructor; cbn; auto.
      - change (r_eqb r_e_sys_api_epoll r_e_sys_api_fanotify) with false in E4. injection E4 as <- <-. rewrite app_nil_r.
        right. split; [reflexivity|]. exists ([OGeteuid (os_geteuid s tr)] ++ a), y, c1, c2. split; [now rewrite <- !app_assoc|].
        split; [exact Hy|]. apply Forall_app. split; [|exact Ha]. repeat constructor; cbn; auto. }
    assert (Hq : Forall (fun x => ~ failed_wait x) q).
    { destruct (r_ge r r_e); [unfold send_msg, new_event, bind, now, callback, ret in E2; cbn [app] in E2|]; injection E2 as <- <-; repeat constructor; cbn; auto. }
    destruct Hp as [Hp|(-> & a & y & c1 & c2 & -> & Hy & Ha)].
    - exfalso. assert (H : Forall (fun x => ~ failed_wait x) (p ++ q)) by now apply Forall_app.
      rewrite <- E in H. apply Forall_app in H as [_ H]. inversion H; subst. contradiction.
    - unfold send_msg, new_event, bind, now, callback, ret in E2. cbn [app] in E2. injection E2 as <- <-. split; [reflexivity|].
      exists c1, c2. eexists. rewrite <- app_assoc in E. cbn [app] in E.
      assert (Hsame : forall l1 l2 (u v : obs) m1 m2, l1 ++ u :: m1 = l2 ++ v :: m2 -> failed_wait u -> failed_wait v ->
        Forall (fun x => ~ failed_wait x) l2 -> Forall (fun x => ~ failed_wait x) m2 -> m1 = m2).
      { clear. induction l1 as [|z l1 IH]; intros l2 u v m1 m2 E Hu Hv H2 Hm.
        - destruct l2 as [|w l2]; cbn [app] in E; [now injection E|]. injection E as <- _. inversion H2; contradiction.
        - destruct l2 as [|w l2]; cbn [app] in E; injection E as <- E.
          + exfalso. subst m2. apply Forall_app in Hm as [_ Hm]. inversion Hm; contradiction.
          + eapply IH; eauto. now inversion H2. }
      eapply Hsame in E; eauto; repeat constructor; cbn; auto.
  Qed.
End Whole.

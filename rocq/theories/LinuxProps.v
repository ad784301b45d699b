(** Messages, marking, results, descriptors of whole runs (C04, C18, C26, C34-C36). *)
From Verif Require Import Base PathModel EventModel Sys SysFacts LinuxModel InotifyModel
  FanotifyModel LinuxWatch LinuxSpec LinuxFacts LinuxRun.

(** ** Messages *)
Lemma fs_event_not_message e : fs_event e -> ~ is_message e.
Proof. intros [p f t n [->| ->]|p q f t n n' [->| ->] _]; discriminate. Qed.

Lemma warn_is_warning r p t : In r [r_w_sys_not_watched; r_w_sys_phantom; r_w_sys_q_overflow] ->
  is_warning (msg_ev r p t).
Proof.
  intros H. unfold is_warning, is_message, starts. cbn [ev_ptype ev_effect ev_assoc ev_path msg_ev].
  repeat split. destruct H as [<-|[<-|[<-|[]]]]; unfold to_str; eexists; reflexivity.
Qed.

Lemma error_is_error r p t : r_ge r r_e = true -> r <> r_e -> is_error (msg_ev r p t).
Proof.
  intros H Hn. unfold is_error, is_message, starts. cbn [ev_ptype ev_effect ev_assoc ev_path msg_ev].
  repeat split. destruct r; try discriminate H; try contradiction; unfold to_str; eexists; reflexivity.
Qed.

Section Runs.
  Variable s : os.

  Lemma closed_only_warnings : closed s only_warnings.
  Proof.
    constructor.
    - intros e [].
    - intros a b Ha Hb e Hin. apply in_app_iff in Hin as [H|H]; auto.
    - intros x Hq e [->|[]]. destruct Hq.
    - intros r p t Hr e [[= <-]|[]] _. now apply warn_is_warning.
    - intros e Hfs _ e' [[= <-]|[]] Hm. now apply fs_event_not_message in Hfs.
    - intros e m Hfs _ _ Hm e' Hin Hmsg. apply in_app_iff in Hin as [Hin|[[= <-]|[]]]; auto.
      now apply fs_event_not_message in Hfs.
    - intros h fd err _ _ e [[=]|[]].
    - intros h fd err l _ e [[=]|[[=]|[[=]|[]]]].
  Qed.
  Lemma other_only_warnings x : other_obs x -> only_warnings [x].
  Proof. intros Hx e [->|[]]. destruct Hx. Qed.

  Lemma adapters_only_warnings fuel path il : every only_warnings (adapters s fuel path il).
  Proof. apply ev_adapters; [apply closed_only_warnings|apply other_only_warnings]. Qed.

  (** ** New directories *)
  Lemma closed_marked : closed s marked_before_announced.
  Proof.
    assert (Hone : forall x, (forall e, x = OCallback e -> ~ is_new_dir e) -> marked_before_announced [x]).
    { intros x Hx o1 e o2 E Hn. destruct o1 as [|y [|z o1]]; cbn in E; injection E as -> E; try discriminate.
      exfalso. eapply Hx; eauto. }
    assert (Happ : forall a b, marked_before_announced a -> marked_before_announced b -> marked_before_announced (a ++ b)).
    { intros a b Ha Hb o1 e o2 E Hn.
      apply app_eq_app in E as (l & [(E1 & E2)|(E1 & E2)]).
      - destruct l as [|x l]; cbn in E2.
        + rewrite app_nil_r in E1. subst o1. destruct (Hb [] e o2 (eq_sym E2) Hn) as (o0 & m & H0 & Hm).
          exists (a ++ o0), m. rewrite <- app_assoc, <- H0, app_nil_r. auto.
        + injection E2 as <- E2. apply (Ha o1 e l E1 Hn).
      - destruct (Hb l e o2 E2 Hn) as (o0 & m & -> & Hm).
        exists (a ++ o0), m. rewrite E1, <- app_assoc. auto. }
    constructor; auto.
    - intros o1 e o2 E. destruct o1; discriminate.
    - intros x Hq. apply Hone. intros e -> _. exact Hq.
    - intros r p t _. apply Hone. intros e [= <-] [He _]. discriminate.
    - intros e _ Hn. apply Hone. intros e' [= <-]. exact Hn.
    - intros e m _ Hn Hatt Hm o1 e' o2 E Hn'.
      destruct o2 as [|y o2 _] using rev_ind.
      + apply app_inj_tail in E as [-> [= <-]]. exists [], o1. auto.
      + rewrite app_comm_cons, app_assoc in E. apply app_inj_tail in E as [-> _].
        apply (Hm o1 e' o2 eq_refl Hn').
    - intros h fd err _ _. apply Hone. discriminate.
    - intros h fd err l _. apply (Happ [_] [_; _]); [apply Hone; discriminate|].
      apply (Happ [_] [_]); apply Hone; discriminate.
  Qed.
  Lemma other_marked x : other_obs x -> marked_before_announced [x].
  Proof.
    intros Hx o1 e o2 E Hn. destruct o1 as [|y [|z o1]]; cbn in E; injection E as -> E; try discriminate.
    destruct Hx.
  Qed.

  Lemma linux_watch_marks fuel path il : every marked_before_announced (linux_watch s fuel path il).
  Proof.
    intros tr. rewrite linux_watch_split.
    apply (every_bind marked_before_announced).
    - apply (c_app _ _ closed_marked).
    - apply ev_adapters; [apply closed_marked|apply other_marked].
    - intros r. destruct (r_ge r r_e); [|apply every_ret, (c_nil _ _ closed_marked)].
      apply every_bind; [apply (c_app _ _ closed_marked)| |intros; apply every_ret, (c_nil _ _ closed_marked)].
      intros tr'. unfold send_msg, new_event, bind, now, ret, callback. cbn [fst snd app].
      intros o1 e o2 E Hn. destruct o1 as [|y o1]; cbn in E; [discriminate|]. injection E as _ E.
      destruct o1 as [|y' o1]; cbn in E; injection E as E1 E2.
      + subst e. destruct Hn as [H _]. discriminate.
      + destruct o1; discriminate.
  Qed.
End Runs.

(** ** Results of the loop *)
Definition no_wait (x : obs) : Prop := match x with OEpollWait _ _ => False | _ => True end.

Section Loop.
  Variable s : os.
  Variable K : Type.
  Variable k_fd : K -> Z.
  Variable recv : K -> M (result * K).
  Variable il : Z.
  Hypothesis Hrecv : forall ke, post (recv ke) (fun x => recv_result (fst x) /\ k_fd (snd x) = k_fd ke).
  Hypothesis Hquiet : forall ke, every (Forall no_wait) (recv ke).

  (** A result produced by a batch. *)
  Definition batch_result (fds : list Z) (r : result) : Prop :=
    recv_result r \/ r = r_e_sys_api_epoll \/ r = r_complete /\ In il fds.

  Lemma each_ready_inv : forall fds ok ke tr o ok' ke',
    each_ready K k_fd recv il fds ok ke tr = (o, Ok (ok', ke')) ->
    k_fd ke' = k_fd ke /\ Forall no_wait o /\ (ok' = ok \/ batch_result fds ok').
  Proof.
    induction fds as [|fd fds IH]; intros ok ke tr o ok' ke' E; cbn [each_ready] in E.
    - injection E as <- <- <-. auto.
    - assert (Hmono : forall r, batch_result fds r -> batch_result (fd :: fds) r).
      { intros r [H|[H|[H1 H2]]]; [now left|now right; left|right; right; split; [exact H1|now right]]. }
      destruct (Z.eqb_spec fd il) as [->|_].
      { apply IH in E as (H1 & H2 & [->|H3]); repeat split; auto.
        right. right. right. split; [reflexivity|now left]. }
      destruct (Z.eqb_spec fd (k_fd ke)) as [->|_].
      + apply bind_inv in E as [(o1 & [r ke1] & o2 & E1 & E2 & ->)|[(u & _ & [=])|[(_ & [=])|(_ & [=])]]].
        apply IH in E2 as (H1 & H2 & H3). destruct (Hrecv ke _ _ _ E1) as [H4 H5]. cbn [fst snd] in *.
        split; [congruence|]. split.
        { apply Forall_app. split; [|exact H2]. specialize (Hquiet ke tr). now rewrite E1 in Hquiet. }
        right. destruct H3 as [->|H3]; [now left|auto].
      + apply IH in E as (H1 & H2 & [->|H3]); repeat split; auto. right. right. now left.
  Qed.

  Lemma ep_loop_inv : forall fuel ep ok ke tr o ok' ke',
    ep_loop s K k_fd recv il fuel ep ok ke tr = (o, Ok (ok', ke')) ->
    k_fd ke' = k_fd ke /\ r_lt ok' r_complete = false /\
    (ok' = ok /\ o = [] \/
     ok' = r_complete /\ stop_seen il o \/
     In ok' [r_e_sys_api_epoll; r_e_sys_api_read; r_e_sys_ret; r_e_sys_lim_kernel_version]).
  Proof.
    induction fuel as [|n IH]; intros ep ok ke tr o ok' ke' E; cbn [ep_loop] in E; [discriminate|].
    destruct (r_lt ok r_complete) eqn:Elt; cbn [negb] in E.
    2:{ injection E as <- <- <-. auto. }
    apply bind_inv in E as [(o1 & r & o2 & E1 & E2 & ->)|[(u & _ & [=])|[(_ & [=])|(_ & [=])]]].
    injection E1 as <- <-.
    set (tr1 := tr ++ [OEpollWait ep (os_epoll_wait s tr ep)]) in *.
    destruct (os_epoll_wait s tr ep) as [fds|] eqn:Ew.
    - apply bind_inv in E2 as [(o3 & [ok1 ke1] & o4 & E3 & E4 & ->)|[(u & _ & [=])|[(_ & [=])|(_ & [=])]]].
      apply each_ready_inv in E3 as (H1 & H2 & H3).
      apply IH in E4 as (H4 & H5 & H6). split; [congruence|]. split; [exact H5|].
      destruct H6 as [[-> ->]|[[-> H6]|H6]].
      + rewrite app_nil_r. right. destruct H3 as [->|[H3|[->|[-> H3]]]].
        * congruence.
        * right. cbn in H3. destruct H3 as [<-|[<-|[<-|[<-|H3]]]]; try discriminate H5. cbn. tauto.
        * right. cbn. tauto.
        * left. split; [reflexivity|]. exists [], ep, fds, o3. repeat split.
          -- clear -H3. rewrite <- (firstn_skipn 64 fds). apply in_or_app. now left.
          -- intros ep' r Hin. rewrite Forall_forall in H2. apply (H2 _ Hin).
      + right. left. split; [reflexivity|]. destruct H6 as (a & ep' & f & b & -> & Hf).
        exists (OEpollWait ep (Some fds) :: o3 ++ a), ep', f, b. split; [|exact Hf].
        cbn [app]. now rewrite <- app_assoc.
      + right. now right.
    - apply IH in E2 as (H4 & H5 & H6). split; [exact H4|]. split; [exact H5|].
      right. destruct H6 as [[-> _]|[[-> H6]|H6]].
      + right. cbn. tauto.
      + left. split; [reflexivity|]. destruct H6 as (a & ep' & f & b & -> & Hf).
        exists (OEpollWait ep None :: a), ep', f, b. split; [reflexivity|exact Hf].
      + now right.
  Qed.
End Loop.

(** The receive functions make no wait. *)
Lemma closed_no_wait s : closed s (Forall no_wait).
Proof.
  constructor; try (intros; repeat constructor; fail).
  - intros a b Ha Hb. now apply Forall_app.
  - intros x Hx. constructor; [|constructor]. destruct x; try exact I; destruct Hx.
  - intros e m _ _ _ Hm. apply Forall_app. split; [exact Hm|repeat constructor].
Qed.

Lemma stop_seen_pre il a b : stop_seen il b -> stop_seen il (a ++ b).
Proof.
  intros (o1 & ep & fds & o2 & -> & H). exists (a ++ o1), ep, fds, o2. now rewrite <- app_assoc.
Qed.
Lemma stop_seen_post il a b : Forall no_wait b -> stop_seen il a -> stop_seen il (a ++ b).
Proof.
  intros Hb (o1 & ep & fds & o2 & -> & H1 & H2). exists o1, ep, fds, (o2 ++ b).
  split; [now rewrite <- app_assoc|]. split; [exact H1|].
  intros ep' r Hin. apply in_app_iff in Hin as [Hin|Hin]; [eapply H2, Hin|].
  rewrite Forall_forall in Hb. apply (Hb _ Hin).
Qed.

Ltac ok_bind E o a :=
  let o2 := fresh o "'" in let E1 := fresh "E" in let E2 := fresh "E" in
  apply bind_inv in E as [(o & a & o2 & E1 & E2 & ->)|[(? & _ & [=])|[(_ & [=])|(_ & [=])]]].

Section Whole.
  Variable s : os.

  Definition loop_error (r : result) : Prop :=
    In r [r_e_sys_api_epoll; r_e_sys_api_read; r_e_sys_ret; r_e_sys_lim_kernel_version].

  Lemma platform_inv K k_fd (recv : K -> M (result * K)) il (Q : result -> Prop) fuel make :
    (forall ke, post (recv ke) (fun x => recv_result (fst x) /\ k_fd (snd x) = k_fd ke)) ->
    (forall ke, every (Forall no_wait) (recv ke)) ->
    post make (fun x => fst (fst x) = r_pending \/ Q (fst (fst x))) ->
    forall tr o r, platform_watch s K k_fd recv il fuel make tr = (o, Ok r) ->
    r_lt r r_complete = false /\ (Q r \/ loop_error r \/ r = r_complete /\ stop_seen il o).
  Proof.
    intros Hr Hq Hm tr o r E. unfold platform_watch in E.
    apply bind_inv in E as [(o1 & [[ok ke] ep] & o2 & E1 & E2 & ->)|[(u & _ & [=])|[(_ & [=])|(_ & [=])]]].
    specialize (Hm _ _ _ E1). cbn [fst] in Hm.
    apply bind_inv in E2 as [(o3 & [ok' ke'] & o4 & E3 & E4 & ->)|[(u & _ & [=])|[(_ & [=])|(_ & [=])]]].
    apply ep_loop_inv in E3 as (_ & Hlt & Hres); auto.
    unfold bind, sys_close, ret in E4. cbn [app] in E4. injection E4 as <- <-.
    split; [exact Hlt|].
    destruct Hres as [[-> _]|[[-> H]|H]].
    - destruct Hm as [->|Hm]; [discriminate Hlt|now left].
    - right. right. split; [reflexivity|]. apply stop_seen_pre, stop_seen_post; [repeat constructor|exact H].
    - right. now left.
  Qed.

  Lemma in_make_post fuel path il :
    post (in_make_sysres s fuel path il)
      (fun x => fst (fst x) = r_pending \/ In (fst (fst x)) [r_e_sys_api_inotify; r_e_self_noent; r_e_sys_api_epoll]).
  Proof.
    unfold in_make_sysres. posts; cbn; try tauto; try (destruct (_ <? 0)%Z; tauto).
  Qed.
  Lemma fa_make_post fuel path il :
    post (fa_make_sysres s fuel path il)
      (fun x => fst (fst x) = r_pending \/ In (fst (fst x)) [r_e_sys_api_fanotify; r_e_sys_api_epoll]).
  Proof.
    unfold fa_make_sysres. posts; cbn; try tauto.
  Qed.

  Lemma run_inotify_inv fuel path il tr o r :
    run_inotify s fuel path il tr = (o, Ok r) ->
    (In r [r_e_sys_api_inotify; r_e_self_noent] \/ loop_error r \/ r = r_complete /\ stop_seen il o).
  Proof.
    intros E. apply platform_inv with (Q := fun r => In r [r_e_sys_api_inotify; r_e_self_noent; r_e_sys_api_epoll]) in E;
      [|intros; apply in_recv_result| |apply in_make_post].
    - destruct E as [_ [H|[H|H]]]; auto. cbn in H. destruct H as [<-|[<-|[<-|[]]]]; unfold loop_error; cbn; tauto.
    - intros ke. apply ev_in_recv, closed_no_wait.
  Qed.
  Lemma run_fanotify_inv fuel path il tr o r :
    run_fanotify s fuel path il tr = (o, Ok r) ->
    (r = r_e_sys_api_fanotify \/ loop_error r \/ r = r_complete /\ stop_seen il o).
  Proof.
    intros E. apply platform_inv with (Q := fun r => In r [r_e_sys_api_fanotify; r_e_sys_api_epoll]) in E;
      [|intros; apply fa_recv_result| |apply fa_make_post].
    - destruct E as [_ [H|[H|H]]]; auto. cbn in H. destruct H as [<-|[<-|[]]]; unfold loop_error; cbn; tauto.
    - intros ke. apply ev_fa_recv, closed_no_wait.
  Qed.

  Lemma adapters_inv fuel path il tr o r :
    adapters s fuel path il tr = (o, Ok r) ->
    (In r [r_e_sys_api_inotify; r_e_self_noent] \/ loop_error r \/ r = r_complete /\ stop_seen il o).
  Proof.
    intros E. unfold adapters in E.
    apply bind_inv in E as [(o1 & r1 & o2 & E1 & E2 & ->)|[(u & _ & [=])|[(_ & [=])|(_ & [=])]]].
    destruct (r_eqb r1 r_e_sys_api_fanotify) eqn:Eq.
    - apply run_inotify_inv in E2 as [H|[H|[H1 H2]]]; auto.
      right. right. split; [exact H1|]. now apply stop_seen_pre.
    - injection E2 as <- <-. rewrite app_nil_r. unfold try_fanotify in E1.
      apply bind_inv in E1 as [(o3 & u & o4 & E3 & E4 & ->)|[(u & _ & [=])|[(_ & [=])|(_ & [=])]]].
      destruct (u =? 0)%Z.
      + apply run_fanotify_inv in E4 as [H|[H|[H1 H2]]]; auto.
        * subst r1. discriminate Eq.
        * right. right. split; [exact H1|]. now apply stop_seen_pre.
      + injection E4 as <- <-. discriminate Eq.
  Qed.

  (** How a run of the adapter ends. *)
  Lemma linux_watch_inv fuel path il tr o b :
    linux_watch s fuel path il tr = (o, Ok b) ->
    (b = true /\ only_warnings o /\ stop_seen il o) \/
    (b = false /\ exists o1 e, o = o1 ++ [ONow (ev_time e); OCallback e] /\ only_warnings o1 /\ fatal_message path e).
  Proof.
    intros E. rewrite linux_watch_split in E.
    apply bind_inv in E as [(o1 & r & o2 & E1 & E2 & ->)|[(u & _ & [=])|[(_ & [=])|(_ & [=])]]].
    pose proof (adapters_only_warnings s fuel path il tr) as Hw. rewrite E1 in Hw. cbn [fst] in Hw.
    apply adapters_inv in E1.
    assert (Herr : In r [r_e_sys_api_inotify; r_e_self_noent; r_e_sys_api_epoll; r_e_sys_api_read; r_e_sys_ret; r_e_sys_lim_kernel_version] ->
      b = false /\ exists o1' e, o1 ++ o2 = o1' ++ [ONow (ev_time e); OCallback e] /\ only_warnings o1' /\ fatal_message path e).
    { intros Hin. assert (Hge : r_ge r r_e = true /\ r <> r_e).
      { cbn in Hin. destruct Hin as [<-|[<-|[<-|[<-|[<-|[<-|[]]]]]]]; split; (reflexivity || discriminate). }
      rewrite (proj1 Hge) in E2.
      unfold send_msg, new_event, bind, now, callback, ret in E2. cbn [app] in E2. injection E2 as <- <-.
      split; [reflexivity|]. exists o1, (msg_ev r path (os_now s (tr ++ o1))). split; [|split; [exact Hw|split]].
      - reflexivity.
      - apply (error_is_error r path); apply Hge.
      - unfold msg_ev. cbn [ev_path]. cbn in Hin. unfold fatal_messages.
        destruct Hin as [<-|[<-|[<-|[<-|[<-|[<-|[]]]]]]]; unfold to_str;
          match goal with |- context [lit ?m ++ _] => exists m end; split; try reflexivity; cbn; tauto. }
    destruct E1 as [H|[H|[-> H]]].
    - right. apply Herr. cbn in *. tauto.
    - right. apply Herr. unfold loop_error in H. cbn in *. tauto.
    - left. cbn in E2. injection E2 as <- <-. rewrite app_nil_r. auto.
  Qed.

  (** While it runs, only warnings. *)
  Lemma linux_watch_running fuel path il tr :
    snd (linux_watch s fuel path il tr) = Fuel -> only_warnings (fst (linux_watch s fuel path il tr)).
  Proof.
    rewrite linux_watch_split. unfold bind.
    pose proof (adapters_only_warnings s fuel path il tr) as Hw.
    destruct (adapters s fuel path il tr) as [o1 [r|u| |]]; cbn [fst snd] in *; try discriminate; auto.
    destruct (r_ge r r_e); cbn; discriminate.
  Qed.
End Whole.

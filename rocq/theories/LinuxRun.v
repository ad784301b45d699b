(** Facts about whole runs of the Linux adapter: walking, marking, looping,
    falling back. *)
From Verif Require Import Base PathModel EventModel Sys SysFacts LinuxModel InotifyModel
  FanotifyModel LinuxWatch LinuxSpec LinuxFacts.

(** ** Results only *)
Definition post {A} (m : M A) (Q : A -> Prop) : Prop := forall tr o a, m tr = (o, Ok a) -> Q a.

Lemma post_ret {A} (a : A) (Q : A -> Prop) : Q a -> post (ret a) Q.
Proof. intros H tr o b [= <- <-]. exact H. Qed.
Lemma post_undef {A} u (Q : A -> Prop) : post (undef u) Q.
Proof. intros tr o b [=]. Qed.
Lemma post_fuel {A} (Q : A -> Prop) : post no_fuel Q.
Proof. intros tr o b [=]. Qed.
Lemma post_bind {A B} (m : M A) (k : A -> M B) (Q : B -> Prop) :
  (forall a, post (k a) Q) -> post (bind m k) Q.
Proof.
  intros H tr o b E. apply bind_inv in E as [(o1 & a & o2 & E1 & E2 & ->)|[(u & _ & [=])|[(_ & [=])|(_ & [=])]]].
  eapply H, E2.
Qed.
Lemma post_bind2 {A B} (m : M A) (k : A -> M B) (Q1 : A -> Prop) (Q : B -> Prop) :
  post m Q1 -> (forall a, Q1 a -> post (k a) Q) -> post (bind m k) Q.
Proof.
  intros Hm H tr o b E. apply bind_inv in E as [(o1 & a & o2 & E1 & E2 & ->)|[(u & _ & [=])|[(_ & [=])|(_ & [=])]]].
  eapply H; [eapply Hm, E1|exact E2].
Qed.

(** What a receive can return: go on, or an error other than the one that
    triggers the fallback. *)
Definition recv_result (r : result) : Prop :=
  In r [r_pending; r_w_sys_bad_fd; r_w_sys_bad_meta; r_w_sys_q_overflow;
        r_e_sys_api_read; r_e_sys_ret; r_e_sys_lim_kernel_version].

Ltac posts :=
  repeat match goal with
  | |- post (ret _) _ => apply post_ret
  | |- post (undef _) _ => apply post_undef
  | |- post no_fuel _ => apply post_fuel
  | |- post (bind _ _) _ => apply post_bind; intros
  | |- post (if ?c then _ else _) _ => destruct c
  | |- post (match ?x with _ => _ end) _ => destruct x
  end.

Section Runs.
  Variable s : os.

  Lemma in_loop_result fuel fd buf tail : forall in_ev c dm rm,
    post (in_loop s fuel fd buf tail in_ev c dm rm) (fun x => recv_result (fst (fst x))).
  Proof.
    induction fuel as [|k IH]; intros; cbn [in_loop]; posts; try apply IH; cbn; tauto.
  Qed.
  Lemma in_recv_result ke :
    post (in_recv s ke) (fun x => recv_result (fst x) /\ kin_fd (snd x) = kin_fd ke).
  Proof.
    unfold in_recv. apply post_bind. intros r.
    destruct ((rd_len r <? 0)%Z && _). { apply post_ret. cbn; tauto. }
    eapply post_bind2; [apply in_loop_result|]. intros [[res dm] rm] H. apply post_ret. split; [exact H|reflexivity].
  Qed.
  Lemma fa_loop_result fuel fd buf : forall mtd len c,
    post (fa_loop s fuel fd buf mtd len c) recv_result.
  Proof.
    induction fuel as [|k IH]; intros; cbn [fa_loop]; posts; try apply IH; cbn; tauto.
  Qed.
  Lemma fa_recv_result ke :
    post (fa_recv s ke) (fun x => recv_result (fst x) /\ kfa_fd (snd x) = kfa_fd ke).
  Proof.
    unfold fa_recv. apply post_bind. intros r.
    destruct ((rd_len r <=? 0)%Z && _). { apply post_ret. cbn; tauto. }
    destruct (rd_len r <? 0)%Z. { apply post_ret. cbn; tauto. }
    eapply post_bind2; [apply fa_loop_result|]. intros res H. apply post_ret. split; [exact H|reflexivity].
  Qed.
End Runs.

(** ** Traversal of everything around the receive functions *)
Definition other_obs (x : obs) : Prop :=
  match x with OCallback _ => False | _ => True end.

Section Around.
  Variable s : os.
  Variable P : trace -> Prop.
  Hypothesis HP : closed s P.

  Let Pnil := c_nil _ _ HP.
  Let Papp := c_app _ _ HP.

  (** Directory streams. *)
  Hypothesis Hopendir : forall p r, P [OOpendir p r].
  Hypothesis Hclosedir : forall p, P [OClosedir p].
  Hypothesis Hwait : forall ep r, P [OEpollWait ep r].

  Lemma ev_walkdir {S} fuel : forall path (f : text -> S -> M S) st,
    (forall p st, every P (f p st)) -> every P (walkdir s fuel path f st).
  Proof.
    induction fuel as [|k IH]; intros path f st Hf; cbn [walkdir]; [apply (ev_fuel s P HP)|].
    apply (ev_bind s P HP); [intros tr; apply Hopendir|]. intros [ents|]; [|apply (ev_ret s P HP)].
    apply (ev_bind s P HP); [apply Hf|]. intros st1.
    apply (ev_bind s P HP).
    - revert st1. induction ents as [|de es IHe]; intros st1; [apply (ev_ret s P HP)|].
      destruct (negb (de_type de =? 4)%N); [apply IHe|].
      destruct (text_eqb (de_name de) (lit ".")); [apply IHe|].
      destruct (text_eqb (de_name de) (lit "..")); [apply IHe|].
      apply (ev_bind s P HP); [intros tr; now apply (c_quiet _ _ HP)|].
      intros [real|]; [|apply IHe].
      apply (ev_bind s P HP); [apply IH, Hf|]. intros st'. apply IHe.
    - intros st2. apply (ev_bind s P HP); [intros tr; apply Hclosedir|intros; apply (ev_ret s P HP)].
  Qed.

  Lemma ev_each_ready K k_fd (recv : K -> M (result * K)) il :
    (forall ke, every P (recv ke)) ->
    forall fds ok ke, every P (each_ready K k_fd recv il fds ok ke).
  Proof.
    intros Hr. induction fds as [|fd fds IH]; intros ok ke; cbn [each_ready]; [apply (ev_ret s P HP)|].
    destruct (fd =? il)%Z; [apply IH|]. destruct (fd =? k_fd ke)%Z; [|apply IH].
    apply (ev_bind s P HP); [apply Hr|]. intros [r ke']. apply IH.
  Qed.

  Lemma ev_ep_loop K k_fd (recv : K -> M (result * K)) il :
    (forall ke, every P (recv ke)) ->
    forall fuel ep ok ke, every P (ep_loop s K k_fd recv il fuel ep ok ke).
  Proof.
    intros Hr. induction fuel as [|n IH]; intros ep ok ke; cbn [ep_loop]; [apply (ev_fuel s P HP)|].
    destruct (negb (r_lt ok r_complete)); [apply (ev_ret s P HP)|].
    apply (ev_bind s P HP); [intros tr; apply Hwait|].
    intros [fds|]; [|apply IH].
    apply (ev_bind s P HP); [now apply ev_each_ready|]. intros [ok' ke']. apply IH.
  Qed.

  (** Properties that single observations other than callbacks cannot break. *)
  Hypothesis Hother : forall x, other_obs x -> P [x].

  Lemma ev_other {A} (f : trace -> obs) (g : trace -> A) :
    (forall tr, other_obs (f tr)) -> every P (fun tr => ([f tr], Ok (g tr))).
  Proof. intros H tr. apply Hother, H. Qed.

  Lemma ev_make_ep a b : every P (make_ep s a b).
  Proof.
    unfold make_ep. apply (ev_bind s P HP); [intros tr; now apply Hother|]. intros fd.
    destruct (fd <? 0)%Z; [apply (ev_ret s P HP)|].
    apply (ev_bind s P HP); [intros tr; now apply Hother|]. intros x.
    destruct (x <? 0)%Z.
    { apply (ev_bind s P HP); [intros tr; now apply Hother|intros; apply (ev_ret s P HP)]. }
    apply (ev_bind s P HP); [intros tr; now apply Hother|]. intros y.
    destruct (y <? 0)%Z; [|apply (ev_ret s P HP)].
    apply (ev_bind s P HP); [intros tr; now apply Hother|intros; apply (ev_ret s P HP)].
  Qed.

  Lemma ev_in_make fuel path il : every P (in_make_sysres s fuel path il).
  Proof.
    unfold in_make_sysres. apply (ev_bind s P HP); [intros tr; now apply Hother|]. intros fd. cbv zeta.
    destruct (fd <? 0)%Z; [apply (ev_ret s P HP)|].
    apply (ev_bind s P HP).
    { apply ev_walkdir. intros p st.
      apply (ev_bind s P HP); [apply (ev_in_mark s P HP)|intros; apply (ev_ret s P HP)]. }
    intros [|x dm]; [apply (ev_ret s P HP)|].
    apply (ev_bind s P HP); [apply ev_make_ep|intros; apply (ev_ret s P HP)].
  Qed.

  Lemma ev_fa_make fuel path il : every P (fa_make_sysres s fuel path il).
  Proof.
    unfold fa_make_sysres. apply (ev_bind s P HP); [intros tr; now apply Hother|]. intros fd. cbv zeta.
    destruct (fd <? 1)%Z; [apply (ev_ret s P HP)|].
    apply (ev_bind s P HP).
    { apply ev_walkdir. intros p st.
      apply (ev_bind s P HP); [apply (ev_fa_mark s P HP)|intros; apply (ev_ret s P HP)]. }
    intros _. apply (ev_bind s P HP); [apply ev_make_ep|]. intros ep.
    destruct (ep <? 1)%Z; [|apply (ev_ret s P HP)].
    apply (ev_bind s P HP); [intros tr; now apply Hother|intros; apply (ev_ret s P HP)].
  Qed.

  Lemma ev_platform K k_fd (recv : K -> M (result * K)) il fuel make :
    (forall ke, every P (recv ke)) -> every P make ->
    every P (platform_watch s K k_fd recv il fuel make).
  Proof.
    intros Hr Hm. unfold platform_watch. apply (ev_bind s P HP); [exact Hm|]. intros [[ok ke] ep].
    apply (ev_bind s P HP); [now apply ev_ep_loop|]. intros [ok' ke'].
    apply (ev_bind s P HP); [intros tr; now apply Hother|]. intros _.
    apply (ev_bind s P HP); [intros tr; now apply Hother|]. intros _. apply (ev_ret s P HP).
  Qed.

  Lemma ev_run_inotify fuel path il : every P (run_inotify s fuel path il).
  Proof. apply ev_platform; [intros; apply (ev_in_recv s P HP)|apply ev_in_make]. Qed.
  Lemma ev_run_fanotify fuel path il : every P (run_fanotify s fuel path il).
  Proof. apply ev_platform; [intros; apply (ev_fa_recv s P HP)|apply ev_fa_make]. Qed.
  Lemma ev_try_fanotify fuel path il : every P (try_fanotify s fuel path il).
  Proof.
    unfold try_fanotify. apply (ev_bind s P HP); [intros tr; now apply Hother|]. intros u.
    destruct (u =? 0)%Z; [apply ev_run_fanotify|apply (ev_ret s P HP)].
  Qed.
End Around.

(** The part of [linux_watch] before its final message. *)
Definition adapters (s : os) (fuel : nat) (path : text) (il : Z) : M result :=
  r <- try_fanotify s fuel path il ;;
  if r_eqb r r_e_sys_api_fanotify then run_inotify s fuel path il else ret r.

Lemma linux_watch_split s fuel path il tr :
  linux_watch s fuel path il tr =
  (r <- adapters s fuel path il ;;
   if r_ge r r_e then send_msg s r path ;;; ret false else ret true) tr.
Proof. unfold linux_watch, adapters. now rewrite bind_assoc. Qed.

Lemma ev_adapters s P : closed s P -> (forall x, other_obs x -> P [x]) ->
  forall fuel path il, every P (adapters s fuel path il).
Proof.
  intros HP Ho fuel path il. unfold adapters. apply (ev_bind s P HP).
  - apply ev_try_fanotify; auto; intros; apply Ho; exact I.
  - intros r. destruct (r_eqb r _); [|apply (ev_ret s P HP)].
    apply ev_run_inotify; auto; intros; apply Ho; exact I.
Qed.

(** Every observation of a run of the Linux adapter is what the system answered at that
    point. *)
From Verif Require Import Base PathModel EventModel Sys SysFacts LinuxModel InotifyModel FanotifyModel LinuxWatch.

Section Answers.
  Variable s : os.
  (** Any property of single observations that all have but perhaps inotify's marks. *)
  Variable X : obs -> Prop.
  Hypothesis HX : forall x, match x with OAddWatch _ _ _ _ => False | _ => True end -> X x.
  Definition answer (tr : trace) (x : obs) : Prop :=
    match x with
    | OFanInit fd => fd = os_fan_init s tr
    | OFanMark fd p m rc => rc = os_fan_mark s tr fd p m
    | OEpollWait ep r => r = os_epoll_wait s tr ep
    | ORead fd r => exists n, r = os_read s tr fd n
    | ORealpath p r => r = os_realpath s tr p
    | OStatDir p b => b = os_is_dir s tr p
    | OOpendir p r => r = os_opendir s tr p
    | OAddWatch fd p m wd => wd = os_add_watch s tr fd p m
    | _ => True
    end.
  Definition agree (tr : trace) (x : obs) : Prop := answer tr x /\ X x.
  Fixpoint answers (tr : trace) (o : trace) : Prop :=
    match o with [] => True | x :: o' => agree tr x /\ answers (tr ++ [x]) o' end.
  Lemma answers_app o : forall tr o', answers tr (o ++ o') <-> answers tr o /\ answers (tr ++ o) o'.
  Proof.
    induction o as [|x o IH]; intros tr o'; cbn [app answers]; [rewrite app_nil_r; tauto|]. rewrite IH, <- app_assoc. cbn [app]. tauto.
  Qed.
  Lemma answers_at tr a x b : answers tr (a ++ x :: b) -> agree (tr ++ a) x.
  Proof. intros H. apply answers_app in H as [_ [H _]]. exact H. Qed.
  Definition val {A} (m : M A) : Prop := forall tr, answers tr (fst (m tr)).
  Lemma val_ret A (x : A) : val (ret x).
  Proof. intros tr. exact Logic.I. Qed.
  Lemma val_undef A u : val (@undef A u).
  Proof. intros tr. exact Logic.I. Qed.
  Lemma val_fuel A : val (@no_fuel A).
  Proof. intros tr. exact Logic.I. Qed.
  Lemma val_bind A B (m : M A) (f : A -> M B) : val m -> (forall a, val (f a)) -> val (bind m f).
  Proof.
    intros Hm Hf tr. specialize (Hm tr). unfold bind. destruct (m tr) as [o [a|u| |]]; cbn [fst] in *; auto.
    specialize (Hf a (tr ++ o)). destruct (f a (tr ++ o)) as [o' r]; cbn [fst] in *. apply answers_app. auto.
  Qed.
  Ltac call := let t := fresh "tr" in intro t; cbv beta delta [epoll_wait sys_read realpath stat_dir opendir closedir inotify_add_watch sys_close epoll_create epoll_ctl fanotify_init fanotify_mark inotify_init open_by_handle readlink geteuid callback now] iota zeta; cbn [fst answers]; unfold agree; cbn [answer]; repeat split; eauto; apply HX; exact Logic.I.
  Lemma val_word k b o : val (word_at k b o).
  Proof. unfold word_at. cbv zeta. destruct (Nat.eqb _ _); [apply val_ret|apply val_undef]. Qed.
  Lemma val_byte b o : val (byte_at b o).
  Proof. unfold byte_at. destruct (nth_error _ _); [apply val_ret|apply val_undef]. Qed.
  Lemma val_cstr b o : val (c_string b o).
  Proof. unfold c_string. destruct (c_string_in _); [apply val_ret|apply val_undef]. Qed.
  Ltac vals :=
    repeat first
      [ apply val_ret | apply val_undef | apply val_fuel | apply val_word | apply val_byte | apply val_cstr | assumption
      | (apply val_bind; [|intros ?]) 
      | match goal with |- val (match ?x with _ => _ end) => destruct x end
      | match goal with |- val (let _ := _ in _) => cbv zeta end ];
    try (call; fail).
  Lemma val_event p f t : val (new_event s p f t).
  Proof. unfold new_event, now. vals. Qed.
  Lemma val_pair a b : val (new_pair s a b).
  Proof. unfold new_pair, now. vals. Qed.
  Lemma val_msg r p : val (send_msg s r p).
  Proof. unfold send_msg, callback. apply val_bind; [apply val_event|]. intros ev. call. Qed.
  Lemma val_ep a b : val (make_ep s a b).
  Proof. unfold make_ep, epoll_create, epoll_ctl, sys_close. vals. Qed.
  Lemma val_walk S (f : text -> S -> M S) : (forall p st, val (f p st)) -> forall fuel path st, val (walkdir s fuel path f st).
  Proof.
    intros Hf. induction fuel as [|n IH]; intros path st; cbn [walkdir]; [apply val_fuel|].
    apply val_bind; [call|]. intros [ents|]; [|apply val_ret].
    apply val_bind; [apply Hf|]. intros st1. apply val_bind; [|intros st2; apply val_bind; [call|intros; apply val_ret]].
    revert st1. induction ents as [|de es IHe]; intros st1; [apply val_ret|].
    destruct (negb (de_type de =? 4)%N); [apply IHe|]. destruct (text_eqb (de_name de) (lit ".")); [apply IHe|]. destruct (text_eqb (de_name de) (lit "..")); [apply IHe|].
    apply val_bind; [call|]. intros [real|]; [|apply IHe]. apply val_bind; [apply IH|]. intros st2. apply IHe.
  Qed.
  (** *** fanotify *)
  Lemma val_fa_mark p fd : val (fa_mark s p fd).
  Proof.
    unfold fa_mark. apply val_bind; [call|]. intros [real|]; [|apply val_bind; [apply val_msg|intros; apply val_ret]].
    apply val_bind; [call|]. intros d. apply val_bind; [destruct d; [call|apply val_ret]|]. intros rc. destruct (rc =? 0)%Z; [apply val_ret|].
    apply val_bind; [apply val_msg|intros; apply val_ret].
  Qed.
  Lemma val_fa_make fuel p il : val (fa_make_sysres s fuel p il).
  Proof.
    unfold fa_make_sysres. apply val_bind; [call|]. intros fd. cbv zeta. destruct (fd <? 1)%Z; [apply val_ret|].
    apply val_bind; [apply val_walk; intros; apply val_bind; [apply val_fa_mark|intros; apply val_ret]|]. intros _.
    apply val_bind; [apply val_ep|]. intros ep. destruct (ep <? 1)%Z; [|apply val_ret]. apply val_bind; [call|]. intros; apply val_ret.
  Qed.
  Lemma val_pathof b m : val (fa_pathof s b m).
  Proof. unfold fa_pathof, fa_handle, fa_handle_bytes, open_by_handle, readlink, sys_close. cbv zeta. vals. Qed.
  Lemma val_fa_ok b m l : val (fan_event_ok b m l).
  Proof. unfold fan_event_ok, fa_event_len. vals. Qed.
  Lemma val_fa_peek b m l : val (fa_peek b m l).
  Proof. unfold fa_peek, fa_event_len. apply val_bind; [apply val_word|]. intros el. apply val_bind; [apply val_fa_ok|]. intros; apply val_ret. Qed.
  Lemma val_fa_parse b m l ec : val (fa_parse s b m l ec).
  Proof.
    unfold fa_parse. apply val_bind; [apply val_fa_peek|]. intros n. apply val_bind; [apply val_word|]. intros mask. cbv zeta.
    repeat first
      [ apply val_ret | apply val_word | apply val_pathof | apply val_fa_peek | apply val_event | apply val_pair
      | (apply val_bind; [|intros ?])
      | match goal with |- val (match ?x with _ => _ end) => destruct x end ].
  Qed.
  Lemma val_fa_loop : forall fuel fd b m l c, val (fa_loop s fuel fd b m l c).
  Proof.
    induction fuel as [|n IH]; intros fd b m l c; cbn [fa_loop]; [apply val_fuel|].
    repeat first
      [ apply val_ret | apply val_word | apply val_byte | apply val_fa_ok | apply val_fa_parse | apply IH | apply val_fa_mark
      | progress unfold fa_vers, fa_evfd, fa_mask, fa_info_type, fa_mark_if_newdir
      | (apply val_bind; [|intros ?])
      | match goal with |- val (match ?x with _ => _ end) => destruct x end ].
    call.
  Qed.
  Lemma val_fa_recv ke : val (fa_recv s ke).
  Proof.
    unfold fa_recv. apply val_bind; [call|]. intros r. cbv zeta. destruct (_ && _); [apply val_ret|]. destruct (_ <? _)%Z; [apply val_ret|].
    apply val_bind; [apply val_fa_loop|]. intros; apply val_ret.
  Qed.
  (** *** The watcher *)
  Lemma val_platform K (k_fd : K -> Z) recv il make : val make -> (forall ke, val (recv ke)) -> forall fuel, val (platform_watch s K k_fd recv il fuel make).
  Proof.
    intros Hm Hr fuel. unfold platform_watch. apply val_bind; [exact Hm|]. intros [[ok ke] ep].
    assert (He : forall fds ok ke, val (each_ready K k_fd recv il fds ok ke)).
    { induction fds as [|fd fds IH]; intros ok' ke'; cbn [each_ready]; [apply val_ret|]. destruct (fd =? il)%Z; [apply IH|]. destruct (fd =? k_fd ke')%Z; [|apply IH].
      apply val_bind; [apply Hr|]. intros [r k]. apply IH. }
    assert (Hl : forall n ok ke, val (ep_loop s K k_fd recv il n ep ok ke)).
    { induction n as [|n IH]; intros ok' ke'; cbn [ep_loop]; [apply val_fuel|]. destruct (negb _); [apply val_ret|]. apply val_bind; [call|]. intros [fds|]; [|apply IH].
      apply val_bind; [apply He|]. intros [o k]. apply IH. }
    apply val_bind; [apply Hl|]. intros [ok' ke']. apply val_bind; [call|]. intros _. apply val_bind; [call|]. intros; apply val_ret.
  Qed.
  Lemma fanotify_answers fuel path il : val (run_fanotify s fuel path il).
  Proof. unfold run_fanotify. apply val_platform; [apply val_fa_make|apply val_fa_recv]. Qed.
  Hypothesis HA : forall fd p m wd, X (OAddWatch fd p m wd).
  (** *** inotify *)
  Lemma val_in_mark p fd dm : val (in_mark s p fd dm).
  Proof.
    unfold in_mark. apply val_bind; [call|]. intros [real|]; [|apply val_bind; [apply val_msg|intros; apply val_ret]].
    apply val_bind; [call|]. intros d. apply val_bind. { destruct d; [|apply val_ret]. intro tr. cbv beta delta [inotify_add_watch] iota zeta. cbn [fst answers]. unfold agree. cbn [answer]. auto. } intros wd. destruct (0 <? wd)%Z; [apply val_ret|].
    apply val_bind; [apply val_msg|intros; apply val_ret].
  Qed.
  Lemma val_in_make fuel p il : val (in_make_sysres s fuel p il).
  Proof.
    unfold in_make_sysres. apply val_bind; [call|]. intros fd. cbv zeta. destruct (fd <? 0)%Z; [apply val_ret|].
    apply val_bind; [apply val_walk; intros; apply val_bind; [apply val_in_mark|intros; apply val_ret]|]. intros [|x dm]; [apply val_ret|].
    apply val_bind; [apply val_ep|]. intros; apply val_ret.
  Qed.
  Lemma val_in_parse d b o l : val (in_parse s d b o l).
  Proof.
    unfold in_parse, in_mask, in_peek, in_len, in_name, in_cookie. cbv zeta.
    repeat first
      [ apply val_ret | apply val_word | apply val_cstr | apply val_event | apply val_pair
      | (apply val_bind; [|intros ?])
      | match goal with |- val (match ?x with _ => _ end) => destruct x end ].
  Qed.
  Lemma val_in_loop : forall fuel fd b l m c dm rm, val (in_loop s fuel fd b l m c dm rm).
  Proof.
    induction fuel as [|n IH]; intros fd b l m c dm rm; cbn [in_loop]; [apply val_fuel|].
    repeat first
      [ apply val_ret | apply val_word | apply val_in_parse | apply IH | apply val_in_mark | apply val_msg
      | progress unfold in_peek, in_mask, in_wd, in_len
      | progress cbv zeta
      | (apply val_bind; [|intros ?])
      | match goal with |- val (match ?x with _ => _ end) => destruct x end ].
    all: call.
  Qed.
  Lemma val_in_recv ke : val (in_recv s ke).
  Proof.
    unfold in_recv. apply val_bind; [call|]. intros r. cbv zeta. destruct (_ && _); [apply val_ret|].
    apply val_bind; [apply val_in_loop|]. intros [[? ?] ?]; apply val_ret.
  Qed.
  Lemma watch_answers fuel path il : val (linux_watch s fuel path il).
  Proof.
    unfold linux_watch, try_fanotify, run_fanotify, run_inotify. apply val_bind.
    - apply val_bind; [call|]. intros u. destruct (u =? 0)%Z; [|apply val_ret]. apply val_platform; [apply val_fa_make|apply val_fa_recv].
    - intros r. apply val_bind.
      + destruct (r_eqb r _); [|apply val_ret]. apply val_platform; [apply val_in_make|apply val_in_recv].
      + intros r'. destruct (r_ge r' r_e); [|apply val_ret]. apply val_bind; [apply val_msg|]. intros; apply val_ret.
  Qed.
End Answers.

(** The inotify adapter does the same on a system and [behind] it. *)
From Verif Require Import Base PathModel EventModel Sys SysFacts LinuxModel InotifyModel FanotifyModel LinuxWatch AndroidModel AndroidSpec.

Section Sim.
  Variables (n : nat) (s : os) (u f : Z).
  Notation s' := (behind n s u f).
  Definition sim {A} (m m' : M A) : Prop := forall pre tr, length pre = n -> m' (pre ++ tr) = m tr.
  Lemma skip_pre (pre tr : trace) : length pre = n -> skipn n (pre ++ tr) = tr.
  Proof. intros <-. rewrite skipn_app, skipn_all, Nat.sub_diag. reflexivity. Qed.
  Lemma sim_ret A (x : A) : sim (ret x) (ret x). Proof. intros pre tr _. reflexivity. Qed.
  Lemma sim_undef A x : sim (@undef A x) (undef x). Proof. intros pre tr _. reflexivity. Qed.
  Lemma sim_fuel A : sim (@no_fuel A) no_fuel. Proof. intros pre tr _. reflexivity. Qed.
  Lemma sim_bind A B (m m' : M A) (k k' : A -> M B) : sim m m' -> (forall a, sim (k a) (k' a)) -> sim (bind m k) (bind m' k').
  Proof.
    intros Hm Hk pre tr L. unfold bind. rewrite (Hm pre tr L). destruct (m tr) as [o [a|x| |]]; try reflexivity.
    rewrite <- app_assoc, (Hk a pre (tr ++ o) L). reflexivity.
  Qed.
  Ltac call := let p := fresh "pre" in let t := fresh "tr" in let L := fresh "L" in intros p t L;
    cbv beta delta [epoll_wait sys_read realpath stat_dir opendir closedir inotify_add_watch sys_close epoll_create epoll_ctl inotify_init callback now] iota zeta;
    cbn [os_now os_realpath os_is_dir os_opendir os_inotify_init os_add_watch os_epoll_create os_epoll_ctl os_epoll_wait os_read behind]; rewrite ?(skip_pre p t L); reflexivity.
  Lemma sim_word k b o : sim (word_at k b o) (word_at k b o).
  Proof. unfold word_at. cbv zeta. destruct (Nat.eqb _ _); [apply sim_ret|apply sim_undef]. Qed.
  Lemma sim_cstr b o : sim (c_string b o) (c_string b o).
  Proof. unfold c_string. destruct (c_string_in _); [apply sim_ret|apply sim_undef]. Qed.
  Lemma sim_event p e t : sim (new_event s p e t) (new_event s' p e t).
  Proof. unfold new_event. apply sim_bind; [call|]. intros; apply sim_ret. Qed.
  Lemma sim_pair a b : sim (new_pair s a b) (new_pair s' a b).
  Proof. unfold new_pair. repeat (apply sim_bind; [call|intros ?]). apply sim_ret. Qed.
  Lemma sim_msg r p : sim (send_msg s r p) (send_msg s' r p).
  Proof. unfold send_msg. apply sim_bind; [apply sim_event|]. intros ev. call. Qed.
  Lemma sim_ep a b : sim (make_ep s a b) (make_ep s' a b).
  Proof.
    unfold make_ep. apply sim_bind; [call|]. intros fd. destruct (fd <? 0)%Z; [apply sim_ret|]. apply sim_bind; [call|]. intros x. destruct (x <? 0)%Z; [apply sim_bind; [call|intros; apply sim_ret]|].
    apply sim_bind; [call|]. intros y. destruct (y <? 0)%Z; [apply sim_bind; [call|intros; apply sim_ret]|apply sim_ret].
  Qed.
  Lemma sim_walk S (g g' : text -> S -> M S) : (forall p st, sim (g p st) (g' p st)) -> forall fuel path st, sim (walkdir s fuel path g st) (walkdir s' fuel path g' st).
  Proof.
    intros Hf. induction fuel as [|k IH]; intros path st; cbn [walkdir]; [apply sim_fuel|].
    apply sim_bind; [call|]. intros [ents|]; [|apply sim_ret].
    apply sim_bind; [apply Hf|]. intros st1. apply sim_bind; [|intros st2; apply sim_bind; [call|intros; apply sim_ret]].
    revert st1. induction ents as [|de es IHe]; intros st1; [apply sim_ret|].
    destruct (negb (de_type de =? 4)%N); [apply IHe|]. destruct (text_eqb (de_name de) (lit ".")); [apply IHe|]. destruct (text_eqb (de_name de) (lit "..")); [apply IHe|].
    apply sim_bind; [call|]. intros [real|]; [|apply IHe]. apply sim_bind; [apply IH|]. intros st2. apply IHe.
  Qed.
  Lemma sim_in_mark p fd dm : sim (in_mark s p fd dm) (in_mark s' p fd dm).
  Proof.
    unfold in_mark. apply sim_bind; [call|]. intros [real|]; [|apply sim_bind; [apply sim_msg|intros; apply sim_ret]].
    apply sim_bind; [call|]. intros d. apply sim_bind; [destruct d; [call|apply sim_ret]|]. intros wd. destruct (0 <? wd)%Z; [apply sim_ret|].
    apply sim_bind; [apply sim_msg|intros; apply sim_ret].
  Qed.
  Lemma sim_in_make fuel p il : sim (in_make_sysres s fuel p il) (in_make_sysres s' fuel p il).
  Proof.
    unfold in_make_sysres. apply sim_bind; [call|]. intros fd. cbv zeta. destruct (fd <? 0)%Z; [apply sim_ret|].
    apply sim_bind; [apply sim_walk; intros; apply sim_bind; [apply sim_in_mark|intros; apply sim_ret]|]. intros [|x dm]; [apply sim_ret|].
    apply sim_bind; [apply sim_ep|]. intros; apply sim_ret.
  Qed.
  Lemma sim_in_parse d b o l : sim (in_parse s d b o l) (in_parse s' d b o l).
  Proof.
    unfold in_parse, in_mask, in_peek, in_len, in_name, in_cookie. cbv zeta.
    repeat first
      [ apply sim_ret | apply sim_word | apply sim_cstr | apply sim_event | apply sim_pair
      | (apply sim_bind; [|intros ?])
      | match goal with |- sim (match ?x with _ => _ end) _ => destruct x end ].
  Qed.
  Lemma sim_in_loop : forall fuel fd b l m c dm rm, sim (in_loop s fuel fd b l m c dm rm) (in_loop s' fuel fd b l m c dm rm).
  Proof.
    induction fuel as [|k IH]; intros fd b l m c dm rm; cbn [in_loop]; [apply sim_fuel|].
    repeat first
      [ apply sim_ret | apply sim_word | apply sim_in_parse | apply IH | apply sim_in_mark | apply sim_msg
      | progress unfold in_peek, in_mask, in_wd, in_len
      | progress cbv zeta
      | (apply sim_bind; [|intros ?])
      | match goal with |- sim (match ?x with _ => _ end) _ => destruct x end ].
    all: call.
  Qed.
  Lemma sim_in_recv ke : sim (in_recv s ke) (in_recv s' ke).
  Proof.
    unfold in_recv. apply sim_bind; [call|]. intros r. cbv zeta. destruct (_ && _); [apply sim_ret|].
    apply sim_bind; [apply sim_in_loop|]. intros [[? ?] ?]; apply sim_ret.
  Qed.
  Lemma sim_run fuel path il : sim (run_inotify s fuel path il) (run_inotify s' fuel path il).
  Proof.
    unfold run_inotify, platform_watch. apply sim_bind; [apply sim_in_make|]. intros [[ok ke] ep].
    assert (He : forall fds ok ke, sim (each_ready kin kin_fd (in_recv s) il fds ok ke) (each_ready kin kin_fd (in_recv s') il fds ok ke)).
    { induction fds as [|fd fds IH]; intros ok' ke'; cbn [each_ready]; [apply sim_ret|]. destruct (fd =? il)%Z; [apply IH|]. destruct (fd =? kin_fd ke')%Z; [|apply IH].
      apply sim_bind; [apply sim_in_recv|]. intros [r k]. apply IH. }
    assert (Hl : forall m ok ke, sim (ep_loop s kin kin_fd (in_recv s) il m ep ok ke) (ep_loop s' kin kin_fd (in_recv s') il m ep ok ke)).
    { induction m as [|m IH]; intros ok' ke'; cbn [ep_loop]; [apply sim_fuel|]. destruct (negb _); [apply sim_ret|]. apply sim_bind; [call|]. intros [fds|]; [|apply IH].
      apply sim_bind; [apply He|]. intros [o k]. apply IH. }
    apply sim_bind; [apply Hl|]. intros [ok' ke']. apply sim_bind; [call|]. intros _. apply sim_bind; [call|]. intros; apply sim_ret.
  Qed.
  Lemma sim_android fuel path il : sim (android_watch s fuel path il) (android_watch s' fuel path il).
  Proof.
    unfold android_watch. cbv zeta. apply sim_bind; [destruct (r_eqb _ _); [apply sim_run|apply sim_ret]|]. intros r. destruct (r_ge r r_e); [|apply sim_ret].
    apply sim_bind; [apply sim_msg|]. intros; apply sim_ret.
  Qed.
End Sim.

(** Lemmas for C141: every call of the Linux adapter is on a descriptor it holds. *)
From Verif Require Import Base PathModel EventModel Sys SysFacts LinuxModel InotifyModel
  FanotifyModel LinuxWatch LinuxSpec LinuxFacts LinuxRun LinuxProps LinuxFds OwnSpec.

(** The calls of [o] are on descriptors of [F], or on such as were opened in [o] and not
    closed since. *)
Definition tidy (F : list Z) (o : trace) : Prop :=
  no_bad_close o /\ forall o1 x o2 fd, o = o1 ++ x :: o2 -> In fd (uses x) -> In fd F \/ (0 < open_count fd o1)%Z.

Lemma tidy_nil F : tidy F [].
Proof. split; [apply nb_nil|]. intros [|? ?] x o2 fd E; discriminate E. Qed.
(** [a], then [b] that may use what [a] left open. *)
Lemma tidy_hold F G a b : tidy F a -> no_bad_close (a ++ b) -> (forall o1 x o2 fd, b = o1 ++ x :: o2 -> (0 <= open_count fd o1)%Z /\ (In fd (uses x) -> In fd G \/ (0 < open_count fd o1)%Z)) ->
  (forall g, In g G -> In g F \/ (0 < open_count g a)%Z) -> tidy F (a ++ b).
Proof.
  intros [Na Ha] N Hb Hg. split; [exact N|]. intros o1 x o2 fd E U. apply app_eq_app in E as (l & [(E1 & E2)|(E1 & E2)]).
  - destruct l as [|y l]; [|injection E2 as <- E2; subst a; eapply Ha; [reflexivity|exact U]].
    rewrite app_nil_r in E1. subst o1. cbn in E2. destruct (Hb [] x o2 fd (eq_sym E2)) as [_ H]. destruct (H U) as [H'|H']; [now apply Hg|cbn in H'; lia].
  - subst o1. destruct (Hb l x o2 fd E2) as [P H]. rewrite count_app. pose proof (count_prefix _ Na fd). destruct (H U) as [H'|H']; [|right; lia].
    destruct (Hg _ H') as [?|?]; [now left|right; lia].
Qed.
Lemma tidy_then F G a b : tidy F a -> tidy G b -> (forall g, In g G -> In g F \/ (0 < open_count g a)%Z) -> tidy F (a ++ b).
Proof.
  intros Ha [Nb Hb] Hg. apply (tidy_hold F G); [exact Ha|apply nb_app; [apply Ha|exact Nb]| |exact Hg].
  intros o1 x o2 fd E. split; [apply (Nb fd o1 (x :: o2) E)|]. intros U. eapply Hb; [exact E|exact U].
Qed.
Lemma tidy_app F a b : tidy F a -> tidy F b -> tidy F (a ++ b).
Proof. intros Ha Hb. apply (tidy_then F F); auto. Qed.
Lemma tidy_one F x : fd_closed x = None -> (forall fd, In fd (uses x) -> In fd F) -> tidy F [x].
Proof.
  intros H1 H2. split; [now apply nb_one|]. intros [|y o1] z o2 fd E U; [injection E as <- _; auto|]. injection E as _ E. destruct o1; discriminate E.
Qed.
(** Closing what is open. *)
Lemma tidy_close F a f : tidy F a -> (forall x, own x f <= open_count x a)%Z -> tidy F (a ++ [OClose f]).
Proof.
  intros H K. split; [apply nb_closing; [apply H|exact K]|]. intros o1 x o2 fd E U. apply app_eq_app in E as (l & [(E1 & E2)|(E1 & E2)]).
  - destruct l as [|y l]; [|injection E2 as <- E2; subst a; eapply (proj2 H); [reflexivity|exact U]].
    rewrite app_nil_r in E1. subst o1. injection E2 as E2 _. subst x. right. specialize (K fd). unfold own, hits in K. cbn [uses] in U. destruct (0 <=? f)%Z; [|destruct U].
    destruct U as [->|[]]. rewrite Z.eqb_refl in K. lia.
  - destruct l as [|y [|y' l]]; cbn in E2; [|discriminate E2|discriminate E2].
    rewrite app_nil_r in E1. subst o1. injection E2 as E2 _. subst x. right. specialize (K fd). unfold own, hits in K. cbn [uses] in U. destruct (0 <=? f)%Z; [|destruct U].
    destruct U as [->|[]]. rewrite Z.eqb_refl in K. lia.
Qed.
Lemma tidy_handle F h fd err l : (0 < fd)%Z -> tidy F [OOpenHandle h fd err; OReadlink fd l; OClose fd].
Proof.
  intros H. change [OOpenHandle h fd err; OReadlink fd l; OClose fd] with (([OOpenHandle h fd err] ++ [OReadlink fd l]) ++ [OClose fd]).
  assert (E : forall x, open_count x [OOpenHandle h fd err] = own x fd) by (intros x; unfold own; cbn; destruct (0 <=? fd)%Z; cbn; lia).
  apply tidy_close.
  - apply (tidy_then F [fd]); [apply tidy_one; [reflexivity|intros ? []]|apply tidy_one; [reflexivity|auto]|].
    intros g [<-|[]]. right. rewrite E. unfold own, hits. replace (0 <=? fd)%Z with true by lia. rewrite Z.eqb_refl. lia.
  - intros x. rewrite count_app, E. cbn. lia.
Qed.

Section Own.
  Variable s : os.
  Variable F : list Z.
  Notation ok m := (every (tidy F) m).
  Lemma t_bind {A B} (m : M A) (k : A -> M B) : ok m -> (forall a, ok (k a)) -> ok (bind m k).
  Proof. apply every_bind, tidy_app. Qed.
  Lemma t_ret {A} (a : A) : ok (ret a). Proof. intros tr. apply tidy_nil. Qed.
  Lemma t_undef {A} u : ok (@undef A u). Proof. intros tr. apply tidy_nil. Qed.
  Lemma t_fuel {A} : ok (@no_fuel A). Proof. intros tr. apply tidy_nil. Qed.
  Lemma t_silent {A} (m : M A) : silent m -> ok m.
  Proof. intros H tr. rewrite (H tr). apply tidy_nil. Qed.
  Lemma t_one {A} (f : trace -> obs) (g : trace -> A) : (forall tr, fd_closed (f tr) = None /\ forall fd, In fd (uses (f tr)) -> In fd F) -> ok (fun tr => ([f tr], Ok (g tr))).
  Proof. intros H tr. apply tidy_one; apply H. Qed.
  Lemma t_new_event p f t : ok (new_event s p f t).
  Proof. apply t_bind; [apply (t_one (fun tr => ONow _)); split; [reflexivity|intros ? []]|intros; apply t_ret]. Qed.
  Lemma t_new_pair a b : ok (new_pair s a b).
  Proof. apply t_bind; [apply (t_one (fun tr => ONow _)); split; [reflexivity|intros ? []]|intros; apply t_ret]. Qed.
  Lemma t_callback e : ok (callback e).
  Proof. apply (t_one (fun _ => OCallback e) (fun _ => tt)). split; [reflexivity|intros ? []]. Qed.
  Lemma t_msg r p : ok (send_msg s r p).
  Proof. apply t_bind; [apply t_new_event|intros; apply t_callback]. Qed.
  Lemma t_realpath p : ok (realpath s p). Proof. apply (t_one (fun tr => ORealpath p _)). split; [reflexivity|intros ? []]. Qed.
  Lemma t_stat p : ok (stat_dir s p). Proof. apply (t_one (fun tr => OStatDir p _)). split; [reflexivity|intros ? []]. Qed.

  Section Fd.
    Variable fd : Z.
    Hypothesis Hfd : In fd F.
    Lemma t_in_mark p dm : ok (in_mark s p fd dm).
    Proof.
      unfold in_mark. apply t_bind; [apply t_realpath|]. intros [real|]; [|apply t_bind; [apply t_msg|intros; apply t_ret]].
      apply t_bind; [apply t_stat|]. intros d. apply t_bind.
      { destruct d; [|apply t_ret]. apply (t_one (fun tr => OAddWatch fd real _ _)). split; [reflexivity|]. intros x [<-|[]]. exact Hfd. }
      intros wd. destruct (0 <? wd)%Z; [apply t_ret|]. apply t_bind; [apply t_msg|intros; apply t_ret].
    Qed.
    Lemma t_fa_mark p : ok (fa_mark s p fd).
    Proof.
      unfold fa_mark. apply t_bind; [apply t_realpath|]. intros [real|]; [|apply t_bind; [apply t_msg|intros; apply t_ret]].
      apply t_bind; [apply t_stat|]. intros d. apply t_bind.
      { destruct d; [|apply t_ret]. apply (t_one (fun tr => OFanMark fd real _ _)). split; [reflexivity|]. intros x [<-|[]]. exact Hfd. }
      intros rc. destruct (rc =? 0)%Z; [apply t_ret|]. apply t_bind; [apply t_msg|intros; apply t_ret].
    Qed.
    Lemma t_in_parse d buf off tail : ok (in_parse s d buf off tail).
    Proof.
      unfold in_parse. apply t_bind; [apply t_silent, silent_word|]. intros mask. cbv zeta.
      assert (Hmk : forall o et pt, ok (nm <- in_name buf o ;; new_event s (path_append d nm) et pt)).
      { intros. apply t_bind; [apply t_silent, silent_cstr|intros; apply t_new_event]. }
      apply t_bind; [apply t_silent, silent_in_peek|]. intros [n|]; [|apply t_bind; [apply Hmk|intros; apply t_ret]].
      apply t_bind; [apply t_silent, silent_word|]. intros cn. apply t_bind; [apply t_silent, silent_word|]. intros ci.
      destruct (negb _); [apply t_bind; [apply Hmk|intros; apply t_ret]|].
      apply t_bind; [apply t_silent, silent_word|]. intros mn.
      destruct (_ && _); [|destruct (_ && _)].
      1-2: apply t_bind; [apply Hmk|]; intros ea; apply t_bind; [apply Hmk|]; intros eb; apply t_bind; [apply t_new_pair|]; intros ev; apply t_bind; [apply t_silent, silent_in_peek|intros; apply t_ret].
      apply t_bind; [apply Hmk|intros; apply t_ret].
    Qed.
    Lemma t_in_loop fuel buf tail : forall in_ev c dm rm, ok (in_loop s fuel fd buf tail in_ev c dm rm).
    Proof.
      induction fuel as [|k IH]; intros in_ev c dm rm; cbn [in_loop]; [apply t_fuel|].
      destruct in_ev as [off|]; [|apply t_ret]. destruct (negb _); [apply t_ret|].
      apply t_bind; [apply t_silent, silent_in_peek|]. intros next. apply t_bind; [apply t_silent, silent_word|]. intros msk.
      apply t_bind; [apply t_silent, silent_in_wd|]. intros wd. destruct (in_c_ulim <? c)%N; [apply t_ret|].
      destruct (is_parity_lost msk && _); [apply t_ret|].
      destruct (zfind wd dm) as [dir|]; [|apply t_bind; [apply t_msg|intros; apply IH]].
      destruct (flag msk IN_Q_OVERFLOW); [apply t_bind; [apply t_msg|intros; apply IH]|].
      destruct (is_real_event msk); [|apply IH].
      apply t_bind; [apply t_in_parse|]. intros [ev nx]. apply t_bind.
      { destruct (_ && _); [|apply t_ret]. apply t_bind; [apply t_in_mark|intros; apply t_ret]. }
      intros dm1. apply t_bind; [apply t_callback|intros; apply IH].
    Qed.
    Lemma t_pathof buf m : ok (fa_pathof s buf m).
    Proof.
      unfold fa_pathof. apply t_bind; [apply t_silent, silent_fa_handle|]. intros h tr.
      unfold bind at 1, open_by_handle. destruct (os_open_handle s tr h) as [d err] eqn:Eo. cbn [fst snd].
      destruct (Z.leb_spec d 0) as [Hle|Hgt].
      - cbn. apply tidy_one; [reflexivity|intros ? []].
      - unfold bind at 1, readlink. cbn [app fst snd]. unfold bind at 1, sys_close. cbn [app fst snd].
        match goal with |- tidy F (fst (let (_, _) := let (_, _) := let (_, _) := ?m ?t in _ in _ in _)) => assert (Hm : ok m) end.
        { destruct (os_readlink s _ d) as [d0|]; [|apply t_undef]. destruct (firstn path_ulim d0); [apply t_ret|].
          apply t_bind; [apply t_silent, silent_word|]. intros hb. apply t_bind; [apply t_silent, silent_cstr|]. intros nm. destruct (text_eqb nm (lit ".")); apply t_ret. }
        match goal with |- context [?m ?t] => lazymatch type of Hm with every _ m => specialize (Hm t); destruct (m t) as [o2 r2] end end.
        cbn [fst snd app] in *. match goal with |- tidy F (?a :: ?b :: ?c :: o2) => apply (tidy_app F [a; b; c] o2); [|exact Hm] end. now apply tidy_handle.
    Qed.
    Lemma t_fa_parse buf m len ec : ok (fa_parse s buf m len ec).
    Proof.
      unfold fa_parse. apply t_bind; [apply t_silent, silent_fa_peek|]. intros n. apply t_bind; [apply t_silent, silent_word|]. intros mask. cbv zeta.
      assert (Hone : forall f t (n : option N), ok ('(p, x) <- fa_pathof s buf m ;; ev <- new_event s p f t ;; el <- fa_event_len buf m ;; ret (ev, n, Z.of_N el, set_ec ec x))).
      { intros. apply t_bind; [apply t_pathof|]. intros [p x]. apply t_bind; [apply t_new_event|]. intros ev. apply t_bind; [apply t_silent, silent_word|intros; apply t_ret]. }
      destruct n as [nx|]; [|apply Hone]. apply t_bind; [apply t_silent, silent_word|]. intros mn.
      destruct (_ && _ && _); [|destruct (_ && _ && _)].
      1-2: apply t_bind; [apply t_silent, silent_fa_peek|]; intros nn; apply t_bind; [apply t_silent, silent_word|]; intros la; apply t_bind; [apply t_silent, silent_word|]; intros lb;
        apply t_bind; [apply t_pathof|]; intros [pa xa]; apply t_bind; [apply t_new_event|]; intros ea; apply t_bind; [apply t_pathof|]; intros [pb xb];
        apply t_bind; [apply t_new_event|]; intros eb; apply t_bind; [apply t_new_pair|intros; apply t_ret].
      apply Hone.
    Qed.
    Lemma t_fa_loop fuel buf : forall mtd len c, ok (fa_loop s fuel fd buf mtd len c).
    Proof.
      induction fuel as [|k IH]; intros mtd len c; cbn [fa_loop]; [apply t_fuel|]. destruct mtd as [m|]; [|apply t_ret].
      apply t_bind; [apply t_silent, silent_ok|]. intros o. destruct (negb o); [apply t_ret|]. destruct (fa_c_ulim <? c)%N; [apply t_ret|].
      apply t_bind; [apply t_silent, silent_byte|]. intros vers. destruct (negb _); [apply t_ret|].
      apply t_bind; [apply t_silent, silent_bind; [apply silent_word|intros; apply silent_ret]|]. intros evfd. destruct (negb _); [apply t_ret|].
      apply t_bind; [apply t_silent, silent_word|]. intros mask. destruct (flag mask FAN_Q_OVERFLOW); [apply t_ret|].
      apply t_bind; [apply t_silent, silent_byte|]. intros it. destruct (negb _); [apply t_ret|].
      apply t_bind; [apply t_fa_parse|]. intros [[[ev n] l] ec]. destruct (negb (ec =? 0)%Z); [apply t_ret|].
      apply t_bind. { unfold fa_mark_if_newdir. destruct (ev_effect ev), (ev_ptype ev); try apply t_ret. apply t_fa_mark. }
      intros _. apply t_bind; [apply t_callback|intros; apply IH].
    Qed.
    Lemma t_read n : ok (sys_read s fd n).
    Proof. apply (t_one (fun tr => ORead fd _)). split; [reflexivity|]. intros x [<-|[]]. exact Hfd. Qed.
  End Fd.
  Lemma t_in_recv ke : In (kin_fd ke) F -> ok (in_recv s ke).
  Proof.
    intros H. unfold in_recv. apply t_bind; [now apply t_read|]. intros r. destruct (_ && _); [apply t_ret|].
    apply t_bind; [now apply t_in_loop|]. intros [[res dm] rm]. apply t_ret.
  Qed.
  Lemma t_fa_recv ke : In (kfa_fd ke) F -> ok (fa_recv s ke).
  Proof.
    intros H. unfold fa_recv. apply t_bind; [now apply t_read|]. intros r. destruct (_ && _); [apply t_ret|]. destruct (_ <? _)%Z; [apply t_ret|].
    apply t_bind; [now apply t_fa_loop|]. intros res. apply t_ret.
  Qed.
  Lemma t_walkdir {S} fuel : forall path (f : text -> S -> M S) st, (forall p st, ok (f p st)) -> ok (walkdir s fuel path f st).
  Proof.
    induction fuel as [|k IH]; intros path f st Hf; cbn [walkdir]; [apply t_fuel|].
    apply t_bind; [apply (t_one (fun tr => OOpendir path _)); split; [reflexivity|intros ? []]|]. intros [ents|]; [|apply t_ret].
    apply t_bind; [apply Hf|]. intros st1. apply t_bind.
    { revert st1. induction ents as [|de es IHe]; intros st1; [apply t_ret|].
      destruct (negb _); [apply IHe|]. destruct (text_eqb _ _); [apply IHe|]. destruct (text_eqb _ _); [apply IHe|].
      apply t_bind; [apply t_realpath|]. intros [real|]; [|apply IHe]. apply t_bind; [apply IH, Hf|]. intros st'. apply IHe. }
    intros st2. apply t_bind; [apply (t_one (fun _ => OClosedir path) (fun _ => tt)); split; [reflexivity|intros ? []]|intros; apply t_ret].
  Qed.
  Lemma t_make_ep a b : In a F -> In b F -> ok (make_ep s a b).
  Proof.
    intros Ha Hb tr. unfold make_ep, bind, epoll_create, epoll_ctl, sys_close, ret. set (fd := os_epoll_create s tr).
    assert (T0 : tidy F [OEpollCreate fd]) by (apply tidy_one; [reflexivity|intros ? []]).
    destruct (Z.ltb_spec fd 0) as [Hn|Hp]; [exact T0|].
    assert (E : forall x, open_count x [OEpollCreate fd] = own x fd) by (intros x; unfold own; cbn; destruct (0 <=? fd)%Z; cbn; lia).
    assert (P : (0 < own fd fd)%Z) by (unfold own, hits; replace (0 <=? fd)%Z with true by lia; rewrite Z.eqb_refl; lia).
    assert (T1 : forall r, tidy F ([OEpollCreate fd] ++ [OEpollCtl fd a r])).
    { intros r. apply (tidy_then F [fd; a]); [exact T0|apply tidy_one; [reflexivity|auto]|]. intros g [<-|[<-|[]]]; [right; now rewrite E|now left]. }
    assert (T2 : forall r r', tidy F (([OEpollCreate fd] ++ [OEpollCtl fd a r]) ++ [OEpollCtl fd b r'])).
    { intros r r'. apply (tidy_then F [fd; b]); [apply T1|apply tidy_one; [reflexivity|auto]|]. intros g [<-|[<-|[]]]; [right; rewrite count_app, E; cbn; lia|now left]. }
    cbn [app fst snd].
    match goal with |- context [(?c <? 0)%Z] => destruct (c <? 0)%Z; set (ra := c) end; cbn [app fst snd].
    { apply (tidy_close F ([OEpollCreate fd] ++ [OEpollCtl fd a ra])); [apply T1|]. intros x. rewrite count_app, E. cbn. lia. }
    match goal with |- context [(?c <? 0)%Z] => destruct (c <? 0)%Z; set (rb := c) end; cbn [app fst snd].
    { apply (tidy_close F (([OEpollCreate fd] ++ [OEpollCtl fd a ra]) ++ [OEpollCtl fd b rb])); [apply T2|]. intros x. rewrite !count_app, E. cbn. lia. }
    apply T2.
  Qed.
  Section Loop.
    Variables (K : Type) (k_fd : K -> Z) (recv : K -> M (result * K)) (il ep : Z).
    Hypothesis Hr : forall ke, post (recv ke) (fun x => recv_result (fst x) /\ k_fd (snd x) = k_fd ke).
    Hypothesis Hrecv : forall ke, In (k_fd ke) F -> ok (recv ke).
    Hypothesis Hep : In ep F.
    Lemma t_each fds : forall o ke, In (k_fd ke) F -> forall tr, tidy F (fst (each_ready K k_fd recv il fds o ke tr)) /\
      forall x, snd (each_ready K k_fd recv il fds o ke tr) = Ok x -> In (k_fd (snd x)) F.
    Proof.
      induction fds as [|d fds IH]; intros o ke Hk tr; cbn [each_ready].
      { split; [apply tidy_nil|]. intros x [= <-]. exact Hk. }
      destruct (d =? il)%Z; [now apply IH|]. destruct (d =? k_fd ke)%Z; [|now apply IH].
      unfold bind. pose proof (Hrecv ke Hk tr) as T. pose proof (Hr ke tr) as P. destruct (recv ke tr) as [o1 [[r ke']|u| |]]; cbn [fst snd] in *; try (split; [exact T|discriminate]).
      destruct (P _ _ eq_refl) as [_ E]. cbn [snd] in E. specialize (IH r ke' ltac:(now rewrite E) (tr ++ o1)). destruct (each_ready _ _ _ _ fds r ke' _) as [o2 r2]. cbn [fst snd] in *.
      destruct IH as [T2 H2]. split; [now apply tidy_app|exact H2].
    Qed.
    Lemma t_loop fuel : forall o ke, (r_lt o r_complete = true -> In (k_fd ke) F) -> ok (ep_loop s K k_fd recv il fuel ep o ke).
    Proof.
      induction fuel as [|n IH]; intros o ke Hk; cbn [ep_loop]; [apply t_fuel|]. destruct (r_lt o r_complete); cbn [negb]; [|apply t_ret]. specialize (Hk eq_refl).
      apply t_bind. { apply (t_one (fun tr => OEpollWait ep _)). split; [reflexivity|]. intros x [<-|[]]. exact Hep. }
      intros [fds|]; [|now apply IH]. intros tr. unfold bind. destruct (t_each (firstn 64 fds) o ke Hk tr) as [T H].
      destruct (each_ready _ _ _ _ _ _ _ tr) as [o1 [[o' ke']|u| |]]; cbn [fst snd] in *; try exact T.
      specialize (H _ eq_refl). specialize (IH o' ke' (fun _ => H) (tr ++ o1)). destruct (ep_loop _ _ _ _ _ n _ _ _ _) as [o2 r2]. cbn [fst] in *. now apply tidy_app.
    Qed.
  End Loop.
End Own.
Lemma t_loop_done s F K k_fd recv il ep fuel o ke : r_lt o r_complete = false -> every (tidy F) (ep_loop s K k_fd recv il fuel ep o ke).
Proof. intros H. destruct fuel; cbn [ep_loop]; [apply t_fuel|]. rewrite H. cbn [negb]. apply t_ret. Qed.

Section Platform.
  Variable s : os.
  Variable il : Z.
  Section Any.
    Variables (K : Type) (k_fd : K -> Z) (recv : K -> M (result * K)).
    Hypothesis Hr : forall ke, post (recv ke) (fun x => recv_result (fst x) /\ k_fd (snd x) = k_fd ke).
    Hypothesis Hq : forall ke, every (Forall no_wait) (recv ke).
    Hypothesis Hrecv : forall F ke, In (k_fd ke) F -> every (tidy F) (recv ke).
    Variables (make : M (result * K * Z)) (fuel : nat).
    Hypothesis Hl : leaves s make (fun x => [k_fd (snd (fst x)); snd x]).
    Hypothesis Hm : every (tidy [il]) make.
    Hypothesis Hpos : forall tr o k e, snd (make tr) = Ok (o, k, e) -> r_lt o r_complete = true -> (0 <= k_fd k)%Z /\ (0 <= e)%Z.
    Lemma t_platform : every (tidy [il]) (platform_watch s K k_fd recv il fuel make).
    Proof.
      intros tr. unfold platform_watch. unfold bind at 1. pose proof (Hm tr) as T1. destruct (make tr) as [o1 r1] eqn:E1. cbn [fst] in T1.
      destruct (Hl _ _ _ E1) as [_ C]. destruct r1 as [[[o ke] ep]|u| |]; cbn [fst]; try exact T1. destruct (C _ eq_refl) as [G _]. cbn [fst snd fold_right] in G. clear C.
      assert (T2 : every (tidy (if r_lt o r_complete then [k_fd ke; ep; il] else [])) (ep_loop s K k_fd recv il fuel ep o ke)).
      { destruct (r_lt o r_complete) eqn:L; [|now apply t_loop_done]. apply t_loop; [exact Hr|intros; now apply Hrecv|right; now left|intros _; now left]. }
      unfold bind at 1. specialize (T2 (tr ++ o1)). destruct (ep_loop s K k_fd recv il fuel ep o ke (tr ++ o1)) as [o2 r2] eqn:E2. cbn [fst] in T2.
      assert (T : tidy [il] (o1 ++ o2)).
      { apply (tidy_then [il] _ _ _ T1 T2). destruct (r_lt o r_complete) eqn:L; [|intros g []].
        destruct (Hpos tr o ke ep ltac:(now rewrite E1) L) as [P1 P2]. intros g [<-|[<-|[<-|[]]]]; [right|right|left; now left].
        - specialize (G (k_fd ke)). pose proof (own_nonneg (k_fd ke) ep). unfold own at 1, hits in G. replace (0 <=? k_fd ke)%Z with true in G by lia. rewrite Z.eqb_refl in G. lia.
        - specialize (G ep). pose proof (own_nonneg ep (k_fd ke)). unfold own at 2, hits in G. replace (0 <=? ep)%Z with true in G by lia. rewrite Z.eqb_refl in G. lia. }
      destruct r2 as [[o' ke']|u| |]; cbn [fst]; try exact T.
      apply (ep_loop_inv s K k_fd recv il) in E2 as (Hfd & _); auto. cbn. rewrite Hfd.
      replace (o1 ++ o2 ++ [OClose (k_fd ke); OClose ep]) with (((o1 ++ o2) ++ [OClose (k_fd ke)]) ++ [OClose ep]) by now rewrite <- !app_assoc.
      assert (N2 : forall x, (0 <= open_count x o2)%Z) by (apply count_prefix, T2).
      apply tidy_close; [apply tidy_close; [exact T|]|].
      - intros x. rewrite count_app. specialize (G x). specialize (N2 x). pose proof (own_nonneg x ep). lia.
      - intros x. rewrite !count_app, count_close. specialize (G x). specialize (N2 x). lia.
    Qed.
  End Any.
  Lemma opened_tidy (x : obs) F : fd_closed x = None -> uses x = [] -> tidy F [x].
  Proof. intros H1 H2. apply tidy_one; [exact H1|]. rewrite H2. intros ? []. Qed.
  Lemma t_in_make fuel path : every (tidy [il]) (in_make_sysres s fuel path il).
  Proof.
    intros tr. unfold in_make_sysres. unfold bind at 1, inotify_init. set (fd := os_inotify_init s tr). cbv zeta.
    assert (T0 : tidy [il] [OInotifyInit fd]) by now apply opened_tidy.
    destruct (Z.ltb_spec fd 0) as [Hn|Hp]; [exact T0|].
    match goal with |- tidy [il] (fst (let (_, _) := ?m ?t in _)) => assert (Hm : every (tidy [fd; il]) m) end.
    { apply t_bind; [apply t_walkdir; intros; apply t_bind; [apply t_in_mark; now left|intros; apply t_ret]|].
      intros [|x dm]; [apply t_ret|]. apply t_bind; [apply t_make_ep; [now left|right; now left]|intros; apply t_ret]. }
    match goal with |- context [let (_, _) := ?m ?t in _] => specialize (Hm t); destruct (m t) as [o2 r2] end. cbn [fst] in *.
    apply (tidy_then [il] [fd; il] [_] o2 T0 Hm). intros g [<-|[<-|[]]]; [right|left; now left].
    cbn. replace (0 <=? fd)%Z with true by lia. cbn. rewrite Z.eqb_refl. lia.
  Qed.
  Lemma t_fa_make fuel path : every (tidy [il]) (fa_make_sysres s fuel path il).
  Proof.
    intros tr. unfold fa_make_sysres. unfold bind at 1, fanotify_init. set (fd := os_fan_init s tr). cbv zeta.
    assert (T0 : tidy [il] [OFanInit fd]) by now apply opened_tidy.
    destruct (Z.ltb_spec fd 1) as [Hn|Hp]; [exact T0|].
    assert (P : forall x, open_count x [OFanInit fd] = own x fd) by (intros x; unfold own; cbn; destruct (0 <=? fd)%Z; cbn; lia).
    assert (Q : (0 < own fd fd)%Z) by (unfold own, hits; replace (0 <=? fd)%Z with true by lia; rewrite Z.eqb_refl; lia).
    unfold bind at 1. match goal with |- context [walkdir s ?fu ?p ?f ?st ?t] => assert (Hw : every (tidy [fd; il]) (walkdir s fu p f st)); [|specialize (Hw t); destruct (walkdir s fu p f st t) as [o2 r2]] end.
    { apply t_walkdir. intros. apply t_bind; [apply t_fa_mark; now left|intros; apply t_ret]. }
    cbn [fst] in Hw.
    assert (T1 : tidy [il] (OFanInit fd :: o2)).
    { apply (tidy_then [il] [fd; il] [_] o2 T0 Hw). intros g [<-|[<-|[]]]; [right; now rewrite P|left; now left]. }
    destruct r2 as [[]|u| |]; cbn [fst]; try exact T1.
    unfold bind at 1. match goal with |- context [make_ep s fd il ?t] => pose proof (t_make_ep s [fd; il] fd il ltac:(now left) ltac:(right; now left) t) as He; destruct (make_ep s fd il t) as [o3 r3] end.
    cbn [fst] in He.
    assert (T2 : tidy [il] ((OFanInit fd :: o2) ++ o3)).
    { apply (tidy_then [il] [fd; il] _ _ T1 He). intros g [<-|[<-|[]]]; [right|left; now left].
      change (OFanInit fd :: o2) with ([OFanInit fd] ++ o2). rewrite count_app, P. pose proof (count_prefix _ (proj1 Hw) fd). lia. }
    destruct r3 as [ep|u| |]; cbn [fst]; try exact T2.
    destruct (ep <? 1)%Z; cbn; [|rewrite app_nil_r; exact T2].
    replace (OFanInit fd :: o2 ++ o3 ++ [OClose fd]) with (((OFanInit fd :: o2) ++ o3) ++ [OClose fd]) by now rewrite <- app_assoc.
    apply tidy_close; [exact T2|]. intros x. change (OFanInit fd :: o2) with ([OFanInit fd] ++ o2). rewrite !count_app, P. pose proof (count_prefix _ (proj1 Hw) x). pose proof (count_prefix _ (proj1 He) x). lia.
  Qed.
  Lemma in_make_pos fuel path tr o k e : snd (in_make_sysres s fuel path il tr) = Ok (o, k, e) -> r_lt o r_complete = true -> (0 <= kin_fd k)%Z /\ (0 <= e)%Z.
  Proof.
    unfold in_make_sysres. unfold bind at 1, inotify_init. set (fd := os_inotify_init s tr). cbv zeta.
    destruct (Z.ltb_spec fd 0) as [Hn|Hp]; [intros [= <- <- <-] L; discriminate L|].
    unfold bind at 1. match goal with |- context [walkdir s ?fu ?p ?f ?st ?t] => destruct (walkdir s fu p f st t) as [o2 [dm|u| |]] end; try discriminate.
    destruct dm as [|x dm]; [intros [= <- <- <-] L; discriminate L|]. unfold bind at 1. match goal with |- context [make_ep s fd il ?t] => destruct (make_ep s fd il t) as [o3 [ep|u| |]] end; try discriminate.
    cbn. intros [= <- <- <-]. destruct (Z.ltb_spec ep 0); [intros L; discriminate L|]. cbn. auto.
  Qed.
  Lemma fa_make_pos fuel path tr o k e : snd (fa_make_sysres s fuel path il tr) = Ok (o, k, e) -> r_lt o r_complete = true -> (0 <= kfa_fd k)%Z /\ (0 <= e)%Z.
  Proof.
    unfold fa_make_sysres. unfold bind at 1, fanotify_init. set (fd := os_fan_init s tr). cbv zeta.
    destruct (Z.ltb_spec fd 1) as [Hn|Hp]; [intros [= <- <- <-] L; discriminate L|].
    unfold bind at 1. match goal with |- context [walkdir s ?fu ?p ?f ?st ?t] => destruct (walkdir s fu p f st t) as [o2 [dm|u| |]] end; try discriminate.
    unfold bind at 1. match goal with |- context [make_ep s fd il ?t] => destruct (make_ep s fd il t) as [o3 [ep|u| |]] end; try discriminate.
    destruct (Z.ltb_spec ep 1); cbn; [intros [= <- <- <-] L; discriminate L|]. intros [= <- <- <-] _. cbn. lia.
  Qed.
  Lemma t_linux fuel path : every (tidy [il]) (linux_watch s fuel path il).
  Proof.
    unfold linux_watch. apply t_bind.
    { unfold try_fanotify. apply t_bind; [apply (t_one [il] (fun tr => OGeteuid _)); split; [reflexivity|intros ? []]|]. intros u. destruct (u =? 0)%Z; [|apply t_ret].
      apply t_platform; [intros; apply fa_recv_result|intros; apply ev_fa_recv, closed_no_wait|intros; now apply t_fa_recv|apply fa_make_leaves|apply t_fa_make|intros; eapply fa_make_pos; eassumption]. }
    intros r. apply t_bind.
    { destruct (r_eqb r _); [|apply t_ret].
      apply t_platform; [intros; apply in_recv_result|intros; apply ev_in_recv, closed_no_wait|intros; now apply t_in_recv|apply in_make_leaves|apply t_in_make|intros; eapply in_make_pos; eassumption]. }
    intros r'. destruct (r_ge r' r_e); [|apply t_ret]. apply t_bind; [apply t_msg|intros; apply t_ret].
  Qed.
End Platform.

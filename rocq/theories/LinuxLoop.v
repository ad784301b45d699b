(** The stop request (C09): fuel monotonicity and what a stop does to the loop. *)
From Verif Require Import Base PathModel EventModel Sys SysFacts LinuxModel InotifyModel
  FanotifyModel LinuxWatch LinuxSpec LinuxFacts LinuxRun LinuxProps InotifyClaims.

(** ** More fuel only continues a run *)
Definition continues {A} (m m' : M A) : Prop :=
  forall tr, m tr = m' tr \/ (snd (m tr) = Fuel /\ exists o', fst (m' tr) = fst (m tr) ++ o').

Lemma cont_refl {A} (m : M A) : continues m m.
Proof. intros tr. now left. Qed.

Lemma cont_fuel {A} (m : M A) : continues no_fuel m.
Proof. intros tr. right. split; [reflexivity|]. now exists (fst (m tr)). Qed.

Lemma cont_bind {A B} (m m' : M A) (k k' : A -> M B) :
  continues m m' -> (forall a, continues (k a) (k' a)) -> continues (bind m k) (bind m' k').
Proof.
  intros Hm Hk tr. unfold bind. destruct (Hm tr) as [E|[E [o' E']]].
  - rewrite <- E. destruct (m tr) as [o1 [a|u| |]]; try (now left).
    destruct (Hk a (tr ++ o1)) as [E2|[E2 [o2 E2']]].
    + rewrite <- E2. now left.
    + right. destruct (k a (tr ++ o1)) as [x rx]. destruct (k' a (tr ++ o1)) as [y ry]. cbn [fst snd] in *.
      split; [exact E2|]. exists o2. rewrite E2'. now rewrite app_assoc.
  - destruct (m tr) as [o1 r1], (m' tr) as [o2 r2]. cbn [fst snd] in *. subst r1 o2. right.
    split; [reflexivity|]. destruct r2 as [a|u| |]; try (now exists o').
    destruct (k' a (tr ++ o1 ++ o')) as [y ry]. exists (o' ++ y). cbn. now rewrite app_assoc.
Qed.

Lemma cont_trans {A} (a b c : M A) : continues a b -> continues b c -> continues a c.
Proof.
  intros H1 H2 tr. destruct (H1 tr) as [E|[E [o E']]].
  - rewrite E. apply H2.
  - right. split; [exact E|]. destruct (H2 tr) as [F|[F [o2 F']]].
    + rewrite <- F. now exists o.
    + rewrite F', E'. exists (o ++ o2). now rewrite app_assoc.
Qed.

Section Mono.
  Variable s : os.

  Lemma walkdir_cont {S : Type} n : forall path (f : text -> S -> M S) st,
    continues (walkdir s n path f st) (walkdir s (Datatypes.S n) path f st).
  Proof.
    induction n as [|n IH]; intros path f st; [apply cont_fuel|].
    cbn [walkdir]. apply cont_bind; [apply cont_refl|]. intros [ents|]; [|apply cont_refl].
    apply cont_bind; [apply cont_refl|]. intros st1. apply cont_bind; [|intros; apply cont_refl].
    revert st1. induction ents as [|de es IHe]; intros st1; [apply cont_refl|].
    destruct (negb (de_type de =? 4)%N); [apply IHe|].
    destruct (text_eqb (de_name de) (lit ".")); [apply IHe|].
    destruct (text_eqb (de_name de) (lit "..")); [apply IHe|].
    apply cont_bind; [apply cont_refl|]. intros [real|]; [|apply IHe].
    apply cont_bind; [apply IH|apply IHe].
  Qed.

  Lemma in_make_cont n path il : continues (in_make_sysres s n path il) (in_make_sysres s (S n) path il).
  Proof.
    unfold in_make_sysres. apply cont_bind; [apply cont_refl|]. intros fd. cbv zeta.
    destruct (fd <? 0)%Z; [apply cont_refl|].
    apply cont_bind; [apply walkdir_cont|]. intros; apply cont_refl.
  Qed.
  Lemma fa_make_cont n path il : continues (fa_make_sysres s n path il) (fa_make_sysres s (S n) path il).
  Proof.
    unfold fa_make_sysres. apply cont_bind; [apply cont_refl|]. intros fd. cbv zeta.
    destruct (fd <? 1)%Z; [apply cont_refl|].
    apply cont_bind; [apply walkdir_cont|]. intros; apply cont_refl.
  Qed.

  Section Loop.
    Variable K : Type.
    Variable k_fd : K -> Z.
    Variable recv : K -> M (result * K).
    Variable il : Z.

    Lemma ep_loop_cont n : forall ep ok ke,
      continues (ep_loop s K k_fd recv il n ep ok ke) (ep_loop s K k_fd recv il (S n) ep ok ke).
    Proof.
      induction n as [|n IH]; intros ep ok ke; [apply cont_fuel|].
      change (continues
        (if negb (r_lt ok r_complete) then ret (ok, ke) else
           r <- epoll_wait s ep ;;
           match r with
           | None => ep_loop s K k_fd recv il n ep r_e_sys_api_epoll ke
           | Some fds => '(ok', ke') <- each_ready K k_fd recv il (firstn 64 fds) ok ke ;;
                         ep_loop s K k_fd recv il n ep ok' ke'
           end)
        (if negb (r_lt ok r_complete) then ret (ok, ke) else
           r <- epoll_wait s ep ;;
           match r with
           | None => ep_loop s K k_fd recv il (S n) ep r_e_sys_api_epoll ke
           | Some fds => '(ok', ke') <- each_ready K k_fd recv il (firstn 64 fds) ok ke ;;
                         ep_loop s K k_fd recv il (S n) ep ok' ke'
           end)).
      destruct (negb _); [apply cont_refl|].
      apply cont_bind; [apply cont_refl|]. intros [fds|]; [|apply IH].
      apply cont_bind; [apply cont_refl|]. intros [ok' ke']. apply IH.
    Qed.

    Lemma platform_cont n mk mk' : continues mk mk' ->
      continues (platform_watch s K k_fd recv il n mk) (platform_watch s K k_fd recv il (S n) mk').
    Proof.
      intros Hm. unfold platform_watch. apply cont_bind; [exact Hm|]. intros [[ok ke] ep].
      apply cont_bind; [apply ep_loop_cont|]. intros; apply cont_refl.
    Qed.
  End Loop.

  Lemma run_inotify_cont n path il : continues (run_inotify s n path il) (run_inotify s (S n) path il).
  Proof. apply platform_cont, in_make_cont. Qed.
  Lemma run_fanotify_cont n path il : continues (run_fanotify s n path il) (run_fanotify s (S n) path il).
  Proof. apply platform_cont, fa_make_cont. Qed.
  Lemma try_fanotify_cont n path il : continues (try_fanotify s n path il) (try_fanotify s (S n) path il).
  Proof.
    unfold try_fanotify. apply cont_bind; [apply cont_refl|]. intros u.
    destruct (u =? 0)%Z; [apply run_fanotify_cont|apply cont_refl].
  Qed.

  (** A longer run of the adapter extends the shorter one. *)
  Lemma linux_watch_cont n path il : continues (linux_watch s n path il) (linux_watch s (S n) path il).
  Proof.
    unfold linux_watch. apply cont_bind; [apply try_fanotify_cont|]. intros r.
    apply cont_bind; [|intros; apply cont_refl].
    destruct (r_eqb r _); [apply run_inotify_cont|apply cont_refl].
  Qed.
  Lemma linux_watch_mono n m path il : (n <= m)%nat -> continues (linux_watch s n path il) (linux_watch s m path il).
  Proof.
    induction 1 as [|m H IH]; [apply cont_refl|]. eapply cont_trans; [exact IH|apply linux_watch_cont].
  Qed.
End Mono.

(** ** The stop *)

(** A wait that reports the stop descriptor after all the others it reports. *)
Definition stop_wait (il : Z) (x : obs) : Prop :=
  exists ep fds l, x = OEpollWait ep (Some fds) /\ firstn 64 fds = l ++ [il].

(** [m] meets [x] at the end of [o1]; then [m'] (the same run with more fuel)
    does the same and then ends without a further wait. *)
Definition ends_after {A} (il : Z) (good : A -> Prop) (m m' : M A) : Prop :=
  forall tr o1 x o2, fst (m tr) = o1 ++ x :: o2 -> stop_wait il x ->
    exists o3, fst (m' tr) = o1 ++ x :: o3 /\ Forall no_wait o3 /\
      ((exists a, snd (m' tr) = Ok a /\ good a) \/ exists u, snd (m' tr) = Undef u).

Section Stop.
  Variable s : os.
  Variable il : Z.

  Lemma stop_wait_wait x : stop_wait il x -> ~ no_wait x.
  Proof. intros (ep & fds & l & -> & _) H. exact H. Qed.

  Lemma no_stop_in (o : trace) x o1 o2 : Forall no_wait o -> o = o1 ++ x :: o2 -> stop_wait il x -> False.
  Proof.
    intros H -> Hx. apply Forall_app in H as [_ H]. inversion H; subst. now apply stop_wait_wait in Hx.
  Qed.

  (** Sequencing, when the first part has no waits and does not depend on the fuel. *)
  Lemma after_quiet {A B} (good : B -> Prop) (m m' : M A) (k k' : A -> M B) :
    every (Forall no_wait) m -> continues m m' -> (forall a, ends_after il good (k a) (k' a)) ->
    ends_after il good (bind m k) (bind m' k').
  Proof.
    intros Hq Hc Hk tr o1 x o2 E Hx. specialize (Hq tr). destruct (Hc tr) as [Em|[Em _]].
    - unfold bind in *. rewrite <- Em. destruct (m tr) as [om [a|u| |]]; cbn [fst] in Hq, E.
      2-4: exfalso; eapply no_stop_in; eassumption.
      destruct (k a (tr ++ om)) as [ok rk] eqn:Ek. cbn [fst] in E.
      apply app_eq_app in E as (l & [(E1 & E2)|(E1 & E2)]).
      + destruct l as [|y l]; cbn in E2.
        * rewrite app_nil_r in E1. subst o1. destruct (Hk a (tr ++ om) [] x o2) as (o3 & H1 & H2 & H3); [now rewrite Ek|exact Hx|].
          destruct (k' a (tr ++ om)) as [ok' rk']. cbn [fst snd] in *. exists o3. subst ok'. auto.
        * injection E2 as <- E2. exfalso. subst om. eapply no_stop_in; [exact Hq|reflexivity|exact Hx].
      + destruct (Hk a (tr ++ om) l x o2) as (o3 & H1 & H2 & H3); [now rewrite Ek|exact Hx|].
        destruct (k' a (tr ++ om)) as [ok' rk']. cbn [fst snd] in *. exists o3. subst ok' o1.
        rewrite <- app_assoc. auto.
    - exfalso. unfold bind in E. destruct (m tr) as [om rm]. cbn [fst snd] in *. subst rm. cbn [fst] in E.
      eapply no_stop_in; eassumption.
  Qed.

  (** Sequencing, when the stop may come in either part. *)
  Lemma after_bind {A B} (g : A -> Prop) (good : B -> Prop) (m m' : M A) (k k' : A -> M B) :
    ends_after il g m m' -> continues m m' -> (forall a, ends_after il good (k a) (k' a)) ->
    (forall a tr, g a -> Forall no_wait (fst (k' a tr)) /\
       ((exists b, snd (k' a tr) = Ok b /\ good b) \/ exists u, snd (k' a tr) = Undef u)) ->
    ends_after il good (bind m k) (bind m' k').
  Proof.
    intros Hm Hc Hk Hg tr o1 x o2 E Hx.
    assert (Hpre : (exists o2', fst (m tr) = o1 ++ x :: o2') \/
                   exists a l, snd (m tr) = Ok a /\ o1 = fst (m tr) ++ l /\ fst (k a (tr ++ fst (m tr))) = l ++ x :: o2).
    { unfold bind in E. destruct (m tr) as [om [a|u| |]]; cbn [fst snd] in *; try (left; now exists o2).
      destruct (k a (tr ++ om)) as [ok rk] eqn:Ek. cbn [fst] in E.
      apply app_eq_app in E as (l & [(E1 & E2)|(E1 & E2)]).
      - destruct l as [|y l]; cbn in E2.
        + right. rewrite app_nil_r in E1. exists a, []. rewrite Ek, app_nil_r. auto.
        + injection E2 as <- E2. left. exists l. exact E1.
      - right. exists a, l. rewrite Ek. auto. }
    destruct Hpre as [[o2' Ep]|(a & l & Er & El & Ek)].
    - destruct (Hm tr o1 x o2' Ep Hx) as (o3 & H1 & H2 & H3). unfold bind.
      destruct (m' tr) as [om' rm']. cbn [fst snd] in *. subst om'.
      destruct H3 as [(a & -> & Ha)|(u & ->)].
      + specialize (Hg a (tr ++ o1 ++ x :: o3) Ha). destruct (k' a (tr ++ o1 ++ x :: o3)) as [ok rk]. cbn [fst snd] in *.
        exists (o3 ++ ok). rewrite <- app_assoc. cbn [app]. split; [reflexivity|]. split; [apply Forall_app; tauto|tauto].
      + exists o3. cbn [fst snd]. split; [reflexivity|]. split; [exact H2|right; eauto].
    - destruct (Hc tr) as [Em|[Em _]]; [|congruence].
      destruct (Hk a _ _ _ _ Ek Hx) as (o3 & H1 & H2 & H3). unfold bind. rewrite <- Em.
      destruct (m tr) as [om rm]. cbn [fst snd] in *. subst rm.
      destruct (k' a (tr ++ om)) as [ok' rk']. cbn [fst snd] in *. exists o3. subst ok' o1.
      rewrite <- app_assoc. auto.
  Qed.

  Lemma after_none {A} (good : A -> Prop) (m m' : M A) : every (Forall no_wait) m -> ends_after il good m m'.
  Proof.
    intros H tr o1 x o2 E Hx. exfalso. specialize (H tr). eapply no_stop_in; [exact H|exact E|exact Hx].
  Qed.

  Section Loop.
    Variable K : Type.
    Variable k_fd : K -> Z.
    Variable recv : K -> M (result * K).
    Hypothesis Hquiet : forall ke, every (Forall no_wait) (recv ke).
    Hypothesis Hstops : forall ke, stops (recv ke).
    Hypothesis Hcrash : forall ke tr, snd (recv ke tr) <> Crash.

    Lemma each_ready_quiet fds : forall ok ke, every (Forall no_wait) (each_ready K k_fd recv il fds ok ke).
    Proof.
      intros. apply (ev_each_ready s); [apply closed_no_wait|exact Hquiet].
    Qed.

    Lemma each_ready_last l : forall ok ke tr,
      (exists ke', snd (each_ready K k_fd recv il (l ++ [il]) ok ke tr) = Ok (r_complete, ke')) \/
      exists u, snd (each_ready K k_fd recv il (l ++ [il]) ok ke tr) = Undef u.
    Proof.
      induction l as [|fd l IH]; intros ok ke tr; cbn [app each_ready].
      - rewrite Z.eqb_refl. left. exists ke. reflexivity.
      - destruct (fd =? il)%Z; [apply IH|]. destruct (fd =? k_fd ke)%Z; [|apply IH].
        unfold bind. pose proof (Hstops ke tr) as Hs. pose proof (Hcrash ke tr) as Hc. destruct (recv ke tr) as [o1 [[r ke']|u| |]]; cbn [snd] in *.
        + destruct (each_ready K k_fd recv il (l ++ [il]) r ke' (tr ++ o1)) as [o2 r2] eqn:E2. cbn [snd].
          specialize (IH r ke' (tr ++ o1)). rewrite E2 in IH. exact IH.
        + right. eauto.
        + congruence.
        + congruence.
    Qed.

    Definition completed (x : result * K) : Prop := fst x = r_complete.

    Lemma ep_loop_some n ep ok ke tr fds : r_lt ok r_complete = true -> os_epoll_wait s tr ep = Some fds ->
      ep_loop s K k_fd recv il (S n) ep ok ke tr =
      let w := OEpollWait ep (Some fds) in
      let (o, r) := ('(ok', ke') <- each_ready K k_fd recv il (firstn 64 fds) ok ke ;;
                     ep_loop s K k_fd recv il n ep ok' ke') (tr ++ [w]) in (w :: o, r).
    Proof. intros H1 H2. cbn [ep_loop]. rewrite H1. cbn [negb]. unfold bind at 1, epoll_wait. now rewrite H2. Qed.
    Lemma ep_loop_none n ep ok ke tr : r_lt ok r_complete = true -> os_epoll_wait s tr ep = None ->
      ep_loop s K k_fd recv il (S n) ep ok ke tr =
      let w := OEpollWait ep None in
      let (o, r) := ep_loop s K k_fd recv il n ep r_e_sys_api_epoll ke (tr ++ [w]) in (w :: o, r).
    Proof. intros H1 H2. cbn [ep_loop]. rewrite H1. cbn [negb]. unfold bind at 1, epoll_wait. now rewrite H2. Qed.
    Lemma ep_loop_done n ep ok ke tr : r_lt ok r_complete = false ->
      ep_loop s K k_fd recv il (S n) ep ok ke tr = ([], Ok (ok, ke)).
    Proof. intros H1. cbn [ep_loop]. now rewrite H1. Qed.

    Lemma ep_loop_stop n : forall ep ok ke,
      ends_after il completed (ep_loop s K k_fd recv il n ep ok ke) (ep_loop s K k_fd recv il (S n) ep ok ke).
    Proof.
      induction n as [|n IH]; intros ep ok ke.
      { intros tr o1 x o2 E _. cbn in E. destruct o1; discriminate. }
      intros tr o1 x o2 E Hx.
      destruct (r_lt ok r_complete) eqn:Elt.
      2:{ rewrite ep_loop_done in E by exact Elt. destruct o1; discriminate. }
      destruct (os_epoll_wait s tr ep) as [fds|] eqn:Ew.
      - rewrite (ep_loop_some _ _ _ _ _ fds Elt Ew) in E. rewrite (ep_loop_some _ _ _ _ _ fds Elt Ew). cbv zeta in *.
        set (w := OEpollWait ep (Some fds)) in *.
        pose proof (each_ready_quiet (firstn 64 fds) ok ke) as Hq.
        set (er := each_ready K k_fd recv il (firstn 64 fds) ok ke) in *.
        set (ka := fun x0 : result * K => let '(ok', ke') := x0 in ep_loop s K k_fd recv il n ep ok' ke') in *.
        set (kb := fun x0 : result * K => let '(ok', ke') := x0 in ep_loop s K k_fd recv il (S n) ep ok' ke') in *.
        destruct o1 as [|y o1].
        + destruct (bind er ka (tr ++ [w])) as [oe re] in E. cbn in E. injection E as <- _.
          destruct Hx as (ep' & fds' & l & Ex & El). injection Ex as <- <-.
          pose proof (each_ready_last l ok ke (tr ++ [w])) as Hl. rewrite <- El in Hl. fold er in Hl.
          specialize (Hq (tr ++ [w])). unfold bind. destruct (er (tr ++ [w])) as [oe2 re2]. cbn [fst snd] in *.
          destruct Hl as [(ke' & ->)|(u & ->)].
          * unfold kb. rewrite ep_loop_done by reflexivity. exists oe2. cbn [fst snd]. rewrite app_nil_r.
            split; [reflexivity|]. split; [exact Hq|]. left. eexists. split; reflexivity.
          * exists oe2. cbn [fst snd]. split; [reflexivity|]. split; [exact Hq|]. right. exists u. reflexivity.
        + destruct (bind er ka (tr ++ [w])) as [oe re] eqn:Eb. cbn in E. injection E as Ey E.
          assert (HA : ends_after il completed (bind er ka) (bind er kb)).
          { apply after_quiet; [exact Hq|apply cont_refl|]. intros [ok' ke']. apply IH. }
          destruct (HA (tr ++ [w]) o1 x o2) as (o3 & H1 & H2 & H3); [now rewrite Eb|exact Hx|].
          destruct (bind er kb (tr ++ [w])) as [oe' re']. cbn [fst snd] in *. exists o3. subst oe' y. auto.
      - rewrite (ep_loop_none _ _ _ _ _ Elt Ew) in E. rewrite (ep_loop_none _ _ _ _ _ Elt Ew). cbv zeta in *.
        set (w := OEpollWait ep None) in *.
        destruct (ep_loop s K k_fd recv il n ep r_e_sys_api_epoll ke (tr ++ [w])) as [oe re] eqn:Ee.
        destruct o1 as [|y o1]; cbn in E; injection E as Ey E.
        + subst x. destruct Hx as (ep' & fds' & l & Ex & El). discriminate.
        + destruct (IH ep r_e_sys_api_epoll ke (tr ++ [w]) o1 x o2) as (o3 & H1 & H2 & H3); [now rewrite Ee|exact Hx|].
          destruct (ep_loop s K k_fd recv il (S n) ep r_e_sys_api_epoll ke (tr ++ [w])) as [oe' re']. cbn [fst snd] in *.
          exists o3. subst oe' y. auto.
    Qed.

    Lemma platform_stop n mk mk' : every (Forall no_wait) mk -> continues mk mk' ->
      ends_after il (fun r => r = r_complete)
        (platform_watch s K k_fd recv il n mk) (platform_watch s K k_fd recv il (S n) mk').
    Proof.
      intros Hq Hc. unfold platform_watch. apply after_quiet; [exact Hq|exact Hc|]. intros [[ok ke] ep].
      eapply after_bind with (g := completed).
      - apply ep_loop_stop.
      - apply ep_loop_cont.
      - intros [ok' ke']. apply after_none. intros tr. repeat constructor.
      - intros [ok' ke'] tr H. unfold completed in H. cbn [fst] in H. subst ok'. cbn. split; [repeat constructor|].
        left. eexists. split; reflexivity.
    Qed.
  End Loop.
End Stop.

(** Nothing in the adapters throws. *)
Definition no_crash {A} (m : M A) : Prop := forall tr, snd (m tr) <> Crash.
Lemma nc_bind {A B} (m : M A) (k : A -> M B) : no_crash m -> (forall a, no_crash (k a)) -> no_crash (bind m k).
Proof.
  intros Hm Hk tr. unfold bind. specialize (Hm tr). destruct (m tr) as [o [a|u| |]]; cbn in *; try congruence.
  specialize (Hk a (tr ++ o)). now destruct (k a (tr ++ o)).
Qed.
Lemma nc_ret {A} (a : A) : no_crash (ret a). Proof. intros tr; discriminate. Qed.
Lemma nc_undef {A} u : no_crash (@undef A u). Proof. intros tr; discriminate. Qed.
Lemma nc_fuel {A} : no_crash (@no_fuel A). Proof. intros tr; discriminate. Qed.
Lemma nc_word n b o : no_crash (word_at n b o).
Proof. unfold word_at. cbv zeta. destruct (Nat.eqb _ n); [apply nc_ret|apply nc_undef]. Qed.
Lemma nc_byte b o : no_crash (byte_at b o).
Proof. unfold byte_at. destruct (nth_error _ _); [apply nc_ret|apply nc_undef]. Qed.
Lemma nc_cstr b o : no_crash (c_string b o).
Proof. unfold c_string. destruct (c_string_in _); [apply nc_ret|apply nc_undef]. Qed.
Ltac nc1 := first
  [ apply nc_ret | apply nc_undef | apply nc_fuel | apply nc_word | apply nc_byte | apply nc_cstr
  | apply nc_bind; [|intros]
  | match goal with |- no_crash (if ?c then _ else _) => destruct c
                  | |- no_crash (match ?c with _ => _ end) => destruct c
                  | |- no_crash (let _ := _ in _) => cbv zeta end
  | (intros ?tr; discriminate) ].
Ltac nc := repeat nc1.

Section NoCrash.
  Variable s : os.
  Lemma nc_in_mark d fd dm : no_crash (in_mark s d fd dm).
  Proof. unfold in_mark, send_msg, new_event. nc. Qed.
  Lemma nc_fa_mark d fd : no_crash (fa_mark s d fd).
  Proof. unfold fa_mark, send_msg, new_event. nc. Qed.
  Lemma nc_in_parse d b o t : no_crash (in_parse s d b o t).
  Proof. unfold in_parse, in_peek, in_mask, in_len, in_cookie, in_name, new_event, new_pair. nc. Qed.
  Lemma nc_in_loop fuel : forall fd b t e c dm rm, no_crash (in_loop s fuel fd b t e c dm rm).
  Proof.
    induction fuel as [|k IH]; intros; cbn [in_loop]; [nc|].
    unfold in_peek, in_mask, in_wd, in_len, send_msg, new_event.
    repeat first [apply IH | apply nc_in_mark | apply nc_in_parse | nc1].
  Qed.
  Lemma nc_in_recv ke : no_crash (in_recv s ke).
  Proof. unfold in_recv. repeat first [apply nc_in_loop | nc1]. Qed.
  Lemma nc_fa_pathof b m : no_crash (fa_pathof s b m).
  Proof. unfold fa_pathof, fa_handle, fa_handle_bytes. nc. Qed.
  Lemma nc_fa_ok b m l : no_crash (fan_event_ok b m l).
  Proof. unfold fan_event_ok, fa_event_len. nc. Qed.
  Lemma nc_fa_peek b m l : no_crash (fa_peek b m l).
  Proof. unfold fa_peek, fa_event_len. repeat first [apply nc_fa_ok | nc1]. Qed.
  Lemma nc_fa_parse b m l e : no_crash (fa_parse s b m l e).
  Proof.
    unfold fa_parse, fa_mask, fa_event_len, new_event, new_pair.
    repeat first [apply nc_fa_peek | apply nc_fa_pathof | nc1].
  Qed.
  Lemma nc_fa_loop fuel : forall fd b m l c, no_crash (fa_loop s fuel fd b m l c).
  Proof.
    induction fuel as [|k IH]; intros; cbn [fa_loop]; [nc|].
    unfold fa_vers, fa_evfd, fa_mask, fa_info_type, fa_mark_if_newdir.
    repeat first [apply IH | apply nc_fa_ok | apply nc_fa_parse | apply nc_fa_mark | nc1].
  Qed.
  Lemma nc_fa_recv ke : no_crash (fa_recv s ke).
  Proof. unfold fa_recv. repeat first [apply nc_fa_loop | nc1]. Qed.
End NoCrash.

Section Whole.
  Variable s : os.
  Variable path : text.
  Variable il : Z.

  Lemma no_wait_other x : other_obs x -> no_wait x \/ exists ep r, x = OEpollWait ep r.
  Proof. destruct x; cbn; eauto. Qed.

  Lemma quiet_walk {S} fuel p (f : text -> S -> M S) st :
    (forall p st, every (Forall no_wait) (f p st)) -> every (Forall no_wait) (walkdir s fuel p f st).
  Proof.
    intros H. apply ev_walkdir; auto; [apply closed_no_wait| |]; intros; repeat constructor.
  Qed.
  Lemma quiet_make_ep a b : every (Forall no_wait) (make_ep s a b).
  Proof.
    intros tr. unfold make_ep, bind, epoll_create, epoll_ctl, sys_close, ret. cbn [app].
    repeat match goal with |- context [if ?c then _ else _] => destruct c end; repeat constructor.
  Qed.
  Lemma quiet_in_make n : every (Forall no_wait) (in_make_sysres s n path il).
  Proof.
    pose proof (closed_no_wait s) as HP.
    unfold in_make_sysres. apply (ev_bind s _ HP); [intros tr; repeat constructor|]. intros fd. cbv zeta.
    destruct (fd <? 0)%Z; [apply (ev_ret s _ HP)|].
    apply (ev_bind s _ HP).
    { apply quiet_walk. intros p st. apply (ev_bind s _ HP); [apply (ev_in_mark s _ HP)|intros; apply (ev_ret s _ HP)]. }
    intros [|x dm]; [apply (ev_ret s _ HP)|].
    apply (ev_bind s _ HP); [apply quiet_make_ep|intros; apply (ev_ret s _ HP)].
  Qed.
  Lemma quiet_fa_make n : every (Forall no_wait) (fa_make_sysres s n path il).
  Proof.
    pose proof (closed_no_wait s) as HP.
    unfold fa_make_sysres. apply (ev_bind s _ HP); [intros tr; repeat constructor|]. intros fd. cbv zeta.
    destruct (fd <? 1)%Z; [apply (ev_ret s _ HP)|].
    apply (ev_bind s _ HP).
    { apply quiet_walk. intros p st. apply (ev_bind s _ HP); [apply (ev_fa_mark s _ HP)|intros; apply (ev_ret s _ HP)]. }
    intros _. apply (ev_bind s _ HP); [apply quiet_make_ep|]. intros ep.
    destruct (ep <? 1)%Z; [|apply (ev_ret s _ HP)].
    apply (ev_bind s _ HP); [intros tr; repeat constructor|intros; apply (ev_ret s _ HP)].
  Qed.

  Lemma run_inotify_stop n : ends_after il (fun r => r = r_complete) (run_inotify s n path il) (run_inotify s (S n) path il).
  Proof.
    apply platform_stop; [intros; apply ev_in_recv, closed_no_wait|intros; apply in_recv_stops|intros; apply nc_in_recv
      |apply quiet_in_make|apply in_make_cont].
  Qed.
  Lemma run_fanotify_stop n : ends_after il (fun r => r = r_complete) (run_fanotify s n path il) (run_fanotify s (S n) path il).
  Proof.
    apply platform_stop; [intros; apply ev_fa_recv, closed_no_wait|intros; apply fa_recv_stops|intros; apply nc_fa_recv
      |apply quiet_fa_make|apply fa_make_cont].
  Qed.

  (** The stop ends the adapter with success. *)
  Lemma linux_watch_stop n : ends_after il (fun b => b = true) (linux_watch s n path il) (linux_watch s (S n) path il).
  Proof.
    unfold linux_watch. apply after_bind with (g := fun r => r = r_complete).
    - unfold try_fanotify. apply after_quiet; [intros tr; repeat constructor|apply cont_refl|].
      intros u. destruct (u =? 0)%Z; [apply run_fanotify_stop|apply after_none; intros tr; constructor].
    - apply try_fanotify_cont.
    - intros r. apply after_bind with (g := fun r => r = r_complete).
      + destruct (r_eqb r _); [apply run_inotify_stop|apply after_none; intros tr; constructor].
      + destruct (r_eqb r _); [apply run_inotify_cont|apply cont_refl].
      + intros r'. apply after_none. destruct (r_ge r' r_e); intros tr; repeat constructor.
      + intros r' tr ->. cbn. split; [constructor|left; eauto].
    - intros r tr ->. cbn. split; [constructor|left; eauto].
  Qed.
End Whole.

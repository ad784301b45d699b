(** The watch class: what a log looks like, and progress. *)
From Verif Require Import Base EventModel SemabinModel WatchModel WatchSpec WatchFacts WatchStop WatchClaims.
Local Open Scope nat_scope.

Lemma live_event_ok abs t : live_ok abs (live_event true abs t). Proof. repeat split. Qed.
Lemma live_event_bad abs t : live_bad abs (live_event false abs t). Proof. repeat split. Qed.
Lemma die_event_ok abs t : die_ok abs (die_event true abs t). Proof. repeat split. Qed.
Lemma die_event_bad abs t : die_bad abs (die_event false abs t). Proof. repeat split. Qed.

Lemma received_acts st : received (acts_log st) = concat (map (fun a => match a with ACb e => [e] | _ => [] end) st).
Proof. induction st as [|a st IH]; [reflexivity|]. unfold acts_log in *. cbn. rewrite received_app, IH. destruct a; reflexivity. Qed.
Lemma received_acts_in st e : In e (received (acts_log st)) -> In (ACb e) st.
Proof.
  rewrite received_acts. intros H. apply in_concat in H as (x & Hx & He). apply in_map_iff in Hx as (a & <- & Ha).
  destruct a; cbn in He; try tauto. destruct He as [<-|[]]. exact Ha.
Qed.
Lemma acts_stop st : In AStop st -> In LStop (acts_log st).
Proof. intros H. apply in_concat. exists [LStop]. split; [|now left]. apply in_map_iff. exists AStop. auto. Qed.

Lemma checked_received abs pre l : checked abs pre l -> received l = [].
Proof. destruct 1; reflexivity. Qed.
Lemma checked_nocb abs pre l : checked abs pre l -> forall e, ~ In (LCb e) l.
Proof. destruct 1; cbn; intros e H0; intuition discriminate. Qed.

Lemma in_received e l : In (LCb e) l <-> In e (received l).
Proof. induction l as [|x l IH]; [reflexivity|]. destruct x; cbn; rewrite <- IH; intuition (try congruence; try discriminate). Qed.

Section Life.
  Variable pl : platform.
  Variable runs : text -> list act -> option bool -> Prop.
  Variable re : bool.
  Notation step := (step pl runs re).
  Notation reach := (reach pl runs re).

  (** ** C01 *)
  Definition live (abs : text) (e : event) : Prop := live_ok abs e \/ live_bad abs e.
  Definition die (abs : text) (e : event) : Prop := die_ok abs e \/ die_bad abs e.

  Definition life (fin : bool) (l : list event) : Prop :=
    (fin = false /\ l = []) \/
    (exists abs e mid, fin = false /\ l = e :: mid /\ live abs e /\ Forall ordinary mid) \/
    (exists abs e mid e', fin = true /\ l = e :: mid ++ [e'] /\ live abs e /\ Forall ordinary mid /\ die abs e').

  Fixpoint finw (w : wpc) : bool := match w with WDone _ => true | WIn k | WSelf k _ | WSelfWait k => finw k | _ => false end.

  Lemma live_b b abs t : live abs (live_event b abs t).
  Proof. destruct b; [left; apply live_event_ok|right; apply live_event_bad]. Qed.
  Lemma die_b b abs t : die abs (die_event b abs t).
  Proof. destruct b; [left; apply die_event_ok|right; apply die_event_bad]. Qed.

  Lemma shape_life (Hq : forall abs st r e, runs abs st r -> In (ACb e) st -> ordinary e) w l : shape runs w l -> life (finw w) (received l).
  Proof.
    induction 1; cbn [finw]; try exact IHshape.
    - left. auto.
    - left. auto.
    - left. split; [reflexivity|]. eapply checked_received; eauto.
    - right; left. exists abs, (live_event true abs t), []. rewrite received_app. erewrite checked_received by eauto.
      repeat split; auto. apply (live_b true).
    - right; left. exists abs, (live_event true abs t), (received (acts_log done)). rewrite received_app. erewrite checked_received by eauto.
      split; [auto|]. split; [reflexivity|]. split; [apply (live_b true)|]. apply Forall_forall. intros e He. apply received_acts_in in He.
      eapply Hq; [eassumption|]. apply in_app_iff. auto.
    - right; left. exists abs, (live_event false abs t), []. rewrite received_app. erewrite checked_received by eauto.
      repeat split; auto. apply (live_b false).
    - right; left. exists abs, (live_event true abs t), (received (acts_log st)). rewrite received_app. erewrite checked_received by eauto.
      split; [auto|]. split; [reflexivity|]. split; [apply (live_b true)|]. apply Forall_forall. intros e He. apply received_acts_in in He.
      eapply Hq; eassumption.
    - right; right. exists abs, (live_event false abs t), [], (die_event false abs t'). rewrite received_app. erewrite checked_received by eauto.
      repeat split; auto; [apply (live_b false)|apply (die_b false)].
    - right; right. exists abs, (live_event true abs t), (received (acts_log st)), (die_event b abs t'). rewrite received_app. erewrite checked_received by eauto.
      split; [auto|]. split; [cbn; now rewrite received_app|]. split; [apply (live_b true)|]. split; [|apply die_b].
      apply Forall_forall. intros e He. apply received_acts_in in He. eapply Hq; eassumption.
  Qed.

  (** ** C02 *)
  Lemma shape_live w l : shape runs w l ->
    forall e rest, received l = e :: rest ->
      (exists abs, live_ok abs e /\ accepted abs l) \/
      (exists abs, live_bad abs e /\ (rest = [] \/ exists e', rest = [e'] /\ die_bad abs e') /\ rejected l).
  Proof.
    assert (Hok : forall abs c l2 t, checked abs true c ->
      (forall x, In x l2 -> match x with LLook _ _ | LCheck _ => False | _ => True end) ->
      forall e rest, received (c ++ LCb (live_event true abs t) :: l2) = e :: rest ->
      live_ok abs e /\ accepted abs (c ++ LCb (live_event true abs t) :: l2)).
    { intros abs c l2 t Hc Hl e rest E. rewrite received_app in E. erewrite checked_received in E by eauto. cbn in E. injection E as <- _.
      inversion Hc; subst. split; [apply live_event_ok|]. unfold accepted. cbn. split; [auto|]. split; [auto|]. split.
      - intros v [H|[[= <-]|[H|H]]]; try discriminate; auto. destruct (Hl _ H).
      - intros a d [[= <- <-]|[H|[H|H]]]; try discriminate; auto. destruct (Hl _ H). }
    assert (Hbad : forall abs c l2 t, checked abs false c -> (l2 = [] \/ exists t', l2 = [LCb (die_event false abs t')]) ->
      forall e rest, received (c ++ LCb (live_event false abs t) :: l2) = e :: rest ->
      live_bad abs e /\ (rest = [] \/ exists e', rest = [e'] /\ die_bad abs e') /\ rejected (c ++ LCb (live_event false abs t) :: l2)).
    { intros abs c l2 t Hc Hl e rest E. rewrite received_app in E. erewrite checked_received in E by eauto. cbn in E. injection E as <- <-.
      split; [apply live_event_bad|]. split; [|split].
      - destruct Hl as [->|(t' & ->)]; [auto|right]. eexists; split; [reflexivity|apply die_event_bad].
      - intros p H. destruct Hl as [->|(t' & ->)]; inversion Hc; subst; cbn in H; intuition discriminate.
      - inversion Hc; subst; [left; exists a, d; cbn; auto|right; exists v; cbn; auto]. }
    assert (Hacts : forall st x, In x (acts_log st) -> match x with LLook _ _ | LCheck _ => False | _ => True end).
    { intros st x H. apply in_concat in H as (y & Hy & Hx). apply in_map_iff in Hy as ([] & <- & _); cbn in Hx; intuition (subst; auto). }
    induction 1; intros e rest E; try (eapply IHshape; eassumption); try discriminate.
    - erewrite checked_received in E by eauto. discriminate.
    - left. exists abs. eapply Hok; eauto. intros x [].
    - left. exists abs. eapply Hok; eauto. intros x [<-|Hx]; [exact I|eapply Hacts; eauto].
    - right. exists abs. eapply Hbad; eauto.
    - left. exists abs. eapply Hok; eauto. intros x [<-|Hx]; [exact I|eapply Hacts; eauto].
    - right. exists abs. eapply Hbad; eauto.
    - left. exists abs. eapply Hok; eauto. intros x [<-|Hx]; [exact I|]. apply in_app_iff in Hx as [Hx|[<-|[]]]; [eapply Hacts; eauto|exact I].
  Qed.

  (** ** C03 *)
  Definition got (P : text -> event -> Prop) (l : list entry) : Prop := exists abs e, In (LCb e) l /\ P abs e.



  Lemma shape_result (Hq : forall abs st r e, runs abs st r -> In (ACb e) st -> ordinary e) b l :
    shape runs (WDone b) l -> (b = true <-> got live_ok l /\ got die_ok l).
  Proof.
    intros S. inversion S as [| | | | | | |abs c t t' Hc|abs c t st b' t' Hc Hr| | |]; subst.
    - split; [discriminate|]. intros [_ (x & e & He & Hd)]. exfalso. apply in_app_iff in He as [He|He].
      + eapply checked_nocb; eauto.
      + destruct He as [[= <-]|[[= <-]|[]]]; destruct Hd as (E & F & _); [discriminate F|].
        unfold die_event in E. cbn in E. discriminate.
    - split.
      + intros ->. split; [exists abs, (live_event true abs t)|exists abs, (die_event true abs t')]; (split; [|repeat split]).
        * apply in_app_iff. cbn. auto.
        * apply in_app_iff. cbn. right. right. right. apply in_app_iff. cbn. auto.
      + intros [_ (x & e & He & Hd)]. destruct b; [reflexivity|]. exfalso. apply in_app_iff in He as [He|He].
        * eapply checked_nocb; eauto.
        * destruct He as [[= <-]|[[=]|He]]; [destruct Hd as (E & F & _); discriminate F|].
          apply in_app_iff in He as [He|[[= <-]|[]]]; [|destruct Hd as (E & _); discriminate E].
          apply in_received, received_acts_in in He. destruct Hd as (_ & F & G & _).
          destruct (Hq _ _ _ _ Hr He G) as [_ ?]. contradiction.
  Qed.

  Lemma in_wlog x l : of_watcher x = true -> (In x (wlog l) <-> In x l).
  Proof. intros H. unfold wlog. rewrite filter_In. tauto. Qed.
  Lemma wlog_in x l : In x (wlog l) -> In x l.
  Proof. unfold wlog. rewrite filter_In. tauto. Qed.
  Lemma got_wlog P l : got P (wlog l) <-> got P l.
  Proof. split; intros (a & e & H & Hp); exists a, e; (split; [|exact Hp]); apply (in_wlog (LCb e) l eq_refl); exact H. Qed.

  (** ** C04 *)
  Lemma wlog_split l w x l1 l2 : shape runs w (wlog l) -> of_watcher x = true -> l = l1 ++ x :: l2 -> wlog l = wlog l1 ++ x :: wlog l2.
  Proof. intros _ Hx ->. rewrite wlog_app. cbn. now rewrite Hx. Qed.

  Lemma app_eq_mid {A} (a : list A) x b c y d : a ++ x :: b = c ++ y :: d ->
    (exists m, c = a ++ x :: m /\ b = m ++ y :: d) \/ (a = c /\ x = y /\ b = d) \/ (exists m, a = c ++ y :: m /\ d = m ++ x :: b).
  Proof.
    revert c; induction a as [|z a IH]; intros [|z' c] E; cbn in E; injection E as -> E.
    - right; left. auto.
    - left. exists c. auto.
    - right; right. exists a. auto.
    - destruct (IH c E) as [(m & -> & ->)|[(-> & -> & ->)|(m & -> & ->)]]; [left; exists m; auto|right; left; auto|right; right; exists m; auto].
  Qed.

  Lemma shape_die (Ha : adapter_ok runs) w l : shape runs w l -> forall l1 e l2 abs, l = l1 ++ LCb e :: l2 -> die_ok abs e -> In LStop l1.
  Proof.
    destruct Ha as [Hq Hs].
    assert (Hc : forall abs abs0 b c l1 e l2 rest t, checked abs b c -> die_ok abs0 e -> c ++ LCb (live_event b abs t) :: rest = l1 ++ LCb e :: l2 ->
      exists m, l1 = c ++ LCb (live_event b abs t) :: m /\ rest = m ++ LCb e :: l2).
    { intros abs abs0 b c l1 e l2 rest t Hck Hd E. apply app_eq_mid in E as [H|[(-> & [= <-] & ->)|(m & -> & ->)]]; [exact H| |].
      - destruct Hd as (_ & F & _). discriminate F.
      - exfalso. eapply checked_nocb; [eauto|]. apply in_elt. }
    assert (Hacts : forall abs abs0 st r done m e l2, runs abs st r -> (forall x, In x done -> In x st) -> die_ok abs0 e -> acts_log done = m ++ LCb e :: l2 -> False).
    { intros abs abs0 st r done m e l2 Hr Hd He E.
      assert (Hin : In e (received (acts_log done))) by (rewrite E, received_app; apply in_elt).
      apply received_acts_in in Hin. destruct He as (_ & F & G & _). destruct (Hq _ _ _ _ Hr (Hd _ Hin) G) as [_ ?]. contradiction. }
    induction 1; intros l1 e l2 abs0 E Hd; try (eapply IHshape; eassumption).
    - destruct l1; discriminate.
    - destruct l1 as [|? [|]]; discriminate.
    - exfalso. eapply checked_nocb; [eassumption|]. rewrite E. apply in_elt.
    - eapply Hc in E as (m & _ & E); eauto. destruct m; discriminate.
    - eapply Hc in E as (m & _ & E); eauto. destruct m as [|y m]; [discriminate|]. injection E as _ E. exfalso.
      refine (Hacts abs abs0 (done ++ st) r done m e l2 H0 _ Hd E). intros x Hx. apply in_app_iff. auto.
    - eapply Hc in E as (m & _ & E); eauto. destruct m; discriminate.
    - eapply Hc in E as (m & _ & E); eauto. destruct m as [|y m]; [discriminate|]. injection E as _ E. exfalso.
      eapply (Hacts abs abs0); eauto.
    - eapply Hc in E as (m & _ & E); eauto. destruct m as [|y [|z m]]; [|discriminate|destruct m; discriminate]. injection E as <- _.
      destruct Hd as (F & _). discriminate F.
    - eapply Hc in E as (m & -> & E); eauto. destruct m as [|y m]; [discriminate|]. injection E as <- E.
      apply app_eq_mid in E as [(m' & -> & E)|[(E1 & [= <-] & _)|(m' & E & _)]].
      + destruct m'; discriminate.
      + subst. destruct b; [|destruct Hd as (F & _); discriminate F]. apply in_app_iff. right. right. right. apply acts_stop. eapply Hs; eauto.
      + exfalso. eapply (Hacts abs abs0); eauto.
  Qed.
End Life.

(** The watch class: an early stop, the shape of a life, progress. *)
From Verif Require Import Base EventModel SemabinModel WatchModel WatchSpec WatchFacts WatchStop.
Local Open Scope nat_scope.

Section Claims.
  Variable pl : platform.
  Variable runs : text -> list act -> option bool -> Prop.
  Variable re : bool.
  Notation step := (step pl runs re).
  Notation reach := (reach pl runs re).
  Notation w_step := (w_step pl runs re).

  (** ** A stop request answered before the path is looked at *)
  Definition early (l : list entry) : Prop := exists l1 a d l2, l = l1 ++ LLook a d :: l2 /\ In (LReleased released) l1.

  Definition idle_release (o : opc) : Prop :=
    match o with OClose _ RWrite | OClose _ (RStore _) | OClose _ RSignal | OClose _ (Ret error) | OClose _ (Ret pending) => False | _ => True end.
  Fixpoint barred (w : wpc) : Prop :=
    match w with
    | WCheck _ p => match p with QStart | QRead => True | QStore v | Ret v => v <> pending | _ => False end
    | WLive _ pre => pre = false
    | WDie _ pre post => pre = false /\ post = false
    | WDone b => b = false
    | WIn k | WSelf k _ | WSelfWait k => barred k
    | _ => False
    end.
  Definition looking (w : wpc) : Prop :=
    match w with WStart | WCheck _ QStart | WCheck _ QRead => True | _ => False end.
  Record ei (w : world) : Prop := {
    e_ret : forall d p, wt w = WStart -> ow w = OClose d p -> p = Ret released \/ p = RSignal -> is (sm w) = released;
    e_start : wt w = WStart -> In (LReleased released) (log w) -> is (sm w) = released /\ idle_release (ow w);
    e_noearly : wt w = WStart -> ~ early (log w);
    e_is : early (log w) -> looking (wt w) -> is (sm w) = released /\ idle_release (ow w);
    e_barred : early (log w) -> barred (wt w);
  }.

  Lemma early_app l x : early (l ++ [x]) -> early l \/ exists a d, x = LLook a d /\ In (LReleased released) l.
  Proof.
    intros (l1 & a & d & l2 & E & H). apply snoc_split in E as [(l2' & -> & ->)|(-> & Ey & ->)].
    - left. exists l1, a, d, l2'. auto.
    - right. eauto.
  Qed.

  (** The owner's release does nothing when already released. *)
  Lemma release_idle d p m m' p' : is m = released -> release_pc pl p -> idle_release (OClose d p) -> sem_step pl m p m' p' ->
    is m' = released /\ idle_release (OClose d p').
  Proof. intros E T H S. destruct S; cbn in *; try tauto; try congruence; auto. Qed.

  Lemma ei_step w w' : step w w' -> ti pl re w -> vi pl re w -> ei w -> ei w'.
  Proof.
    intros H Ht V I. destruct Ht as [Tw To Ti Tr]. destruct I as [I1 I2 I3 I4 I5]. destruct H as [m w o vd l m' w' l' H|m w o vd l m' o' vd' l' H]; cbn in *.
    - destruct H; cbn in *; rewrite ?app_nil_r in *.
      + split; cbn; try discriminate; try tauto.
      + split; cbn; try discriminate; try tauto.
        intros E _. apply early_app in E as [E|(a & d & [= <- <-] & E)]; [destruct (I3 eq_refl E)|auto].
      + assert (Hs : early l -> looking (WCheck abs p') -> is m' = released /\ idle_release o).
        { intros E L. destruct (I4 E) as [? ?]; [destruct H; cbn in *; try tauto|]. destruct H; cbn in *; try tauto; auto. }
        split; cbn; try discriminate; [exact Hs|].
        intros E. specialize (I5 E). pose proof (I4 E) as I6. unfold query_pc in Tw.
        destruct H; cbn in *; try tauto; try discriminate; try congruence.
        * destruct (I6 I) as [? _]. congruence.
        * destruct V as [D|[V _]]; [destruct D|]. destruct (I6 I) as [Hr Hi]. cbn in V.
          assert (0 < tokens m); [|lia]. apply V; [exact Hr|]. unfold signalling. destruct o as [|? []| | | |]; cbn in *; tauto.
        * destruct (I6 I) as [Hr _]. rewrite Hr. discriminate.
        * destruct (I6 I) as [Hr _]. rewrite Hr. discriminate.
      + split; cbn; try discriminate; try tauto. intros E. apply early_app in E as [E|(? & ? & [=] & _)]. specialize (I5 E). destruct v; tauto || congruence.
      + split; cbn; try discriminate; try tauto. intros E. apply early_app in E as [E|(? & ? & [=] & _)]. specialize (I5 E). subst pre. cbn. auto.
      + split; cbn; try discriminate; try tauto. intros E. apply early_app in E as [E|(? & ? & [=] & _)]. destruct (I5 E).
      + split; cbn; try discriminate; try tauto. intros E. apply early_app in E as [E|(? & ? & [=] & _)]. destruct (I5 E).
      + split; cbn; try discriminate; try tauto. intros E. apply early_app in E as [E|(? & ? & [=] & _)]. destruct (I5 E).
      + split; cbn; try discriminate; try tauto.
      + split; cbn; try discriminate; try tauto.
      + split; cbn; try discriminate; try tauto. intros E. apply early_app in E as [E|(? & ? & [=] & _)]. destruct (I5 E) as [-> ->]. reflexivity.
      + destruct k; cbn in *; try tauto; split; cbn; try discriminate; try tauto.
      + split; cbn; try discriminate; try tauto. intros E. apply early_app in E as [E|(? & ? & [=] & _)]. auto.
      + split; cbn; try discriminate; try tauto.
      + split; cbn; try discriminate; try tauto. intros E. apply early_app in E as [E|(? & ? & [=] & _)]. auto.
      + split; cbn; try discriminate; try tauto. intros E. apply early_app in E as [E|(? & ? & [=] & _)]. auto.
    - assert (En : forall x, (forall a d, x <> LLook a d) -> early (l ++ [x]) -> early l).
      { intros x Hx E. apply early_app in E as [E|(a & d & -> & _)]; [exact E|]. now destruct (Hx a d). }
      destruct H; cbn in *; rewrite ?app_nil_r in *.
      + split; cbn; try discriminate.
        * intros d p E [= <- <-] [?|?]; discriminate.
        * intros E Hin. apply in_app_iff in Hin as [Hin|[[=]|[]]]. destruct (I2 E Hin). auto.
        * intros E Ey. apply En in Ey; [|discriminate]. eapply I3; eauto.
        * intros Ey L. apply En in Ey; [|discriminate]. destruct (I4 Ey L); auto.
        * intros Ey. apply En in Ey; [|discriminate]. auto.
      + split; cbn; auto.
        * intros d p2 E [= <- <-] Hp. unfold release_pc in To. inversion H; subst; cbn in *; destruct Hp as [Hp|Hp]; try discriminate; auto; try tauto.
          -- now injection Hp.
          -- destruct (is m') eqn:Ei; try congruence. destruct (Ti eq_refl); discriminate.
          -- eapply I1; eauto.
        * intros E Hin. destruct (I2 E Hin) as [Hr Hi]. eapply (release_idle dtor); eauto.
        * intros Ey L. destruct (I4 Ey L) as [Hr Hi]. eapply (release_idle dtor); eauto.
      + split; cbn; auto; try discriminate.
        * intros E Hin. apply in_app_iff in Hin as [Hin|[[= ->]|[]]]; [destruct (I2 E Hin); auto|]. split; [eapply I1; eauto|exact I].
        * intros E Ey. apply En in Ey; [|discriminate]. eapply I3; eauto.
        * intros Ey L. apply En in Ey; [|discriminate]. destruct (I4 Ey L); auto.
        * intros Ey. apply En in Ey; [|discriminate]. auto.
      + split; cbn; auto; try discriminate.
        * intros E Hin. apply in_app_iff in Hin as [Hin|[[= ->]|[]]]; [destruct (I2 E Hin); auto|]. split; [eapply I1; eauto|exact I].
        * intros E Ey. apply En in Ey; [|discriminate]. eapply I3; eauto.
        * intros Ey L. apply En in Ey; [|discriminate]. destruct (I4 Ey L); auto.
        * intros Ey. apply En in Ey; [|discriminate]. auto.
      + split; cbn; auto; try discriminate.
      + split; cbn; auto; try discriminate.
        * intros E Hin. apply in_app_iff in Hin as [Hin|[[=]|[]]]. destruct (I2 E Hin); auto.
        * intros E Ey. apply En in Ey; [|discriminate]. eapply I3; eauto.
        * intros Ey L. apply En in Ey; [|discriminate]. destruct (I4 Ey L); auto.
        * intros Ey. apply En in Ey; [|discriminate]. auto.
      + split; cbn; auto; try discriminate.
        * intros E Hin. apply in_app_iff in Hin as [Hin|[[=]|[]]]. destruct (I2 E Hin); auto.
        * intros E Ey. apply En in Ey; [|discriminate]. eapply I3; eauto.
        * intros Ey L. apply En in Ey; [|discriminate]. destruct (I4 Ey L); auto.
        * intros Ey. apply En in Ey; [|discriminate]. auto.
      + split; cbn; auto; try discriminate.
        * intros E Hin. apply in_app_iff in Hin as [Hin|[[=]|[]]]. destruct (I2 E Hin); auto.
        * intros E Ey. apply En in Ey; [|discriminate]. eapply I3; eauto.
        * intros Ey L. apply En in Ey; [|discriminate]. destruct (I4 Ey L); auto.
        * intros Ey. apply En in Ey; [|discriminate]. auto.
  Qed.
  Lemma ei_reach w : reach constructed w -> ei w.
  Proof.
    intros H. remember constructed as w0. induction H; subst.
    - split; cbn; try discriminate; try tauto; [intros _|intros E _|intros E]; (intros (l1 & ? & ? & ? & E' & _) || destruct E as (l1 & ? & ? & ? & E' & _)); destruct l1; discriminate.
    - eapply ei_step; [eassumption|apply (ti_reach pl runs re); assumption|apply (vi_reach pl runs re); assumption|auto].
  Qed.
  (** After an early release no check answers pending. *)
  Definition ci (w : world) : Prop := early (log w) -> forall v, In (LCheck v) (log w) -> v <> pending.
  Lemma ci_reach w : reach constructed w -> ci w.
  Proof.
    intros H. remember constructed as w0. induction H as [|w0 w w' H IH S]; subst; [intros _ v []|].
    specialize (IH eq_refl). pose proof (ei_reach _ H) as [_ _ I3 _ I5]. pose proof (wi_reach _ _ _ _ H) as Sh.
    assert (G : forall l x, (forall a d, x <> LLook a d) -> (forall v, x <> LCheck v) ->
      (early l -> forall v, In (LCheck v) l -> v <> pending) -> early (l ++ [x]) -> forall v, In (LCheck v) (l ++ [x]) -> v <> pending).
    { intros l x Hx Hc Hl E v Hv. apply early_app in E as [E|(a & d & -> & _)]; [|now destruct (Hx a d)].
      apply in_app_iff in Hv as [Hv|[->|[]]]; [auto|now destruct (Hc v)]. }
    unfold ci in *. destruct S as [m w o vd l m' w' l' S|m w o vd l m' o' vd' l' S]; cbn in *.
    - destruct S; cbn in *; rewrite ?app_nil_r; auto; try (apply G; [discriminate|discriminate|exact IH]).
      + intros _ v Hv. exfalso. unfold wi in Sh. cbn in Sh. assert (E : filter of_watcher l = []) by (inversion Sh; reflexivity || congruence).
        apply in_app_iff in Hv as [Hv|[[=]|[]]]. 
        assert (In (LCheck v) (filter of_watcher l)) as Hw by (apply filter_In; auto). rewrite E in Hw. destruct Hw.
      + intros _ v Hv. exfalso. unfold wi in Sh. cbn in Sh. assert (E : filter of_watcher l = []) by (inversion Sh; reflexivity || congruence).
        apply in_app_iff in Hv as [Hv|[[=]|[]]].
        assert (In (LCheck v) (filter of_watcher l)) as Hw by (apply filter_In; auto). rewrite E in Hw. destruct Hw.
      + intros E v' Hv. apply early_app in E as [E|(? & ? & [=] & _)]. apply in_app_iff in Hv as [Hv|[[= <-]|[]]]; [auto|].
        specialize (I5 E). exact I5.
    - destruct S; cbn in *; rewrite ?app_nil_r; auto; try (apply G; [discriminate|discriminate|exact IH]).
  Qed.
End Claims.

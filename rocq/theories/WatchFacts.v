(** Invariants of the watch class (C01-C08). *)
From Verif Require Import Base EventModel SemabinModel WatchModel WatchSpec.
Local Open Scope nat_scope.

Lemma received_app a b : received (a ++ b) = received a ++ received b.
Proof. induction a as [|x a IH]; [reflexivity|]. destruct x; cbn; rewrite ?IH; reflexivity. Qed.

(** Entries written by the watching thread itself. *)
Definition of_watcher (x : entry) : bool :=
  match x with LLook _ _ | LCheck _ | LCb _ | LWatch _ | LStop => true | _ => false end.
Definition wlog (l : list entry) : list entry := filter of_watcher l.
Lemma wlog_app a b : wlog (a ++ b) = wlog a ++ wlog b.
Proof. apply filter_app. Qed.
Lemma received_wlog l : received (wlog l) = received l.
Proof. unfold wlog. induction l as [|x l IH]; [reflexivity|]. destruct x; cbn; rewrite ?IH; reflexivity. Qed.

Section Inv.
  Variable pl : platform.
  Variable runs : text -> list act -> option bool -> Prop.
  Variable re : bool.

  (** ** What the watching thread has written *)
  Definition acts_log (st : list act) : list entry :=
    concat (map (fun a => match a with ACb e => [LCb e] | AStop => [LStop] | AOther => [] end) st).

  Inductive checked : text -> bool -> list entry -> Prop :=
  | Ck_bad a d : ~ (exists abs, a = Some abs /\ d = Some true) -> checked (match a with Some x => x | None => [] end) false [LLook a d]
  | Ck_stop abs v : v <> pending -> checked abs false [LLook (Some abs) (Some true); LCheck v]
  | Ck_ok abs : checked abs true [LLook (Some abs) (Some true); LCheck pending].

  Inductive shape : wpc -> list entry -> Prop :=
  | Sh_start : shape WStart []
  | Sh_check abs p : shape (WCheck abs p) [LLook (Some abs) (Some true)]
  | Sh_live abs pre l : checked abs pre l -> shape (WLive abs pre) l
  | Sh_adapt abs l t : checked abs true l -> shape (WAdapt abs) (l ++ [LCb (live_event true abs t)])
  | Sh_run abs l t done st r : checked abs true l -> runs abs (done ++ st) r ->
      shape (WRun abs st r) (l ++ LCb (live_event true abs t) :: LWatch abs :: acts_log done)
  | Sh_die_bad abs l t : checked abs false l -> shape (WDie abs false false) (l ++ [LCb (live_event false abs t)])
  | Sh_die_run abs l t st b : checked abs true l -> runs abs st (Some b) ->
      shape (WDie abs true b) (l ++ LCb (live_event true abs t) :: LWatch abs :: acts_log st)
  | Sh_done_bad abs l t t' : checked abs false l ->
      shape (WDone false) (l ++ [LCb (live_event false abs t); LCb (die_event false abs t')])
  | Sh_done_run abs l t st b t' : checked abs true l -> runs abs st (Some b) ->
      shape (WDone b) (l ++ LCb (live_event true abs t) :: LWatch abs :: acts_log st ++ [LCb (die_event b abs t')])
  | Sh_in k l : shape k l -> shape (WIn k) l
  | Sh_self k p l : shape k l -> shape (WSelf k p) l
  | Sh_selfwait k l : shape k l -> shape (WSelfWait k) l.

  Lemma acts_log_app a b : acts_log (a ++ b) = acts_log a ++ acts_log b.
  Proof. unfold acts_log. now rewrite map_app, concat_app. Qed.

  Lemma shape_step vd m w m' w' l' l : w_step pl runs re vd m w m' w' l' -> shape w l -> shape w' (l ++ wlog l').
  Proof.
    intros H S. destruct H; cbn [wlog filter of_watcher]; rewrite ?app_nil_r; try (constructor; exact S).
    - inversion S; subst. cbn. do 2 constructor. assumption.
    - inversion S; subst. constructor.
    - inversion S; subst. constructor.
    - inversion S; subst. cbn. constructor. destruct v; constructor; discriminate.
    - inversion S; subst. constructor. destruct pre; constructor; assumption.
    - inversion S; subst. rewrite <- app_assoc. cbn. apply (Sh_run _ _ _ []); assumption.
    - inversion S; subst. constructor. rewrite <- app_assoc. cbn.
      replace (acts_log done ++ [LCb e]) with (acts_log (done ++ [ACb e])) by (rewrite acts_log_app; reflexivity).
      constructor; [assumption|]. rewrite <- app_assoc. assumption.
    - inversion S; subst. rewrite <- app_assoc. cbn.
      replace (acts_log done ++ [LStop]) with (acts_log (done ++ [AStop])) by (rewrite acts_log_app; reflexivity).
      constructor; [assumption|]. rewrite <- app_assoc. assumption.
    - inversion S; subst.
      replace (acts_log done) with (acts_log (done ++ [AOther])) by (rewrite acts_log_app; cbn; now rewrite app_nil_r).
      constructor; [assumption|]. rewrite <- app_assoc. assumption.
    - inversion S as [| | | |? ? ? done ? ? Hc Hr| | | | | | |]; subst. rewrite app_nil_r in Hr. constructor; assumption.
    - constructor. inversion S; subst; rewrite <- app_assoc; cbn; econstructor; eassumption.
    - inversion S; subst. assumption.
    - inversion S; subst. constructor; assumption.
    - inversion S; subst. constructor; assumption.
    - inversion S; subst. constructor; assumption.
    - inversion S; subst. constructor; assumption.
  Qed.

  Definition wi (w : world) : Prop := shape (wt w) (wlog (log w)).

  Lemma o_step_wlog w m vd o m' vd' o' l' : o_step pl w m vd o m' vd' o' l' -> wlog l' = [].
  Proof. destruct 1; reflexivity. Qed.

  Lemma wi_step w w' : step pl runs re w w' -> wi w -> wi w'.
  Proof.
    intros H I. destruct H as [m w o vd l m' w' l' H|m w o vd l m' o' vd' l' H]; unfold wi in *; cbn in *; rewrite wlog_app.
    - eapply shape_step; eassumption.
    - rewrite (o_step_wlog _ _ _ _ _ _ _ _ H). now rewrite app_nil_r.
  Qed.

  Lemma wi_reach w : reach pl runs re constructed w -> wi w.
  Proof. intros H. remember constructed as w0. induction H; subst; [constructor|]. eapply wi_step; eauto. Qed.

  (** ** Once joined *)
  Definition good_close (x : entry) : bool := match x with LClosed v _ => match v with error => false | _ => true end | LGone => true | _ => false end.
  Definition any_good (l : list entry) : bool := existsb good_close l.

  Arguments any_good : simpl never.
  Record ji (w : world) : Prop := {
    j_valid : valid w = false -> exists b, wt w = WDone b;
    j_good : any_good (log w) = true -> (valid w = false \/ ow w = OGone) /\ exists b, wt w = WDone b;
    j_after : forall a x b, log w = a ++ x :: b -> good_close x = true -> received b = [];
    j_ret : forall d v b, ow w = ORet d v b -> v <> error ->
      valid w = false /\ (any_good (log w) = true /\ b = false \/ any_good (log w) = false /\ wt w = WDone b);
    j_first : forall v b l1 l2, log w = l1 ++ LClosed v b :: l2 -> v <> error -> any_good l1 = false -> wt w = WDone b;
    j_later : forall v b l1 l2, log w = l1 ++ LClosed v b :: l2 -> any_good l1 = true -> b = false;
    j_err : forall b l1 l2, log w = l1 ++ LClosed error b :: l2 -> b = false;
    j_eret : forall d b, ow w = ORet d error b -> b = false;
    j_vg : valid w = false -> any_good (log w) = false -> exists d v b, ow w = ORet d v b /\ v <> error;
    j_wait : forall d v, ow w = OWait d v -> valid w = true /\ v <> error;
    j_gone : ow w = OGone -> any_good (log w) = true;
  }.

  Lemma snoc_split (l : list entry) x l1 y l2 : l ++ [x] = l1 ++ y :: l2 ->
    (exists l2', l2 = l2' ++ [x] /\ l = l1 ++ y :: l2') \/ (l2 = [] /\ y = x /\ l1 = l).
  Proof.
    intros E. destruct (exists_last (l := y :: l2)) as (z & u & Ez); [discriminate|].
    rewrite Ez, app_assoc in E. apply app_inj_tail in E as [E ->].
    destruct z as [|y' z]; cbn in Ez.
    - injection Ez as -> ->. right. rewrite app_nil_r in E. auto.
    - injection Ez as <- ->. left. eauto.
  Qed.
  Lemma any_good_app a b : any_good (a ++ b) = any_good a || any_good b.
  Proof. apply existsb_app. Qed.
  Lemma split_snoc_any l x : any_good (l ++ [x]) = any_good l || good_close x.
  Proof. rewrite any_good_app. unfold any_good at 2. cbn. now rewrite orb_false_r. Qed.
  Lemma any_good_cons x l : any_good (x :: l) = good_close x || any_good l. Proof. reflexivity. Qed.

  Lemma w_not_done vd m w m' w' l' : w_step pl runs re vd m w m' w' l' -> forall b, w <> WDone b.
  Proof. destruct 1; intros; discriminate. Qed.

  (** Steps of the watching thread and the log. *)
  Lemma w_step_log vd m w m' w' l' : w_step pl runs re vd m w m' w' l' ->
    l' = [] \/ exists x, l' = [x] /\ (good_close x = true -> vd = false) /\ x <> LGone /\ (forall v b, x = LClosed v b -> b = false).
  Proof.
    destruct 1; auto; right; eexists; (split; [reflexivity|]); repeat split; try discriminate.
    - cbn. destruct H as [->| ->]; [discriminate|auto].
    - intros v' b [= <- <-]. reflexivity.
  Qed.

  Lemma ji_step w w' : step pl runs re w w' -> ji w -> ji w'.
  Proof.
    intros H I. destruct H as [m w o vd l m' w' l' H|m w o vd l m' o' vd' l' H].
    - pose proof (w_not_done _ _ _ _ _ _ H) as Hn. apply w_step_log in H.
      destruct I as [I1 I2 I3 I4 I5 I6 I7 I8 I9 I10 I11]. cbn in *.
      assert (Ev : vd = true). { destruct vd; auto. destruct (I1 eq_refl) as [b Hb]. now destruct (Hn b). }
      assert (Eg : any_good l = false). { destruct (any_good l) eqn:G; auto. destruct (I2 eq_refl) as [_ [b Hb]]. now destruct (Hn b). }
      assert (Er : forall d v b, o = ORet d v b -> v = error).
      { intros d v b E. destruct v; auto; destruct (I4 _ _ _ E) as [? _]; congruence. }
      subst vd. destruct H as [->|(x & -> & Hx & Hg & Hc)].
      + rewrite app_nil_r. split; cbn; eauto; try discriminate.
        * rewrite Eg. discriminate.
        * intros d v b E Hv. apply Er in E. congruence.
        * intros v b l1 l2 E Hv Hl. exfalso. rewrite E, any_good_app in Eg. apply orb_false_iff in Eg as [_ Eg]. rewrite any_good_cons in Eg. destruct v; cbn in Eg; congruence.
      + assert (Gx : good_close x = false) by (destruct (good_close x); auto; discriminate Hx; auto).
        assert (Eg' : any_good (l ++ [x]) = false) by (rewrite split_snoc_any, Eg, Gx; reflexivity).
        split; cbn; eauto; try discriminate; rewrite ?Eg'; try discriminate.
        * intros a y b E Hy. exfalso. rewrite E, any_good_app in Eg'. apply orb_false_iff in Eg' as [_ Eg']. rewrite any_good_cons, Hy in Eg'. discriminate.
        * intros d v b E Hv. apply Er in E. congruence.
        * intros v b l1 l2 E Hv Hl. exfalso. rewrite E, any_good_app in Eg'. apply orb_false_iff in Eg' as [_ Eg']. rewrite any_good_cons in Eg'. destruct v; cbn in Eg'; congruence.
        * intros v b l1 l2 E Hl. exfalso. rewrite E, any_good_app in Eg'. apply orb_false_iff in Eg' as [Eg' _]. congruence.
        * intros b l1 l2 E. apply snoc_split in E as [(l2' & -> & ->)|(-> & Ey & ->)]; [eapply I7; reflexivity|eapply Hc; symmetry; exact Ey].
        * intros E. apply I11 in E. congruence.
    - destruct I as [I1 I2 I3 I4 I5 I6 I7 I8 I9 I10 I11]. cbn in *.
      assert (Lnil' : forall x, (forall e, x <> LCb e) -> (forall v b, x <> LClosed v b) ->
        (forall a y b, l ++ [x] = a ++ y :: b -> good_close y = true -> received b = []) /\
        (forall v b l1 l2, l ++ [x] = l1 ++ LClosed v b :: l2 -> v <> error -> any_good l1 = false -> w = WDone b) /\
        (forall v b l1 l2, l ++ [x] = l1 ++ LClosed v b :: l2 -> any_good l1 = true -> b = false) /\
        (forall b l1 l2, l ++ [x] = l1 ++ LClosed error b :: l2 -> b = false)).
      { intros x Nx Cx. repeat split.
        - intros a y b E Hy. apply snoc_split in E as [(l2' & -> & ->)|(-> & Ey & ->)]; [|reflexivity].
          rewrite received_app, (I3 a y l2' eq_refl Hy). destruct x; try reflexivity. now destruct (Nx e).
        - intros v b l1 l2 E. apply snoc_split in E as [(l2' & -> & ->)|(-> & Ey & ->)]; [eapply I5; reflexivity|]. now destruct (Cx v b).
        - intros v b l1 l2 E. apply snoc_split in E as [(l2' & -> & ->)|(-> & Ey & ->)]; [eapply I6; reflexivity|]. now destruct (Cx v b).
        - intros b l1 l2 E. apply snoc_split in E as [(l2' & -> & ->)|(-> & Ey & ->)]; [eapply I7; reflexivity|]. now destruct (Cx error b). }
      assert (Lnil : forall x, good_close x = false -> (forall e, x <> LCb e) -> (forall v b, x <> LClosed v b) ->
        (any_good (l ++ [x]) = any_good l) /\
        (forall a y b, l ++ [x] = a ++ y :: b -> good_close y = true -> received b = []) /\
        (forall v b l1 l2, l ++ [x] = l1 ++ LClosed v b :: l2 -> v <> error -> any_good l1 = false -> w = WDone b) /\
        (forall v b l1 l2, l ++ [x] = l1 ++ LClosed v b :: l2 -> any_good l1 = true -> b = false) /\
        (forall b l1 l2, l ++ [x] = l1 ++ LClosed error b :: l2 -> b = false)).
      { intros x Gx Nx Cx. split; [now rewrite split_snoc_any, Gx, orb_false_r|now apply Lnil']. }
      assert (Lclose : forall d v b o2, o2 <> OGone -> o2 = OIdle \/ o2 = OFuture -> o = ORet d v b ->
        ji (World m w o2 vd (l ++ [LClosed v b]))).
      { intros d v b o2 Ho Ho2 Eo.
        assert (G : any_good (l ++ [LClosed v b]) = true -> vd = false).
        { rewrite split_snoc_any. intros G. apply orb_true_iff in G as [G|G].
          - destruct (I2 G) as [[?|?] ?]; [assumption|subst; discriminate].
          - apply (I4 d v b Eo). intros ->. discriminate. }
        split; cbn; eauto.
        - intros HG. apply G in HG. split; [left; exact HG|apply I1, HG].
        - intros a y c E Hy. apply snoc_split in E as [(l2' & -> & ->)|(-> & Ey & ->)]; [|reflexivity].
          rewrite received_app, (I3 a y l2' eq_refl Hy). reflexivity.
        - intros ? ? ? E. destruct Ho2; subst; discriminate.
        - intros v' b' l1 l2 E Hv Hl. apply snoc_split in E as [(l2' & -> & ->)|(-> & [= -> ->] & ->)]; [eapply I5; eauto|].
          destruct (I4 d v b Eo Hv) as (_ & [[? ?]|[? ?]]); [congruence|assumption].
        - intros v' b' l1 l2 E Hl. apply snoc_split in E as [(l2' & -> & ->)|(-> & [= -> ->] & ->)]; [eapply I6; eauto|].
          destruct v; [| |now apply (I8 d)]; destruct (I4 d _ b Eo) as (_ & [[? ?]|[? ?]]); congruence.
        - intros b' l1 l2 E. apply snoc_split in E as [(l2' & -> & ->)|(-> & [= <- ->] & ->)]; [eapply I7; eauto|now apply (I8 d)].
        - intros ? ? E. destruct Ho2; subst; discriminate.
        - intros Ev. rewrite split_snoc_any. intros E. apply orb_false_iff in E as [E1 E2].
          destruct (I9 Ev E1) as (d' & v' & b' & E & Hv). rewrite Eo in E. injection E as <- <- <-. destruct v; discriminate || congruence.
        - intros ? ? E. destruct Ho2; subst; discriminate. }
      destruct H.
      + destruct (Lnil LRequest) as (L0 & L1 & L2 & L3 & L4); try reflexivity; try discriminate.
        split; cbn; rewrite ?L0; eauto; try discriminate.
        * intros G. destruct (I2 G) as [[?|?] ?]; [auto|discriminate].
        * intros E G. destruct (I9 E G) as (? & ? & ? & ? & ?). discriminate.
      + rewrite app_nil_r. split; cbn; eauto; try discriminate.
        * intros G. destruct (I2 G) as [[?|?] ?]; [auto|discriminate].
        * intros E G. destruct (I9 E G) as (? & ? & ? & ? & ?). discriminate.
      + destruct (Lnil (LReleased v)) as (L0 & L1 & L2 & L3 & L4); try reflexivity; try discriminate.
        split; cbn; rewrite ?L0; eauto; try discriminate.
        * intros G. destruct (I2 G) as [[?|?] ?]; discriminate.
        * intros d v' [= <- <-]. auto.
      + destruct (Lnil (LReleased v)) as (L0 & L1 & L2 & L3 & L4); try reflexivity; try discriminate.
        split; cbn; rewrite ?L0; eauto; try discriminate.
        * intros G. destruct (I2 G) as [[?|?] ?]; [auto|discriminate].
        * intros d v' b [= <- <- <-] Hv. destruct H as [?|H]; [congruence|]. split; [exact H|].
          destruct (any_good l) eqn:G; auto. destruct (I9 H eq_refl) as (? & ? & ? & ? & ?). discriminate.
        * intros d b [= <- _ <-]. reflexivity.
        * intros E G. destruct (I9 E G) as (? & ? & ? & ? & ?). discriminate.
      + rewrite app_nil_r. split; cbn; eauto; try discriminate.
        * intros d v' b' [= <- <- <-] Hv. split; [reflexivity|]. destruct (I10 _ _ eq_refl) as [Evd _].
          right. split; [|assumption]. destruct (any_good l) eqn:G; auto. destruct (I2 eq_refl) as [[?|?] _]; congruence.
        * intros d b' [= <- -> <-]. destruct (I10 _ _ eq_refl) as [_ ?]. congruence.
        * intros _ _. exists dtor, v, b. split; [reflexivity|]. apply (I10 _ _ eq_refl).
      + eapply Lclose; [discriminate|auto|reflexivity].
      + eapply Lclose; [discriminate|auto|reflexivity].
      + destruct (Lnil' LGone) as (L1 & L2 & L3 & L4); try discriminate.
        assert (Hd : exists b, w = WDone b) by (destruct H as [H|H]; [apply I1, H|exact H]).
        split; cbn; rewrite ?split_snoc_any; cbn; rewrite ?orb_true_r; eauto; try discriminate.
  Qed.

  Lemma ji_reach w : reach pl runs re constructed w -> ji w.
  Proof.
    intros H. remember constructed as w0. induction H; subst; [|eapply ji_step; eauto].
    split; cbn; try discriminate; intros; destruct l1 || destruct a; discriminate.
  Qed.

  Lemma any_good_in l : any_good l = true <-> exists x, In x l /\ good_close x = true.
  Proof. apply existsb_exists. Qed.
End Inv.

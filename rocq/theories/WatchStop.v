(** Further invariants of the watch class: stop requests and their visibility. *)
From Verif Require Import Base EventModel SemabinModel WatchModel WatchSpec WatchFacts.
Local Open Scope nat_scope.

  Definition query_pc (pl : platform) (p : pc) : Prop :=
    match pl with
    | Linux _ => match p with QStart | QRead | QStore _ | Ret _ => True | _ => False end
    | _ => match p with QStart | Ret _ => True | _ => False end
    end.
  Definition release_pc (pl : platform) (p : pc) : Prop :=
    match pl with
    | Linux _ => match p with RStart | RWrite | RStore released | RStore error | Ret released | Ret error => True | _ => False end
    | Darwin => match p with RStart | RSignal | Ret released => True | _ => False end
    | Other => match p with RStart | Ret released => True | _ => False end
    end.

Section Inv.
  Variable pl : platform.
  Variable runs : text -> list act -> option bool -> Prop.
  Variable re : bool.
  Notation step := (step pl runs re).
  Notation reach := (reach pl runs re).
  Notation w_step := (w_step pl runs re).

  (** ** Where threads can be *)
  Definition plain (k : wpc) : Prop :=
    match k with WAdapt _ | WDie _ _ _ | WRun _ _ _ | WDone _ => True | _ => False end.
  Record ti (w : world) : Prop := {
    t_w : match wt w with WCheck _ p => query_pc pl p | WIn k | WSelfWait k => plain k | WSelf k p => plain k /\ release_pc pl p | _ => True end;
    t_o : match ow w with OClose _ p => release_pc pl p | OWait _ v => v = released | ORet _ v _ => v = error -> exists b, pl = Linux b | _ => True end;
    t_i : is (sm w) = error -> exists b, pl = Linux b;
    t_re : match wt w with WSelf _ _ | WSelfWait _ => re = true | _ => True end;
  }.
  Lemma q_step m p m' p' : query_pc pl p -> sem_step pl m p m' p' -> query_pc pl p' /\ (is m' = error -> (exists b, pl = Linux b) \/ is m = error).
  Proof. intros Hq H. unfold query_pc in *. destruct H; cbn in *; try tauto; split; auto; intros; eauto. Qed.
  Lemma r_step m p m' p' : release_pc pl p -> sem_step pl m p m' p' -> release_pc pl p' /\ (is m' = error -> (exists b, pl = Linux b) \/ is m = error).
  Proof.
    intros Hq H. unfold release_pc in *. destruct H; cbn in *; try tauto; split; auto; intros; eauto; try discriminate.
  Qed.
  Lemma ti_step w w' : step w w' -> ti w -> ti w'.
  Proof.
    intros H [Tw To Ti Tr]. destruct H as [m w o vd l m' w' l' H|m w o vd l m' o' vd' l' H]; cbn in *.
    - destruct H; split; cbn in *; auto; try tauto.
      all: try (unfold query_pc, release_pc; destruct pl; exact I).
      + exact (proj1 (q_step _ _ _ _ Tw H)).
      + intros E. destruct (q_step _ _ _ _ Tw H) as [_ Hi]. destruct (Hi E) as [?|?]; auto.
      + destruct pre; exact I.
      + destruct k; cbn in *; tauto.
      + destruct k; cbn in *; tauto.
      + split; [exact Tw|]. unfold query_pc, release_pc; destruct pl; exact I.
      + split; [tauto|]. exact (proj1 (r_step _ _ _ _ (proj2 Tw) H)).
      + intros E. destruct (r_step _ _ _ _ (proj2 Tw) H) as [_ Hi]. destruct (Hi E) as [?|?]; auto.
    - destruct H; split; cbn in *; auto; try tauto.
      + unfold query_pc, release_pc; destruct pl; exact I.
      + exact (proj1 (r_step _ _ _ _ To H)).
      + intros E. destruct (r_step _ _ _ _ To H) as [_ Hi]. destruct (Hi E) as [?|?]; auto.
      + unfold release_pc in To. destruct pl; destruct v; tauto || congruence.
      + intros ->. unfold release_pc in To. destruct pl; try tauto. eauto.
      + intros ->. discriminate.
  Qed.
  Lemma ti_reach w : reach constructed w -> ti w.
  Proof. intros H. remember constructed as w0. induction H; subst; [split; cbn; auto; discriminate|]. eapply ti_step; eauto. Qed.

  (** ** Nothing happens to the flag before a request *)
  Definition untouched (w : world) : Prop :=
    sm w = sem_new /\ ow w = OIdle /\ match wt w with WSelf _ _ | WSelfWait _ => False | WCheck _ p => p = QStart \/ p = Ret pending | _ => True end.
  Record ri (w : world) : Prop := {
    r_req : In LRequest (log w) \/ untouched w;
    r_stop : forall l1 l2, log w = l1 ++ LStop :: l2 -> In LRequest l1;
    r_check : forall l1 v l2, log w = l1 ++ LCheck v :: l2 -> v <> pending -> In LRequest l1;
  }.
  Lemma ri_step w w' : step w w' -> ti w -> ri w -> ri w'.
  Proof.
    intros H Ht [R S C]. destruct Ht as [Tw To _ _]. destruct H as [m w o vd l m' w' l' H|m w o vd l m' o' vd' l' H]; unfold untouched in *; cbn in *.
    - assert (R' : In LRequest (l ++ l') \/ m' = sem_new /\ o = OIdle /\ match w' with WSelf _ _ | WSelfWait _ => False | WCheck _ p => p = QStart \/ p = Ret pending | _ => True end).
      { destruct R as [R|(-> & -> & R)]; [left; apply in_app_iff; auto|].
        destruct H; cbn in *; try tauto; try (right; split; [reflexivity|split; [reflexivity|exact I || (left; reflexivity)]]).
        - right. destruct R as [->| ->]; [|inversion H]. inversion H; subst; cbn in *; try congruence; auto.
        - right. destruct k; cbn in *; tauto.
        - left. rewrite in_app_iff. cbn. auto. }
      destruct H; rewrite ?app_nil_r in *; split; cbn; auto.
      all: try (intros l1 l2 E; apply snoc_split in E as [(l2' & -> & ->)|(-> & Ey & ->)]; [eapply S; reflexivity|]; try discriminate).
      all: try (intros l1 v' l2 E Hv'; apply snoc_split in E as [(l2' & -> & ->)|(-> & Ey & ->)]; [eapply C; [reflexivity|exact Hv']|]; try discriminate).
      + injection Ey as ->. destruct R as [R|(_ & _ & [R|R])]; [exact R|discriminate|congruence].
      + destruct R as [R|(-> & _ & _)]; [exact R|]. exfalso. unfold stop_visible in H. cbn in H. destruct pl; [lia|destruct H; [discriminate|lia]|discriminate].
    - assert (R' : In LRequest (l ++ l') \/ m' = sem_new /\ o' = OIdle /\ match w with WSelf _ _ | WSelfWait _ => False | WCheck _ p => p = QStart \/ p = Ret pending | _ => True end).
      { destruct R as [R|(-> & -> & R)]; [left; apply in_app_iff; auto|].
        inversion H; subst; left; rewrite in_app_iff; cbn; auto. }
      destruct H; rewrite ?app_nil_r in *; split; cbn; auto.
      all: try (intros l1 l2 E; apply snoc_split in E as [(l2' & -> & ->)|(-> & Ey & ->)]; [eapply S; reflexivity|]; try discriminate).
      all: try (intros l1 v' l2 E Hv'; apply snoc_split in E as [(l2' & -> & ->)|(-> & Ey & ->)]; [eapply C; [reflexivity|exact Hv']|]; try discriminate).
  Qed.
  Lemma ri_reach w : reach constructed w -> ri w.
  Proof.
    intros H. assert (ti w /\ ri w) as [_ ?]; [|assumption]. remember constructed as w0. induction H; subst.
    - split; [split; cbn; auto; discriminate|]. split; cbn; [right; repeat split| |]; [intros l1 l2 E|intros l1 v l2 E]; destruct l1; discriminate.
    - destruct IHreach as [T R]; [reflexivity|]. split; [eapply ti_step; eauto|eapply ri_step; eauto].
  Qed.

  (** ** A released stop is visible, unless nobody will look *)
  Fixpoint doomed (w : wpc) : Prop :=
    match w with
    | WStart => False
    | WCheck _ p => match p with QStore v | Ret v => v <> pending | _ => False end
    | WLive _ pre => pre = false \/ re = true
    | WAdapt _ | WRun _ _ _ | WSelf _ _ | WSelfWait _ => re = true
    | WDie _ _ _ | WDone _ => True
    | WIn k => doomed k
    end.
  Definition seen (o : opc) : Prop :=
    match o with OClose _ (RStore released) | OClose _ (Ret released) | OWait _ released => True | _ => False end.
  Definition signalling (o : opc) : Prop := match o with OClose _ RSignal => True | _ => False end.
  Definition vi (w : world) : Prop :=
    doomed (wt w) \/
    ((is (sm w) = released -> ~ signalling (ow w) -> stop_visible pl (sm w)) /\ (seen (ow w) -> stop_visible pl (sm w))).
  Lemma doomed_step vd m w m' w' l' : w_step vd m w m' w' l' -> match w with WSelf k _ => plain k | _ => True end -> doomed w -> doomed w'.
  Proof.
    destruct 1; cbn; try tauto; intros P D.
    - destruct H; cbn in *; tauto.
    - destruct v; tauto || auto.
    - destruct pre; cbn; auto. destruct D; [discriminate|auto].
    - destruct k; cbn in *; auto; tauto.
  Qed.
  Lemma vi_step w w' : step w w' -> ti w -> vi w -> vi w'.
  Proof.
    intros H Ht [D|V]; unfold vi in *.
    - left. destruct Ht as [Tw _ _ _]. destruct H; cbn in *; [|exact D].
      eapply doomed_step; [eassumption| |exact D]. destruct w; auto. apply Tw.
    - destruct Ht as [Tw To Ti Tr]. destruct V as [V1 V2]. destruct H as [m w o vd l m' w' l' H|m w o vd l m' o' vd' l' H]; cbn in *.
      + destruct H; cbn in *; auto.
        * destruct H; cbn in *; auto; unfold query_pc in Tw; try tauto.
          all: try (left; discriminate).
          destruct v; [right|left; discriminate|left; discriminate]. split; [discriminate|exact V2].
      + right. destruct H; cbn in *; auto.
        * unfold release_pc in To. destruct H; cbn in *; try tauto; auto.
          -- split; intros; lia.
          -- destruct v; try tauto; split; try discriminate; auto.
          -- split; intros; (apply V1; [|tauto]); destruct (is m) eqn:E; try congruence; destruct (Ti eq_refl); discriminate.
          -- split; intros; lia.
        * split; [|tauto]. intros E _. apply V1; [exact E|tauto].
        * split; [|tauto]. intros E _. apply V1; [exact E|tauto].
  Qed.
  Lemma vi_reach w : reach constructed w -> vi w.
  Proof.
    intros H. assert (ti w /\ vi w) as [_ ?]; [|assumption]. remember constructed as w0. induction H; subst.
    - split; [split; cbn; auto; discriminate|]. right. cbn. split; [discriminate|tauto].
    - destruct IHreach as [T V]; [reflexivity|]. split; [eapply ti_step; eauto|eapply vi_step; eauto].
  Qed.
End Inv.

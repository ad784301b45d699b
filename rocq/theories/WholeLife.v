(** Lemmas: what the callback received in a life of class watch, for any adapter.  (For
    Linux, with more about the run, this is in [PropsWhole].) *)
From Verif Require WatchLife.
From Verif Require Import Base EventModel SemabinModel WatchModel WatchSpec WatchFacts.

Section Life.
  Variable runs : text -> list act -> option bool -> Prop.
  (** [done]: what the adapter did so far, of a run; [fin]: it is over. *)
  Definition life_so_far (path : text) (done rest : list act) (r : option bool) (l : list entry) (fin : bool) : Prop :=
    runs path (done ++ rest) r /\ In (LWatch path) l /\
    exists first last, received l = first :: received (acts_log done) ++ last /\ live_ok path first /\
      if fin then rest = [] /\ exists d, last = [d] /\ (die_ok path d \/ die_bad path d) else last = [].
  Lemma checked_quiet p pre l : checked p pre l -> received l = [] /\ forall q, ~ In (LWatch q) l.
  Proof. destruct 1; (split; [reflexivity|]); intros q Hq; cbn in Hq; decompose [or] Hq; (discriminate || contradiction). Qed.
  Definition life_message (ev : event) : Prop := ev_ptype ev = PtWatcher.
  Lemma life_shape k l : shape runs k l ->
    (Forall life_message (received l) /\ (forall p, ~ In (LWatch p) l) /\ k <> WDone true) \/
    exists path done rest r fin, life_so_far path done rest r l fin /\ (forall d, k = WDone d -> fin = true /\ r = Some d).
  Proof.
    assert (Hd : forall b p t, die_ok p (die_event b p t) \/ die_bad p (die_event b p t)) by (intros []; intros; [left|right]; repeat split).
    induction 1 as [|abs p|abs pre l C|abs l t C|abs l t done st r C R|abs l t C|abs l t st b C R|abs l t t' C|abs l t st b t' C R|k l S IH|k p l S IH|k l S IH].
    - left. repeat split; auto. constructor. discriminate.
    - left. repeat split; [constructor| |discriminate]. intros q [H|[]]; discriminate.
    - left. destruct (checked_quiet _ _ _ C) as [-> H]. repeat split; [constructor|exact H|discriminate].
    - left. destruct (checked_quiet _ _ _ C) as [E H]. rewrite received_app, E. repeat split; [repeat constructor| |discriminate].
      intros q Hq. apply in_app_iff in Hq as [Hq|[Hq|[]]]; [now apply H in Hq|discriminate].
    - right. destruct (checked_quiet _ _ _ C) as [E H]. exists abs, done, st, r, false. split; [|discriminate].
      split; [exact R|]. split; [apply in_app_iff; right; right; now left|].
      exists (live_event true abs t), []. rewrite received_app, E. cbn [received app]. rewrite app_nil_r. repeat split.
    - left. destruct (checked_quiet _ _ _ C) as [E H]. rewrite received_app, E. repeat split; [repeat constructor| |discriminate].
      intros q Hq. apply in_app_iff in Hq as [Hq|[Hq|[]]]; [now apply H in Hq|discriminate].
    - right. destruct (checked_quiet _ _ _ C) as [E H]. exists abs, st, [], (Some b), false. split; [|discriminate].
      split; [now rewrite app_nil_r|]. split; [apply in_app_iff; right; right; now left|].
      exists (live_event true abs t), []. rewrite received_app, E. cbn [received app]. rewrite app_nil_r. repeat split.
    - left. destruct (checked_quiet _ _ _ C) as [E H]. rewrite received_app, E. repeat split; [repeat constructor| |discriminate].
      intros q Hq. apply in_app_iff in Hq as [Hq|[Hq|[Hq|[]]]]; [now apply H in Hq|discriminate..].
    - right. destruct (checked_quiet _ _ _ C) as [E H]. exists abs, st, [], (Some b), true. split; [|intros d [= <-]; auto].
      split; [now rewrite app_nil_r|]. split; [apply in_app_iff; right; right; now left|].
      exists (live_event true abs t), [die_event b abs t']. rewrite received_app, E. cbn [received app]. rewrite received_app. repeat split.
      eexists. split; [reflexivity|]. apply Hd.
    - destruct IH as [(A & B & _)|(path & a & b & r & fin & A & B)]; [left; repeat split; auto; discriminate|right].
      exists path, a, b, r, fin. split; [exact A|discriminate].
    - destruct IH as [(A & B & _)|(path & a & b & r & fin & A & B)]; [left; repeat split; auto; discriminate|right].
      exists path, a, b, r, fin. split; [exact A|discriminate].
    - destruct IH as [(A & B & _)|(path & a & b & r & fin & A & B)]; [left; repeat split; auto; discriminate|right].
      exists path, a, b, r, fin. split; [exact A|discriminate].
  Qed.
  (** Any point of any life. *)
  Lemma whole_life pl re w : reach pl runs re constructed w ->
    (Forall life_message (received (log w)) /\ (forall p, ~ In (LWatch p) (log w)) /\ (forall v, ~ In (LClosed v true) (log w))) \/
    exists path done rest r, In (LWatch path) (log w) /\ runs path (done ++ rest) r /\
      (exists live die, received (log w) = live :: received (acts_log done) ++ die /\ live_ok path live /\
         (die = [] \/ exists d, die = [d] /\ (die_ok path d \/ die_bad path d)) /\
         forall l1 v l2, log w = l1 ++ LClosed v true :: l2 -> rest = [] /\ r = Some true /\ received l2 = [] /\ die <> []).
  Proof.
    intros R. pose proof (ji_reach _ _ _ _ R) as J. pose proof (wi_reach _ _ _ _ R) as W. unfold wi in W.
    assert (G : forall l1 v l2, log w = l1 ++ LClosed v true :: l2 -> wt w = WDone true /\ received l2 = []).
    { intros l1 v l2 E. assert (Hv : v <> error) by (intros ->; apply (j_err _ J) in E; discriminate).
      split; [|eapply (j_after _ J); [exact E|destruct v; auto; congruence]].
      eapply (j_first _ J); [exact E|exact Hv|]. destruct (any_good l1) eqn:Eg; [|reflexivity].
      apply (j_later _ J _ _ _ _ E) in Eg. discriminate. }
    assert (Wl : forall p, In (LWatch p) (log w) -> In (LWatch p) (wlog (log w))) by (intros p; apply WatchLife.in_wlog; reflexivity).
    destruct (life_shape _ _ W) as [(A & B & C)|(path & a & b & r & fin & (Er & Hin & first & last & E & Hl & Hf) & Hd)].
    - left. rewrite received_wlog in A. split; [exact A|]. split; [intros p Hp; apply Wl in Hp; now apply B in Hp|].
      intros v Hv. apply in_split in Hv as (l1 & l2 & El). now apply G in El as [El _].
    - right. rewrite received_wlog in E. exists path, a, b, r.
      split; [now apply WatchLife.wlog_in in Hin|]. split; [exact Er|].
      exists first, last. split; [exact E|]. split; [exact Hl|]. split; [destruct fin; [right; tauto|now left]|].
      intros l1 v l2 El. destruct (G _ _ _ El) as [Ew Hr]. apply Hd in Ew as [Ew ->]. subst fin. destruct Hf as (-> & d & -> & _). repeat split; auto. discriminate.
  Qed.
End Life.

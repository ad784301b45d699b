(** The threads of the Darwin adapter: who holds the mutex, and what that means
    for the batches (C41). *)
From Verif Require Import Base PathModel EventModel InotifySpec Mon DarwinModel DarwinSpec DarwinFacts.

Definition inside (e : nat * rcv) : bool := match snd e with RIn _ => true | _ => false end.
Definition count_in (r : list (nat * rcv)) : nat := length (filter inside r).
Definition holds (k : clo) : nat := match k with CFlush _ | CStop => 1 | _ => 0 end.
(** Nothing of a batch's begin or end, nor the closing. *)
Definition steady (x : dobs) : Prop := match x with DTake _ | DLeave _ | DLock => False | _ => True end.
(** Batch [i] was taken and gone through completely in [o]. *)
Definition served (i : nat) (o all : list dobs) : Prop :=
  exists a m b, o = a ++ DTake i :: m ++ DLeave i :: b /\ In (DOccur i (Some (recs m))) all /\ Forall steady m.
Definition silent (x : dobs) : Prop := match x with DCb _ | DTake _ | DRec _ _ | DLock => False | _ => True end.

Lemma recs_app a b : recs (a ++ b) = recs a ++ recs b.
Proof. induction a as [|x a IH]; [reflexivity|]. destruct x; cbn; now rewrite ?IH. Qed.
Lemma recs_plain a : Forall plain_obs a -> recs a = [].
Proof. induction 1 as [|x a Hx _ IH]; [reflexivity|]. destruct x; try destruct Hx; exact IH. Qed.
Lemma plain_steady a : Forall plain_obs a -> Forall steady a.
Proof. apply Forall_impl. intros []; cbn; tauto. Qed.
Lemma count_app a b : count_in (a ++ b) = (count_in a + count_in b)%nat.
Proof. unfold count_in. now rewrite filter_app, app_length. Qed.
Lemma count_cons e b : count_in (e :: b) = ((if inside e then 1 else 0) + count_in b)%nat.
Proof. unfold count_in. cbn. now destruct (inside e). Qed.
Lemma count_none r i rs : count_in r = 0%nat -> ~ In (i, RIn rs) r.
Proof.
  intros H Hin. induction r as [|e r IH]; [destruct Hin|]. rewrite count_cons in H. destruct Hin as [-> |Hin]; cbn in H; [discriminate|].
  apply IH; [lia|exact Hin].
Qed.
Lemma served_mono i o all x : served i o all -> served i (o ++ x) (all ++ x).
Proof.
  intros (a & m & b & -> & Ho & Hm). exists a, m, (b ++ x). split; [|split; [apply in_or_app; auto|exact Hm]].
  rewrite <- !app_assoc. cbn. now rewrite <- !app_assoc.
Qed.
Lemma served_all i o all x : served i o all -> served i o (all ++ x).
Proof. intros (a & m & b & -> & Ho & Hm). exists a, m, b. split; [reflexivity|]. split; [apply in_or_app; auto|exact Hm]. Qed.

Lemma snoc_split {A} (l : list A) x l1 y l2 : l ++ [x] = l1 ++ y :: l2 ->
  (exists l2', l2 = l2' ++ [x] /\ l = l1 ++ y :: l2') \/ (l1 = l /\ y = x /\ l2 = []).
Proof.
  destruct l2 as [|z l2] using rev_ind; intros H.
  - apply app_inj_tail in H as [-> ->]. auto.
  - rewrite app_comm_cons, app_assoc in H. apply app_inj_tail in H as [-> ->]. eauto.
Qed.
(** Splitting at an element that is not in the added part. *)
Lemma split_left {A} (l x l1 : list A) y l2 : l ++ x = l1 ++ y :: l2 -> ~ In y x -> exists l2', l2 = l2' ++ x /\ l = l1 ++ y :: l2'.
Proof.
  revert l1 l2. induction x as [|a x IH] using rev_ind; intros l1 l2 E Hn.
  - rewrite app_nil_r in *. eauto using app_nil_r.
  - rewrite app_assoc in E. apply snoc_split in E as [(l2' & -> & E)|(_ & -> & _)].
    + apply IH in E as (l3 & -> & ->); [|intros H; apply Hn; apply in_or_app; auto]. exists l3. now rewrite app_assoc.
    + exfalso. apply Hn. apply in_or_app. right. now left.
Qed.
Lemma in_mid {A} (x : A) a y b : In x (a ++ y :: b) <-> x = y \/ In x (a ++ b).
Proof. rewrite !in_app_iff. cbn. intuition. Qed.

Definition added (w w' : dworld) (x : list dobs) : Prop := dlog w' = dlog w ++ x.
Ltac in_one H := let H' := fresh in apply in_app_iff in H as [H|H']; [|cbn in H'; repeat (destruct H' as [H'|H']; [try discriminate H'|]); try destruct H'].

Section Life.
  Variable s : dfs.

  (** The entries a step adds. *)
  Lemma step_adds w w' : dstep s w w' ->
    exists x, dlog w' = dlog w ++ x /\
      ((exists y, x = [y] /\ ~ plain_obs y /\ (forall p fl, y <> DRec p fl)) \/ x = [] \/ x = [DClosed; DRet true] \/
       exists p fl o', x = DRec p fl :: o' /\ Forall plain_obs o').
  Proof.
    destruct 1; cbn [dlog].
    all: try (eexists; split; [reflexivity|]; left; eexists; split; [reflexivity|]; split; [cbn; tauto|discriminate]).
    - exists []. rewrite app_nil_r. auto.
    - destruct (recv_one_spec s c p fl (o ++ [DRec p fl])) as (o1 & c1 & there & E1 & P1 & _). rewrite H in E1. injection E1 as <- <-.
      eexists. split; [reflexivity|]. eauto 8.
    - eexists. split; [reflexivity|]. auto.
  Qed.

  Lemma occur_step w w' : dstep s w w' -> forall i b, In (DOccur i b) (dlog w') -> In (DOccur i b) (dlog w) \/ (i = next w /\ next w' = S (next w) /\ In (i, b) (queued w')).
  Proof.
    intros St. destruct St; cbn [dlog next queued]; intros i0 b0 Hx; auto.
    all: try (apply in_app_iff in Hx as [Hx|Hx]; [auto|]; cbn in Hx; repeat (destruct Hx as [Hx|Hx]; [try discriminate|]); try destruct Hx; fail).
    - apply in_app_iff in Hx as [Hx|[[= <- <-]|[]]]; [auto|]. right. repeat split. apply in_or_app. right. now left.
    - destruct (recv_one_spec s c p fl (o ++ [DRec p fl])) as (o1 & c1 & there & E1 & P1 & _). rewrite H in E1. injection E1 as <- <-.
      apply in_app_iff in Hx as [Hx|[Hx|Hx]]; [auto|discriminate|]. rewrite Forall_forall in P1. destruct (P1 _ Hx).
  Qed.
  Lemma next_mono w w' : dstep s w w' -> (next w <= next w')%nat.
  Proof. destruct 1; cbn; lia. Qed.

  Record ids (w : dworld) : Prop := {
    id_next : forall i b, In (DOccur i b) (dlog w) -> (i < next w)%nat;
    id_uniq : forall i b b', In (DOccur i b) (dlog w) -> In (DOccur i b') (dlog w) -> b = b';
    id_queue : forall i b, In (i, b) (queued w) -> In (DOccur i b) (dlog w);
    id_try : forall i b, In (i, RTry b) (recvs w) -> In (DOccur i b) (dlog w);
  }.
  Lemma ids_step w w' : dstep s w w' -> ids w -> ids w'.
  Proof.
    intros St [Hn Hu Hq Ht]. pose proof (occur_step _ _ St) as Oc. pose proof (next_mono _ _ St) as Nm.
    destruct (step_adds _ _ St) as (x & Ex & _). split.
    - intros i b Hx. apply Oc in Hx as [Hx|(-> & -> & _)]; [apply Hn in Hx|]; lia.
    - intros i b b' Hx Hy. pose proof Hx as Hx0. pose proof Hy as Hy0. apply Oc in Hx. apply Oc in Hy.
      destruct Hx as [Hx|(-> & E1 & Hx)], Hy as [Hy|(E2 & E3 & Hy)]; [eauto| | |].
      + apply Hn in Hx. subst i. lia.
      + apply Hn in Hy. lia.
      + destruct St; cbn in *; try lia. apply in_app_iff in Hx0 as [Hx0|[[= <-]|[]]]; [apply Hn in Hx0; lia|].
        apply in_app_iff in Hy0 as [Hy0|[[= <-]|[]]]; [apply Hn in Hy0; lia|]. reflexivity.
    - intros i b Hx. rewrite Ex. apply in_or_app. destruct St; cbn in *; auto.
      + apply in_app_iff in Hx as [Hx|[[= <- <-]|[]]]; [auto|]. right. apply app_inv_head in Ex. rewrite <- Ex. now left.
      + left. apply Hq. apply in_app_iff. cbn. apply in_app_iff in Hx as [Hx|Hx]; auto.
    - intros i0 b0 Hx. rewrite Ex. apply in_or_app. destruct St; cbn in *; auto.
      + apply in_app_iff in Hx as [Hx|[[= <- <-]|[]]]; [auto|]. left. apply Hq. apply in_app_iff. right. now left.
      + left. apply Ht. apply in_mid. auto.
      + left. apply Ht. apply in_mid in Hx as [Hx|Hx]; [discriminate|]. apply in_mid. auto.
      + left. apply Ht. apply in_mid. auto.
      + left. apply Ht. apply in_mid in Hx as [Hx|Hx]; [discriminate|]. apply in_mid. auto.
      + left. apply Ht. apply in_mid. auto.
  Qed.

  Record who (w : dworld) : Prop := {
    wh_one : (count_in (recvs w) + holds (clos w) = if locked w then 1 else 0)%nat;
    wh_idle : match clos w with COpen | CWait false | CClose false | CRet _ => queued w = [] /\ recvs w = [] /\ locked w = false | _ => True end;
    wh_stop : match clos w with COpen | CWait _ => True | _ => In DStop (dlog w) end;
    wh_ret : forall b, In (DRet b) (dlog w) -> clos w = CRet b;
    wh_lock : In DLock (dlog w) <-> match clos w with CFlush _ | CStop | CRet true => True | _ => False end;
  }.
  Lemma nil_mid {A} (a : list A) x b : a ++ x :: b <> [].
  Proof. now destruct a. Qed.
  Lemma who_step w w' : dstep s w w' -> who w -> who w'.
  Proof.
    intros St [Ho Hid Hst Hrt Hlk]. destruct (step_adds _ _ St) as (x & Ex & Kx). split.
    - destruct St; cbn [recvs clos locked holds] in *; rewrite ?count_app, ?count_cons in *; cbn [inside snd] in *; try lia; try (destruct l; lia). change (count_in []) with 0%nat. lia.
    - destruct St; cbn in *; auto.
      + destruct ok; auto.
      + destruct k as [|[]|[]| | |]; cbn in *; tauto.
      + destruct k as [|[]|[]| | |]; cbn in *; tauto.
      + destruct k as [|[]|[]| | |]; cbn in *; auto; destruct Hid as (_ & Hid & _); now apply nil_mid in Hid.
      + destruct k as [|[]|[]| | |]; cbn in *; auto; destruct Hid as (_ & Hid & _); now apply nil_mid in Hid.
      + destruct k as [|[]|[]| | |]; cbn in *; auto; destruct Hid as (_ & Hid & _); now apply nil_mid in Hid.
      + destruct k as [|[]|[]| | |]; cbn in *; auto; destruct Hid as (_ & Hid & _); now apply nil_mid in Hid.
      + destruct k as [|[]|[]| | |]; cbn in *; auto; destruct Hid as (_ & Hid & _); now apply nil_mid in Hid.
    - rewrite Ex. destruct St; cbn in *; auto; try (destruct k; auto; apply in_or_app; auto; fail); try (apply in_or_app; auto; fail).
      apply app_inv_head in Ex. rewrite <- Ex. apply in_or_app. right. now left.
    - intros b Hb. rewrite Ex in Hb. apply in_app_iff in Hb as [Hb|Hb].
      + apply Hrt in Hb. destruct St; cbn in *; try congruence.
      + destruct St; cbn in *; try (apply app_inv_head in Ex; subst x; cbn in Hb; repeat (destruct Hb as [Hb|Hb]; [try discriminate Hb; try (injection Hb as <-; reflexivity)|]); try destruct Hb; fail).
        * rewrite <- (app_nil_r o) in Ex at 1. apply app_inv_head in Ex. subst x. destruct Hb.
        * destruct Kx as [(y & -> & _ & K)|[->|[->|(p' & fl' & o1 & -> & K)]]].
          -- apply app_inv_head in Ex. injection Ex as <- _. now destruct (K p fl).
          -- destruct Hb.
          -- apply app_inv_head in Ex. discriminate.
          -- destruct Hb as [Hb|Hb]; [discriminate|]. rewrite Forall_forall in K. destruct (K _ Hb).
    - rewrite Ex, in_app_iff. assert (Hx : ~ In DLock x \/ clos w' = CFlush (next w)).
      { destruct St; cbn in *; auto; left; intros Hb; try (apply app_inv_head in Ex; subst x; cbn in Hb; repeat (destruct Hb as [Hb|Hb]; [try discriminate Hb|]); try destruct Hb; fail).
        - rewrite <- (app_nil_r o) in Ex at 1. apply app_inv_head in Ex. subst x. destruct Hb.
        - destruct Kx as [(y & -> & _ & K)|[->|[->|(p' & fl' & o1 & -> & K)]]].
          + apply app_inv_head in Ex. injection Ex as <- _. now destruct (K p fl).
          + destruct Hb.
          + apply app_inv_head in Ex. discriminate.
          + destruct Hb as [Hb|Hb]; [discriminate|]. rewrite Forall_forall in K. destruct (K _ Hb). }
      destruct St; cbn in *; try tauto; try (destruct Hx as [Hx|Hx]; [tauto|discriminate]).
      + destruct Hx; [tauto|]. subst k. cbn in *. tauto.
      + destruct Hx; [tauto|]. subst k. cbn in *. tauto.
      + destruct Hx; [tauto|]. subst k. cbn in *. tauto.
      + destruct Hx; [tauto|]. subst k. cbn in *. tauto.
      + destruct Hx; [tauto|]. subst k. cbn in *. tauto.
      + destruct Hx; [tauto|]. subst k. cbn in *. tauto.
      + destruct Hx; [tauto|]. subst k. cbn in *. tauto.
      + apply app_inv_head in Ex. subst x. cbn. tauto.
  Qed.

  (** A batch that is inside of event_recv: what it went through so far. *)
  Definition half (i : nat) (rs : list record) (o : list dobs) : Prop :=
    exists a m, o = a ++ DTake i :: m /\ In (DOccur i (Some (recs m ++ rs))) o /\ Forall steady m.
  Record serve (w : dworld) : Prop := {
    se_in : forall i rs, In (i, RIn rs) (recvs w) -> half i rs (dlog w);
    se_take : forall i, In (DTake i) (dlog w) -> (exists rs, In (i, RIn rs) (recvs w)) \/ served i (dlog w) (dlog w);
    se_after : forall l1 l2, dlog w = l1 ++ DLock :: l2 -> Forall silent l2 /\ forall i, In (DTake i) l1 -> served i l1 l1;
  }.
  Lemma half_more i rs o x : Forall steady x -> recs x = [] -> half i rs o -> half i rs (o ++ x).
  Proof.
    intros Hx Hr (a & m & -> & Ho & Hm). exists a, (m ++ x). rewrite recs_app, Hr, app_nil_r. split; [now rewrite <- app_assoc|].
    split; [apply in_or_app; auto|]. now apply Forall_app.
  Qed.
  Lemma half_rec i p fl rs o o' : Forall plain_obs o' -> half i ((p, fl) :: rs) o -> half i rs (o ++ DRec p fl :: o').
  Proof.
    intros Hx (a & m & -> & Ho & Hm). exists a, (m ++ DRec p fl :: o'). rewrite recs_app. cbn [recs]. rewrite (recs_plain o') by exact Hx.
    rewrite <- !(app_assoc (recs m)). split; [now rewrite <- app_assoc|]. split; [apply in_or_app; left; exact Ho|].
    apply Forall_app. split; [exact Hm|]. constructor; [exact I|]. now apply plain_steady.
  Qed.
  (** No call is inside while the closer holds the mutex, nor two. *)
  Lemma only_one w r1 i rs r2 j rs' : who w -> recvs w = r1 ++ (i, RIn rs) :: r2 -> In (j, RIn rs') (r1 ++ r2) -> False.
  Proof.
    intros [Ho _ _ _ _] E Hin. rewrite E, count_app, count_cons in Ho. cbn [inside snd] in Ho.
    apply in_app_iff in Hin as [Hin|Hin]; eapply count_none; try exact Hin; destruct (locked w); lia.
  Qed.
  Lemma no_lock w i rs : who w -> In (i, RIn rs) (recvs w) -> ~ In DLock (dlog w).
  Proof.
    intros [Ho Hid _ _ Hlk] Hin Hl. apply Hlk in Hl. apply in_split in Hin as (r1 & r2 & E).
    rewrite E, count_app, count_cons in Ho. cbn [inside snd] in Ho.
    destruct (clos w) as [|[]|[]| | |[]]; try tauto; cbn [holds] in Ho; try (destruct (locked w); lia).
  Qed.
  Lemma silent_add w w' x l1 l2 : serve w -> dlog w' = dlog w ++ x -> Forall silent x ->
    dlog w' = l1 ++ DLock :: l2 -> Forall silent l2 /\ forall i, In (DTake i) l1 -> served i l1 l1.
  Proof.
    intros [_ _ Haf] Ex Hx E. rewrite Ex in E. apply split_left in E as (l2' & -> & E).
    - apply Haf in E as [E1 E2]. split; [now apply Forall_app|exact E2].
    - intros Hl. rewrite Forall_forall in Hx. destruct (Hx _ Hl).
  Qed.
  Lemma serve_quiet w w' x : serve w -> dlog w' = dlog w ++ x -> Forall silent x -> Forall steady x -> recs x = [] ->
    (forall i rs, In (i, RIn rs) (recvs w') <-> In (i, RIn rs) (recvs w)) -> serve w'.
  Proof.
    intros S Ex Hx Hs Hr Hin. split.
    - intros i rs Hi. apply Hin in Hi. rewrite Ex. apply half_more; auto. now apply (se_in w).
    - intros i Hi. rewrite Ex in Hi. apply in_app_iff in Hi as [Hi|Hi].
      + apply (se_take w S) in Hi as [(rs & Hi)|Hi]; [left; exists rs; now apply Hin|right]. rewrite Ex. now apply served_mono.
      + rewrite Forall_forall in Hx. destruct (Hx _ Hi).
    - intros l1 l2. now apply (silent_add w w' x).
  Qed.
  Lemma in_try (r1 : list (nat * rcv)) i b r2 j rs : In (j, RIn rs) (r1 ++ r2) <-> In (j, RIn rs) (r1 ++ (i, RTry b) :: r2).
  Proof. rewrite in_mid. split; [auto|]. intros [H|H]; [discriminate|exact H]. Qed.

  Lemma serve_step w w' : dstep s w w' -> ids w -> who w -> serve w -> serve w'.
  Proof.
    intros St I W S. destruct St; cbn [dc locked next queued recvs clos dlog] in *.
    - eapply serve_quiet; [exact S|reflexivity|repeat constructor|repeat constructor|reflexivity|reflexivity].
    - eapply serve_quiet; [exact S|reflexivity|repeat constructor|repeat constructor|reflexivity|reflexivity].
    - eapply serve_quiet with (x := []); [exact S|cbn; now rewrite app_nil_r|repeat constructor|repeat constructor|reflexivity|].
      cbn. intros j rs. rewrite in_app_iff. cbn. split; [intros [H1|[H1|[]]]; [exact H1|discriminate]|auto].
    - eapply serve_quiet; [exact S|reflexivity|repeat constructor|repeat constructor|reflexivity|]. intros; cbn. apply in_try.
    - (* take *)
      assert (Hno : forall j rs', ~ In (j, RIn rs') (r1 ++ r2)).
      { intros j rs' Hin. destruct W as [Ho _ _ _ _]. cbn in Ho. apply (in_try r1 i (Some rs) r2) in Hin.
        revert Hin. apply count_none. unfold count_in. lia. }
      assert (Hlk : ~ In DLock o).
      { intros Hl. apply (wh_lock _ W) in Hl. destruct W as [Ho Hid _ _ _]. cbn in *. destruct k as [|[]|[]| | |[]]; try tauto; cbn in Ho; try lia.
        destruct Hid as (_ & Hid & _). now apply nil_mid in Hid. }
      split; cbn [recvs dlog].
      + intros j rs' Hj. apply in_mid in Hj as [[= -> ->]|Hj]; [|now destruct (Hno j rs')].
        exists o, []. split; [reflexivity|]. split; [|constructor]. apply in_or_app. left. apply (id_try _ I). cbn. apply in_mid. now left.
      + intros j Hj. apply in_app_iff in Hj as [Hj|[[= <-]|[]]].
        * apply (se_take _ S) in Hj as [(rs' & Hj)|Hj]; cbn in *; [now apply in_try, Hno in Hj|]. right. now apply served_mono.
        * left. exists rs. apply in_mid. now left.
      + intros l1 l2 E. apply snoc_split in E as [(l2' & _ & E)|(_ & E & _)]; [|discriminate]. exfalso. apply Hlk. rewrite E. apply in_mid. now left.
    - eapply serve_quiet; [exact S|reflexivity|repeat constructor|repeat constructor|reflexivity|]. intros; cbn. apply in_try.
    - (* a record *)
      destruct (recv_one_spec s c p fl (o ++ [DRec p fl])) as (o1 & c1 & there & E1 & P1 & _). rewrite H in E1. injection E1 as <- <-.
      pose proof (no_lock _ i ((p, fl) :: rs) W) as Hlk. cbn in Hlk.
      assert (Hin : In (i, RIn ((p, fl) :: rs)) (r1 ++ (i, RIn ((p, fl) :: rs)) :: r2)) by (apply in_mid; now left).
      split; cbn [recvs dlog].
      + intros j rs' Hj. apply in_mid in Hj as [[= -> ->]|Hj]; [|now destruct (only_one _ r1 i ((p, fl) :: rs) r2 j rs' W eq_refl Hj)].
        apply half_rec; [exact P1|]. apply (se_in _ S). exact Hin.
      + intros j Hj. apply in_app_iff in Hj as [Hj|[Hj|Hj]]; [|discriminate|rewrite Forall_forall in P1; destruct (P1 _ Hj)].
        apply (se_take _ S) in Hj as [(rs' & Hj)|Hj]; cbn in *; [|right; now apply served_mono].
        apply in_mid in Hj as [[= -> ->]|Hj]; [left; exists rs; apply in_mid; now left|now destruct (only_one _ r1 i ((p, fl) :: rs) r2 j rs' W eq_refl Hj)].
      + intros l1 l2 E. apply split_left in E as (l2' & _ & E).
        * exfalso. apply (Hlk Hin). rewrite E. apply in_mid. now left.
        * intros [Hb|Hb]; [discriminate|]. rewrite Forall_forall in P1. destruct (P1 _ Hb).
    - (* leave *)
      assert (Hin : In (i, RIn []) (r1 ++ (i, RIn []) :: r2)) by (apply in_mid; now left).
      split; cbn [recvs dlog].
      + intros j rs' Hj. now destruct (only_one _ r1 i [] r2 j rs' W eq_refl Hj).
      + intros j Hj. apply in_app_iff in Hj as [Hj|[Hj|[]]]; [|discriminate].
        apply (se_take _ S) in Hj as [(rs' & Hj)|Hj]; cbn in *; [|right; now apply served_mono].
        apply in_mid in Hj as [[= -> ->]|Hj]; [|now destruct (only_one _ r1 i [] r2 j rs' W eq_refl Hj)].
        right. destruct (se_in _ S i [] Hin) as (a & m & E & Ho & Hm). cbn in E, Ho. exists a, m, []. rewrite app_nil_r in Ho. split; [|split; [apply in_or_app; auto|exact Hm]].
        rewrite E, <- app_assoc. reflexivity.
      + intros l1 l2 E. apply snoc_split in E as [(l2' & _ & E)|(_ & E & _)]; [|discriminate]. exfalso.
        apply (no_lock _ i [] W Hin). cbn. rewrite E. apply in_mid. now left.
    - eapply serve_quiet; [exact S|reflexivity|repeat constructor|repeat constructor|reflexivity|reflexivity].
    - eapply serve_quiet; [exact S|reflexivity|repeat constructor|repeat constructor|reflexivity|reflexivity].
    - (* lock *)
      assert (Hno : forall j rs', ~ In (j, RIn rs') r).
      { intros j rs'. apply count_none. destruct W as [Ho _ _ _ _]. cbn in Ho. unfold count_in. lia. }
      split; cbn [recvs dlog].
      + intros j rs' Hj. now destruct (Hno j rs').
      + intros j Hj. apply in_app_iff in Hj as [Hj|[Hj|[]]]; [|discriminate].
        apply (se_take _ S) in Hj as [(rs' & Hj)|Hj]; cbn in *; [now apply Hno in Hj|right; now apply served_mono].
      + intros l1 l2 E. apply snoc_split in E as [(l2' & _ & E)|(-> & _ & ->)].
        * exfalso. assert (Hl : In DLock o) by (rewrite E; apply in_mid; now left). apply (wh_lock _ W) in Hl. exact Hl.
        * split; [constructor|]. intros i Hi. apply (se_take _ S) in Hi as [(rs' & Hi)|Hi]; [now apply Hno in Hi|exact Hi].
    - eapply serve_quiet; [exact S|reflexivity|repeat constructor|repeat constructor|reflexivity|reflexivity].
    - eapply serve_quiet; [exact S|reflexivity|repeat constructor|repeat constructor|reflexivity|reflexivity].
  Qed.
  Lemma life_reach w : dreach s dstart w -> ids w /\ who w /\ serve w.
  Proof.
    intros H. remember dstart as w0. induction H as [w|w w' w'' H IH St]; subst.
    - split; [split; cbn; tauto|]. split; [split; cbn; tauto|]. split; cbn; try tauto. intros [|? ?]; discriminate.
    - destruct (IH eq_refl) as (I & W & S). split; [now apply (ids_step _ _ St)|]. split; [now apply (who_step _ _ St)|now apply (serve_step _ _ St)].
  Qed.

  (** Once the adapter has returned, nothing happens any more. *)
  Lemma ret_terminal w b w' : who w -> In (DRet b) (dlog w) -> dstep s w w' -> False.
  Proof.
    intros [Ho Hid Hst Hrt Hlk] Hr St. apply Hrt in Hr. rewrite Hr in Hid. destruct Hid as (Hq & Hr' & _).
    destruct St; cbn in *; subst; try discriminate; try tauto; now apply nil_mid in Hr' || now apply nil_mid in Hq.
  Qed.
  Lemma split_right {A} (l x l1 : list A) y l2 : l ++ x = l1 ++ y :: l2 -> ~ In y l -> exists x1, l1 = l ++ x1 /\ x = x1 ++ y :: l2.
  Proof.
    revert l1. induction l as [|a l IH]; intros l1 E Hn; [exists l1; auto|]. destruct l1 as [|b l1]; cbn in E; injection E as -> E.
    - exfalso. apply Hn. now left.
    - apply IH in E as (x1 & -> & ->); [exists x1; auto|]. intros H. apply Hn. now right.
  Qed.
  Lemma after_ret w : dreach s dstart w -> forall l1 b l2, dlog w = l1 ++ DRet b :: l2 -> l2 = [].
  Proof.
    intros H. remember dstart as w0. destruct H as [w|w w' w'' H St]; intros l1 b l2 E; subst; [destruct l1; discriminate|].
    destruct (life_reach _ H) as (_ & W & _). destruct (step_adds _ _ St) as (x & Ex & Kx).
    rewrite Ex in E. apply split_right in E as (x1 & -> & ->); [|intros Hr; eapply ret_terminal; eauto].
    destruct Kx as [(y & Ky & _)|[Ky|[Ky|(p & fl & o' & Ky & P)]]].
    - destruct x1 as [|? [|? ?]]; cbn in Ky; congruence.
    - now apply nil_mid in Ky.
    - destruct x1 as [|? [|? [|]]]; cbn in Ky; congruence.
    - destruct x1 as [|? x1]; cbn in Ky; [discriminate|]. injection Ky as _ <-. rewrite Forall_forall in P. destruct (P (DRet b)). apply in_mid. now left.
  Qed.
End Life.

(** Where reported paths lie (C27). *)
From Verif Require Import Base PathModel EventModel Sys SysFacts LinuxModel InotifyModel
  FanotifyModel LinuxWatch LinuxSpec LinuxFacts LinuxRun LinuxProps InotifySpec InotifyFacts InotifyRun
  InotifyClaims.

(** The paths of an event: its own, then the associated ones. *)
Fixpoint shape_paths (sh : shape) : list text :=
  match sh with Sh p _ _ a => p :: match a with Some b => shape_paths b | None => [] end end.

(** [q] is an entry, named by a record of [rs], of a directory known. *)
Definition known_entry (known : dirs) (rs : list krec) (q : text) : Prop :=
  exists r d k, In r rs /\ names_entry (k_kind r) = true /\ q = entry d (k_name r) /\ known k = Some d.

Lemma known_entry_more known rs rs' q : known_entry known rs q -> (forall r, In r rs -> In r rs') -> known_entry known rs' q.
Proof. intros (r & d & k & H1 & H2) H. exists r, d, k. split; [now apply H|exact H2]. Qed.

Lemma effect_named k f : effect_of k = Some f -> names_entry k = true.
Proof. destruct k; cbn; congruence. Qed.

Lemma batch_paths s loose : forall known rs is known', batch s loose known rs is known' ->
  forall is1 sh is2, is = is1 ++ Shown sh :: is2 -> is_fs sh ->
  Forall (known_entry (learn_all known is1) rs) (shape_paths sh).
Proof.
  induction 1 as [|known r rs is known' Hw Hb IH|known d r rs is known' Hw Hk Hb IH|known d r rs is known' Hw He Ho Hb IH|known d d' r n rs is known' Hp Hw Hw' Hb IH|known d r rs ms is known1 known' Hw Hk Hd Hm Hb IH|known d f r rs is known' Hw He Hn Hp Hb IH]; intros is1 sh is2 E Hfs.
  - destruct is1; discriminate.
  - destruct is1 as [|x is1]; cbn in E; injection E as <- E; [now destruct Hfs|].
    eapply Forall_impl; [|apply (IH _ _ _ E Hfs)]. intros q Hq. eapply known_entry_more; [exact Hq|]. intros; now right.
  - destruct is1 as [|x is1]; cbn in E; injection E as <- E; [now destruct Hfs|].
    eapply Forall_impl; [|apply (IH _ _ _ E Hfs)]. intros q Hq. eapply known_entry_more; [exact Hq|]. intros; now right.
  - eapply Forall_impl; [|apply (IH _ _ _ E Hfs)]. intros q Hq. eapply known_entry_more; [exact Hq|]. intros; now right.
  - destruct is1 as [|x is1]; cbn in E; injection E as <- E.
    + destruct Hp as (Hp1 & Hp2 & _). cbn [shape_paths learn_all]. constructor.
      * exists r, d, (k_wd r). split; [now left|]. rewrite Hp1. auto.
      * constructor; [|constructor]. destruct loose.
        -- subst d'. exists n, d, (k_wd r). split; [now right; left|]. rewrite Hp2. auto.
        -- exists n, d', (k_wd n). split; [now right; left|]. rewrite Hp2. auto.
    + eapply Forall_impl; [|apply (IH _ _ _ E Hfs)]. intros q Hq. eapply known_entry_more; [exact Hq|]. intros; now right; right.
  - apply app_eq_app in E as (l & [(E1 & E2)|(E1 & E2)]).
    + destruct l as [|x l]; cbn in E2.
      * rewrite app_nil_r in E1. subst is1. injection E2 as -> ->.
        cbn [shape_paths]. constructor; [|constructor]. exists r, d, (k_wd r). split; [now left|]. rewrite Hk. split; [reflexivity|]. split; [reflexivity|].
        inversion Hm; subst; cbn [learn_all]; [unfold learn; now rewrite Hw|exact Hw].
      * injection E2 as <- E2. exfalso. inversion Hm; subst; destruct is1 as [|? [|]]; try discriminate.
        -- cbn in *. match goal with H : [Shown _] = _ |- _ => injection H as <- end. now destruct Hfs.
    + destruct l as [|x l]; cbn in E2.
      * rewrite app_nil_r in E1. subst is1. injection E2 as <- <-.
        cbn [shape_paths]. constructor; [|constructor]. exists r, d, (k_wd r). split; [now left|]. rewrite Hk. split; [reflexivity|]. split; [reflexivity|].
        inversion Hm; subst; cbn [learn_all]; [unfold learn; now rewrite Hw|exact Hw].
      * injection E2 as <- E2. rewrite E1, learn_all_app. cbn [learn_all].
        assert (Hsame : learn_all known ms = known1) by (inversion Hm; reflexivity). rewrite Hsame.
        eapply Forall_impl; [|apply (IH _ _ _ E2 Hfs)]. intros q Hq. eapply known_entry_more; [exact Hq|]. intros; now right.
  - destruct is1 as [|x is1]; cbn in E; injection E as <- E.
    + cbn [shape_paths learn_all]. constructor; [|constructor]. exists r, d, (k_wd r). split; [now left|].
      split; [eapply effect_named, He|]. auto.
    + eapply Forall_impl; [|apply (IH _ _ _ E Hfs)]. intros q Hq. eapply known_entry_more; [exact Hq|]. intros; now right.
Qed.

(** [q] is a proper entry of a directory that was known before or is marked in [is]. *)
Definition marked_entry (known : dirs) (is : list item) (q : text) : Prop :=
  exists d nm, q = entry d nm /\ nm <> [] /\ Forall (fun b => b <> 0 /\ b <> 47)%N nm /\
    ((exists k, known k = Some d) \/ marked_in is d).

Lemma known_marked known is rs q : (forall wd d, In (Marked wd d) is -> (0 < wd)%Z) ->
  Forall krec_ok rs -> known_entry (learn_all known is) rs q -> marked_entry known is q.
Proof.
  intros Hpos Hok (r & d & k & Hin & Hn & -> & Hk). rewrite Forall_forall in Hok. specialize (Hok _ Hin).
  exists d, (k_name r). split; [reflexivity|]. split; [now apply (ok_named _ Hok)|]. split; [apply (ok_name _ Hok)|].
  apply learn_all_marked in Hk as [Hk|Hk]; eauto.
Qed.

Lemma marked_entry_more known is is' q : marked_entry known is q -> marked_entry known (is ++ is') q.
Proof.
  intros (d & nm & H1 & H2 & H3 & [H4|(w & Hw & Hin)]); exists d, nm; repeat split; auto.
  right. exists w. split; [exact Hw|]. apply in_or_app. now left.
Qed.

Lemma session_paths s loose : forall known rss is, session s loose known rss is ->
  (forall wd d, In (Marked wd d) is -> (0 < wd)%Z) -> Forall batch_ok rss ->
  forall is1 sh is2, is = is1 ++ Shown sh :: is2 -> is_fs sh ->
  Forall (marked_entry known is1) (shape_paths sh).
Proof.
  induction 1 as [|known rs rss is is' known' Hb Hs IH]; intros Hpos Hok is1 sh is2 E Hfs.
  - destruct is1; discriminate.
  - inversion Hok as [|? ? Hrs Hrss]; subst.
    assert (Hlift : forall l q, marked_entry (forget_deleted rs known') l q -> marked_entry known (is ++ l) q).
    { intros l q (d & nm & H1 & H2 & H3 & [[k Hk]|(w & Hw & Hin)]); exists d, nm; repeat split; auto.
      - unfold forget_deleted in Hk. destruct (existsb _ rs); [discriminate|].
        rewrite (batch_learn _ _ _ _ _ _ Hb k) in Hk. apply learn_all_marked in Hk as [Hk|(w & Hw & Hin)]; [left; eauto| |].
        + right. exists w. split; [exact Hw|]. apply in_or_app. now left.
        + intros wd d' Hin. apply (Hpos wd d'). apply in_or_app. now left.
      - right. exists w. split; [exact Hw|]. apply in_or_app. now right. }
    assert (Hpos' : forall wd d, In (Marked wd d) is' -> (0 < wd)%Z).
    { intros wd d Hin. apply (Hpos wd d). apply in_or_app. now right. }
    apply app_eq_app in E as (l & [(E1 & E2)|(E1 & E2)]).
    + destruct l as [|x l]; cbn in E2.
      * rewrite app_nil_r in E1. subst is1. symmetry in E2.
        eapply Forall_impl; [|apply (IH Hpos' Hrss [] sh is2 E2 Hfs)].
        intros q Hq. rewrite <- (app_nil_r is). now apply Hlift.
      * injection E2 as <- E2. pose proof (batch_paths _ _ _ _ _ _ Hb _ _ _ E1 Hfs) as H.
        eapply Forall_impl; [|exact H]. intros q Hq. eapply known_marked; [| |exact Hq].
        -- intros wd d Hin. apply (Hpos wd d). apply in_or_app. left. rewrite E1. apply in_or_app. now left.
        -- apply (bo_recs _ Hrs).
    + rewrite E1. eapply Forall_impl; [|apply (IH Hpos' Hrss l sh is2 E2 Hfs)]. intros q Hq. now apply Hlift.
Qed.

(** From items back to observations. *)
Lemma items_at o1 e o2 : items (o1 ++ OCallback e :: o2) = items o1 ++ Shown (shape_of e) :: items o2.
Proof. now rewrite items_app. Qed.

Lemma items_marked o wd d : In (Marked wd d) (items o) -> exists fd mask, In (OAddWatch fd d mask wd) o.
Proof.
  induction o as [|x o IH]; [intros []|]. cbn [items].
  assert (Hq : In (Marked wd d) (items o) -> exists fd mask, In (OAddWatch fd d mask wd) (x :: o)).
  { intros H. destruct (IH H) as (fd & m & Hin). exists fd, m. now right. }
  destruct x; auto.
  - intros [[=]|H]; auto.
  - destruct (0 <? wd0)%Z; auto. intros [[= <- <-]|H]; auto. exists fd, mask. now left.
Qed.

Lemma marked_items o wd d fd mask : In (OAddWatch fd d mask wd) o -> (0 < wd)%Z -> In (Marked wd d) (items o).
Proof.
  intros Hin Hw. induction o as [|x o IH]; [destruct Hin|]. destruct Hin as [->|Hin].
  - cbn. destruct (Z.ltb_spec 0 wd); [now left|lia].
  - specialize (IH Hin). cbn [items]. destruct x; auto; [now right|]. destruct (0 <? wd0)%Z; [now right|auto].
Qed.

(** The paths of an event. *)
Fixpoint event_paths (e : event) : list text :=
  match e with Ev p _ _ _ a => p :: match a with Some b => event_paths b | None => [] end end.
Lemma event_shape_paths : forall e, shape_paths (shape_of e) = event_paths e.
Proof.
  fix IH 1. intros [p f t n [b|]]; [|reflexivity]. change (p :: shape_paths (shape_of b) = p :: event_paths b). f_equal. apply IH.
Qed.
Lemma is_fs_event e : is_fs (shape_of e) <-> ev_ptype e <> PtWatcher.
Proof. destruct e. reflexivity. Qed.

(** [d] was marked in [o]. *)
Definition marked_dir (o : trace) (d : text) : Prop :=
  exists fd mask wd, In (OAddWatch fd d mask wd) o /\ (0 < wd)%Z.

Section Whole.
  Variable s : os.

  Lemma session_start_known a k d : learn_all nowhere (items a) k = Some d -> marked_in (items a) d.
  Proof.
    intros H. apply learn_all_marked in H as [H|H]; [discriminate|exact H|].
    intros wd e Hin. eapply items_marked_pos, Hin.
  Qed.

  (** Every path of a filesystem event is an entry of a directory marked before. *)
  Lemma linux_watch_paths loose fuel path il tr o1 e o2 :
    (forall t, os_geteuid s t <> 0%Z) -> inotify_kernel loose s ->
    fst (linux_watch s fuel path il tr) = o1 ++ OCallback e :: o2 -> ~ is_message e ->
    forall q, In q (event_paths e) ->
    exists d nm, q = entry d nm /\ nm <> [] /\ Forall (fun b => b <> 0 /\ b <> 47)%N nm /\ marked_dir o1 d.
  Proof.
    intros Hu HK E Hm q Hq.
    destruct (linux_watch_session s loose fuel path il tr Hu HK) as (a & b & c & r & rss & Er & _ & Hma & _ & [_ Hok] & _ & Hs & Hc & _).
    rewrite Er in E. cbn [fst] in E.
    assert (Hnc : ~ In (OCallback e) c).
    { intros Hin. destruct Hc as [[Hc _]|(e' & Hi & Hcb & [Hf _] & _)].
      - clear -Hin Hc. induction c as [|x c IH]; [destruct Hin|]. destruct Hin as [->|Hin]; [discriminate|].
        cbn in Hc. destruct x; auto; try discriminate. destruct (0 <? wd)%Z; [discriminate|auto].
      - assert (Hin' : In e (callbacks c)).
        { clear -Hin. induction c as [|x c IH]; [destruct Hin|]. destruct Hin as [->|Hin]; [now left|].
          specialize (IH Hin). destruct x; cbn [callbacks]; try exact IH. right. exact IH. }
        rewrite Hcb in Hin'. destruct Hin' as [<-|[]]. apply Hm. destruct Hf as [Hf _]. exact Hf. }
    apply app_eq_app in E as (l & [(E1 & E2)|(E1 & E2)]).
    { destruct l as [|x l]; cbn in E2.
      - (* at the border: in b or c *)
        rewrite app_nil_r in E1. subst o1. symmetry in E2.
        destruct b as [|y b]; cbn in E2.
        + exfalso. apply Hnc. rewrite E2. now left.
        + injection E2 as -> _. cbn [items] in Hs.
          pose proof (session_paths _ _ _ _ _ Hs) as HP.
          specialize (HP (fun wd d Hin => items_marked_pos (OCallback e :: b) wd d Hin) Hok [] (shape_of e) (items b) eq_refl (proj2 (is_fs_event e) Hm)).
          rewrite event_shape_paths in HP. rewrite Forall_forall in HP. destruct (HP q Hq) as (d & nm & H1 & H2 & H3 & H4).
          exists d, nm. repeat split; auto. destruct H4 as [[k Hk]|(w & Hw & [])].
          apply session_start_known in Hk as (w & Hw & Hin). destruct (items_marked _ _ _ Hin) as (fd & mask & Hin').
          exists fd, mask, w. auto.
      - injection E2 as <- E2. exfalso. apply Hm. destruct (Hma e) as [w Hw]; [rewrite E1; apply in_or_app; right; now left|].
        destruct e. cbn in Hw. now injection Hw. }
    symmetry in E2. apply app_eq_app in E2 as (l' & [(E3 & E4)|(E3 & E4)]).
    { exfalso. apply Hnc. rewrite E4. apply in_or_app. right. now left. }
    destruct l' as [|x l']; cbn in E4.
    { exfalso. apply Hnc. rewrite <- E4. now left. }
    injection E4 as <- E4. rewrite E3, items_at in Hs.
    pose proof (session_paths _ _ _ _ _ Hs) as HP.
    assert (Hpos : forall wd d, In (Marked wd d) (items l ++ Shown (shape_of e) :: items l') -> (0 < wd)%Z).
    { intros wd d Hin. rewrite <- items_at in Hin. eapply items_marked_pos, Hin. }
    specialize (HP Hpos Hok (items l) (shape_of e) (items l') eq_refl (proj2 (is_fs_event e) Hm)).
    rewrite event_shape_paths in HP. rewrite Forall_forall in HP. destruct (HP q Hq) as (d & nm & H1 & H2 & H3 & H4).
    exists d, nm. repeat split; auto. subst o1.
    destruct H4 as [[k Hk]|(w & Hw & Hin)].
    - apply session_start_known in Hk as (w & Hw & Hin). destruct (items_marked _ _ _ Hin) as (fd & mask & Hin').
      exists fd, mask, w. split; [apply in_or_app; now left|exact Hw].
    - destruct (items_marked _ _ _ Hin) as (fd & mask & Hin'). exists fd, mask, w.
      split; [apply in_or_app; now right|exact Hw].
  Qed.
End Whole.

(** ** Staying inside the tree *)
Lemma inside_entry root d nm : root <> [] -> inside root d -> inside root (entry d nm).
Proof.
  intros Hr [->|[rest ->]].
  - right. exists nm. unfold entry, slashed. destruct root as [|x root]; [congruence|].
    destruct (_ =? 47)%N; [reflexivity|now rewrite <- app_assoc].
  - right. unfold entry. destruct (slashed root ++ rest) as [|x l] eqn:E.
    { apply app_eq_nil in E as [E _]. unfold slashed in E. destruct (_ =? 47)%N; [congruence|].
      apply app_eq_nil in E as [_ E]. discriminate. }
    rewrite <- E. destruct (_ =? 47)%N; [exists (rest ++ nm)|exists (rest ++ lit "/" ++ nm)]; now rewrite <- app_assoc.
Qed.

Lemma inside_cut root p nm n : root <> [] -> inside root p -> (length p <= n)%nat -> inside root (firstn n (p ++ lit "/" ++ nm)).
Proof.
  intros Hr Hp Hn. rewrite firstn_app, (firstn_all2 p) by exact Hn.
  destruct Hp as [->|[rest ->]].
  - destruct (n - length root)%nat as [|k]; [left; apply app_nil_r|].
    right. unfold slashed. destruct (_ =? 47)%N.
    + eexists. reflexivity.
    + exists (firstn k nm). rewrite <- app_assoc. reflexivity.
  - right. eexists. rewrite <- app_assoc. reflexivity.
Qed.

Lemma fst_after {A} (P : obs -> Prop) x (m : M A) t : P x -> Forall P (fst (m t)) ->
  Forall P (fst (let (o2, r2) := m t in ([x] ++ o2, r2))).
Proof. intros Hx H. destruct (m t). constructor; [exact Hx|exact H]. Qed.

Section Inside.
  Variable s : os.
  Variable root real : text.
  Hypothesis HC : contained s root real.

  (** Inside the tree under either name. *)
  Definition within (p : text) : Prop := inside root p \/ inside real p.
  Definition ok_obs (x : obs) : Prop :=
    match x with OAddWatch _ d _ _ => inside real d | _ => True end.

  Lemma within_real tr p q : within p -> os_realpath s tr p = Some q -> inside real q.
  Proof. intros [H|H] E; [eapply ct_root|eapply ct_real]; eauto. Qed.

  Lemma in_mark_inside p fd dm : within p -> every (Forall ok_obs) (in_mark s p fd dm).
  Proof.
    intros Hp tr. unfold in_mark, bind, realpath, stat_dir, inotify_add_watch, send_msg, new_event, bind, now, callback, ret.
    destruct (os_realpath s tr p) as [q|] eqn:Eq; cbn; [|repeat constructor].
    apply (within_real tr p q Hp) in Eq.
    destruct (os_is_dir s _ _); cbn; [destruct (0 <? _)%Z|]; cbn; repeat (apply Forall_cons || apply Forall_nil); (exact I || exact Eq).
  Qed.

  Lemma walk_inside fd fuel : forall p dm, within p ->
    every (Forall ok_obs) (walkdir s fuel p (fun dir dm => q <- in_mark s dir fd dm ;; ret (fst q)) dm).
  Proof.
    assert (Happ : forall a b, Forall ok_obs a -> Forall ok_obs b -> Forall ok_obs (a ++ b)) by (intros; now apply Forall_app).
    induction fuel as [|n IH]; intros p dm Hp tr; cbn [walkdir]; [constructor|].
    unfold bind at 1, opendir. destruct (os_opendir s tr p) as [ents|] eqn:Eo; [|repeat constructor].
    assert (Hlen : (length p <= N.to_nat 4095)%nat) by (apply (ct_fits _ _ _ HC tr); congruence).
    apply fst_after; [exact I|].
    match goal with |- context [bind ?m ?k ?t] => enough (HE : every (Forall ok_obs) (bind m k)) by apply HE end.
    apply every_bind; auto.
    { apply every_bind; auto; [now apply in_mark_inside|intros; apply every_ret; constructor]. }
    intros st1. apply every_bind; auto.
    2:{ intros st2. apply every_bind; auto; [intros t; repeat constructor|intros; apply every_ret; constructor]. }
    clear Eo. revert st1. induction ents as [|de es IHe]; intros st1; [apply every_ret; constructor|].
    destruct (negb (de_type de =? 4)%N); [apply IHe|].
    destruct (text_eqb (de_name de) (lit ".")); [apply IHe|].
    destruct (text_eqb (de_name de) (lit "..")); [apply IHe|].
    intros t. unfold bind at 1, realpath.
    destruct (os_realpath s t _) as [q|] eqn:Eq.
    - apply fst_after; [exact I|].
      match goal with |- context [bind ?m ?k ?t'] => enough (HE : every (Forall ok_obs) (bind m k)) by apply HE end.
      apply every_bind; auto. apply IH. right. eapply within_real; [|exact Eq].
      destruct (ct_nonempty _ _ _ HC) as [Hr1 Hr2].
      destruct Hp as [Hp|Hp]; [left|right]; apply inside_cut; auto.
    - apply fst_after; [exact I|]. apply IHe.
  Qed.

  Lemma in_make_inside fuel il : every (Forall ok_obs) (in_make_sysres s fuel root il).
  Proof.
    assert (Happ : forall a b, Forall ok_obs a -> Forall ok_obs b -> Forall ok_obs (a ++ b)) by (intros; now apply Forall_app).
    assert (Hret : forall A (x : A), every (Forall ok_obs) (ret x)) by (intros; apply every_ret; constructor).
    unfold in_make_sysres. apply every_bind; auto; [intros t; repeat constructor|]. intros fd. cbv zeta.
    destruct (fd <? 0)%Z; auto. apply every_bind; auto; [apply walk_inside; left; now left|].
    intros [|x dm]; auto. apply every_bind; auto.
    intros t. unfold make_ep, bind, epoll_create, epoll_ctl, sys_close, ret. cbn [app].
    repeat match goal with |- context [if ?c then _ else _] => destruct c end; repeat constructor.
  Qed.

  Definition known_inside (known : dirs) : Prop := forall k d, known k = Some d -> inside real d.

  Lemma batch_inside loose known rs is known' : batch s loose known rs is known' -> known_inside known ->
    known_inside known' /\ forall wd d, In (Marked wd d) is -> inside real d.
  Proof.
    destruct (ct_nonempty _ _ _ HC) as [_ Hne].
    induction 1 as [|known r rs is known' Hw Hb IH|known d r rs is known' Hw Hk Hb IH|known d r rs is known' Hw He Ho Hb IH|known d d' r n rs is known' Hp Hw Hw' Hb IH|known d r rs ms is known1 known' Hw Hk Hd Hm Hb IH|known d f r rs is known' Hw He Hn Hp Hb IH]; intros Hin.
    - split; [exact Hin|intros wd d []].
    - destruct (IH Hin) as [H1 H2]. split; [exact H1|]. intros wd d [[=]|H]; eauto.
    - destruct (IH Hin) as [H1 H2]. split; [exact H1|]. intros wd d' [[=]|H]; eauto.
    - auto.
    - destruct (IH Hin) as [H1 H2]. split; [exact H1|]. intros wd d'' [[=]|H]; eauto.
    - inversion Hm as [wd rl Hwd [t Hres] E1 E2|E1 E2]; subst.
      + assert (Hrl : inside real rl).
        { eapply ct_real; [exact HC|exact Hres|]. apply inside_entry; [exact Hne|]. eapply Hin, Hw. }
        destruct IH as [H1 H2].
        { intros k e He. unfold learn in He. destruct (known k) eqn:Ek; [injection He as <-; eapply Hin, Ek|].
          destruct (k =? wd)%Z; [|discriminate]. injection He as <-. exact Hrl. }
        split; [exact H1|]. intros w e. cbn [app]. intros [[= <- <-]|[[=]|H]]; eauto.
      + destruct (IH Hin) as [H1 H2]. split; [exact H1|]. intros w e. cbn [app]. intros [[=]|[[=]|H]]; eauto.
    - destruct (IH Hin) as [H1 H2]. split; [exact H1|]. intros wd d' [[=]|H]; eauto.
  Qed.

  Lemma session_inside loose known rss is : session s loose known rss is -> known_inside known ->
    forall wd d, In (Marked wd d) is -> inside real d.
  Proof.
    induction 1 as [|known rs rss is is' known' Hb Hs IH]; intros Hin wd d Hmd; [destruct Hmd|].
    destruct (batch_inside _ _ _ _ _ Hb Hin) as [H1 H2]. apply in_app_iff in Hmd as [Hmd|Hmd]; [eauto|].
    eapply IH; [|exact Hmd]. intros k e He. unfold forget_deleted in He. destruct (existsb _ rs); [discriminate|]. eauto.
  Qed.
End Inside.

Section WholeInside.
  Variable s : os.

  Lemma linux_watch_inside loose fuel path real il tr fd d mask wd :
    (forall t, os_geteuid s t <> 0%Z) -> inotify_kernel loose s -> contained s path real ->
    In (OAddWatch fd d mask wd) (fst (linux_watch s fuel path il tr)) -> (0 < wd)%Z -> inside real d.
  Proof.
    intros Hu HK HC Hin Hwd.
    destruct (linux_watch_session s loose fuel path il tr Hu HK) as (a & b & c & r & rss & Er & _ & _ & _ & _ & _ & Hs & Hc & [u Hau]).
    rewrite Er in Hin. cbn [fst] in Hin.
    assert (Ha : forall wd d, In (Marked wd d) (items a) -> inside real d).
    { intros w e H. apply items_marked in H as (f & m & H). rewrite Hau in H. destruct H as [[=]|H].
      pose proof (in_make_inside s path real HC fuel il (tr ++ [OGeteuid u])) as HF. rewrite Forall_forall in HF. apply (HF _ H). }
    rewrite !in_app_iff in Hin. destruct Hin as [Hin|[Hin|Hin]].
    - eapply Ha, marked_items; eassumption.
    - eapply session_inside; [exact HC|exact Hs| |eapply marked_items; eassumption].
      intros k e He. apply session_start_known in He as (w & _ & He). eapply Ha, He.
    - apply (marked_items c wd d fd mask) in Hin; [|exact Hwd].
      destruct Hc as [[Hc _]|(e & Hc & _)]; rewrite Hc in Hin; [destruct Hin|destruct Hin as [[=]|[]]].
  Qed.

  (** Every path of a filesystem event lies inside the watched tree. *)
  Lemma linux_watch_event_inside loose fuel path real il tr e q :
    (forall t, os_geteuid s t <> 0%Z) -> inotify_kernel loose s -> contained s path real ->
    In (OCallback e) (fst (linux_watch s fuel path il tr)) -> ~ is_message e -> In q (event_paths e) -> inside real q.
  Proof.
    intros Hu HK HC Hin Hm Hq. apply in_split in Hin as (o1 & o2 & E).
    destruct (linux_watch_paths s loose _ _ _ _ _ _ _ Hu HK E Hm q Hq) as (d & nm & -> & _ & _ & (fd & mask & wd & Hin & Hwd)).
    apply inside_entry; [apply (ct_nonempty _ _ _ HC)|].
    eapply (linux_watch_inside loose fuel path real il tr fd d mask wd); auto. rewrite E. apply in_or_app. now left.
  Qed.
End WholeInside.

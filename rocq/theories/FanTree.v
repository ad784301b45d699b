(** The fanotify adapter and the tree, in the environment of [FanWorldSpec]. *)
From Verif Require Import Base PathModel EventModel Sys SysFacts LinuxModel InotifyModel FanotifyModel LinuxWatch LinuxSpec
  LinuxFacts LinuxRun LinuxProps LinuxChoice LinuxEnds WalkFacts InotifySpec InotifyFacts InotifyRun FanotifySpec FanotifyFacts FanotifyLoop FanotifyRun Shift
  FanWorldSpec FanWorldFacts FanWorldRun FanTreeSpec Answers.

Lemma happen_marks w o : fw_marks (happen w o) = fw_marks w.
Proof. unfold happen. now destruct (may w o). Qed.
Lemma happens_marks os : forall w, fw_marks (happens w os) = fw_marks w.
Proof. unfold happens. induction os as [|o os IH]; intros w; [reflexivity|]. cbn [fold_left]. now rewrite IH, happen_marks. Qed.
Lemma happens_app a b w : happens w (a ++ b) = happens (happens w a) b.
Proof. unfold happens. apply fold_left_app. Qed.
Lemma marking_marks mine deny m w p : incl (fw_marks w) (fw_marks (snd (marking mine deny m w p))).
Proof. unfold marking. destruct (_ || _); [apply incl_refl|]. cbn [snd]. destruct (asks m); [apply incl_tl, incl_refl|apply incl_refl]. Qed.
Lemma reading_marks mine want w : fw_marks (snd (reading mine want w)) = fw_marks w.
Proof. unfold reading. destruct mine; [|reflexivity]. now destruct (fw_queue w). Qed.
Lemma shown_warn r p t : shown [OCallback (msg_ev r p t)] = [Sh (ev_path (msg_ev r p t)) (ev_effect (msg_ev r p t)) (ev_ptype (msg_ev r p t)) None].
Proof. reflexivity. Qed.

Section Tree.
  Variable e : fenv.
  Notation s := (system e).

  Lemma state_marks tr t : incl (fw_marks (state e tr)) (fw_marks (state e (tr ++ t))).
  Proof.
    induction t as [|x t IH] using rev_ind; [rewrite app_nil_r; apply incl_refl|]. rewrite app_assoc, state_snoc.
    assert (H : incl (fw_marks (state e tr)) (fw_marks (at_call e (tr ++ t)))) by (unfold at_call; now rewrite happens_marks).
    destruct x; try exact H; [eapply incl_tran; [exact H|apply marking_marks]|]. now rewrite reading_marks.
  Qed.
  Lemma marked_covered o a p : In p (fw_marks (state e a)) -> covered e o a p.
  Proof.
    intros Hm b c x n k d -> Hc (os1 & os2 & Eo & Hmay) Ht. destruct c as [|y c]; [congruence|]. clear Hc.
    replace (a ++ b ++ y :: c) with (((a ++ b) ++ [y]) ++ c) by (rewrite <- !app_assoc; reflexivity).
    destruct (state_later e ((a ++ b) ++ [y]) c) as [_ [l El]]. rewrite El. apply in_or_app. left. clear El l c.
    assert (H : In (at_path p n, k, d) (fw_log (at_call e (a ++ b)))).
    { unfold at_call. rewrite Eo, happens_app. cbn [happens fold_left]. fold (happens (happen (happens (state e (a ++ b)) os1) x) os2).
      destruct (happens_later os2 (happen (happens (state e (a ++ b)) os1) x)) as [[_ [l El]] _]. rewrite El. apply in_or_app. left.
      unfold happen. rewrite Hmay. cbn [fw_log]. apply in_or_app. right. unfold noted. apply in_map_iff. exists (p, n, k, d). split; [reflexivity|].
      apply filter_In. split; [exact Ht|]. cbn [fst]. apply mem_in. rewrite happens_marks. apply state_marks. exact Hm. }
    rewrite state_snoc. fold (at_call e (a ++ b)). destruct y; try exact H.
    - destruct (marking_later (fd =? fe_fd e)%Z (fe_deny e (a ++ b)) mask (at_call e (a ++ b)) p0) as [[_ [l El]] _]. rewrite El. apply in_or_app. now left.
    - destruct (reading_later (fd =? fe_fd e)%Z (fe_want e (a ++ b)) (at_call e (a ++ b))) as [_ [l El]]. rewrite El. apply in_or_app. now left.
  Qed.
  Lemma mark_works tr fd p m : fst (marking (fd =? fe_fd e)%Z (fe_deny e tr) m (at_call e tr) p) = 0%Z -> asks m = true ->
    forall rc, In p (fw_marks (state e (tr ++ [OFanMark fd p m rc]))).
  Proof.
    intros H Ha rc. rewrite state_snoc. cbn. fold (at_call e tr). unfold marking in *. destruct (_ || _); [discriminate H|]. rewrite Ha. cbn. now left.
  Qed.

  (** ** The start *)
  Variables D F : list text.
  Hypothesis start : fe_start e = fworld_start D F.
  Variables path root : text.
  Hypothesis tree : watches_tree e path root.

  Lemma dirs_stay tr : incl D (fw_dirs (at_call e tr)).
  Proof.
    destruct (at_call_later e [] tr) as [[l El] _]. cbn [app] in El. rewrite El. apply incl_appl.
    destruct (call_later e []) as [[[l' El'] _] _]. rewrite El'. apply incl_appl. unfold state. cbn. rewrite start. apply incl_refl.
  Qed.
  (** [q] is marked after [tr ++ o], or there was a warning in [o]. *)
  Definition seen (tr o : trace) (dirpath q : text) : Prop :=
    In q (fw_marks (state e (tr ++ o))) \/ not_watched o dirpath.
  Lemma seen_later tr o o' dp q : seen tr o dp q -> seen tr (o ++ o') dp q.
  Proof.
    intros [H|H]; [left|right].
    - rewrite app_assoc. now apply state_marks.
    - unfold not_watched in *. rewrite shown_app. apply in_or_app. now left.
  Qed.
  Lemma seen_before tr o o' dp q : seen (tr ++ o) o' dp q -> seen tr (o ++ o') dp q.
  Proof.
    intros [H|H]; [left|right].
    - now rewrite app_assoc.
    - unfold not_watched in *. rewrite shown_app. apply in_or_app. now right.
  Qed.
  Lemma mark_seen dp p tr o (u : unit) : In p D -> (forall t, os_realpath s t dp = Some p) ->
    (fa_mark s dp (fe_fd e) ;;; ret tt) tr = (o, Ok u) -> seen tr o dp p.
  Proof.
    intros Hp Hr E. unfold fa_mark in E. unfold bind, realpath, stat_dir, fanotify_mark in E. rewrite Hr in E.
    set (t1 := tr ++ [ORealpath dp (Some p)]) in *.
    assert (Hd : os_is_dir s t1 p = true).
    { cbn [os_is_dir system]. apply (fs_isdir _ _ (proj1 (tree t1))). now apply dirs_stay. }
    rewrite Hd in E. set (t2 := t1 ++ [OStatDir p true]) in *. set (rc := os_fan_mark s t2 (fe_fd e) p fa_recv_flags) in *.
    assert (Hm : rc = 0%Z -> In p (fw_marks (state e (t2 ++ [OFanMark (fe_fd e) p fa_recv_flags rc])))).
    { intros H0. apply mark_works; [exact H0|vm_compute; reflexivity]. }
    clearbody rc. destruct (Z.eqb_spec rc 0) as [H0|H0].
    - cbn -[fa_recv_flags] in E. injection E as <- _. left. specialize (Hm H0). unfold t2, t1 in Hm. rewrite <- !app_assoc in Hm. exact Hm.
    - right. unfold send_msg, new_event, bind, now, callback, ret in E. injection E as <- _. cbn. now left.
  Qed.

  Notation mark_all := (fun dir (_ : unit) => fa_mark s dir (fe_fd e) ;;; ret tt).
  Lemma funder_in p q : funder D p q -> In p D.
  Proof. now destruct 1. Qed.
  Definition good_lead (dp p : text) : Prop := forall t, fleads (at_call e t) (fe_base e (at_call e t)) dp p.
  Lemma walk_seen fuel : forall dp p u tr o u', good_lead dp p -> walkdir s fuel dp mark_all u tr = (o, Ok u') ->
    forall q, funder D p q -> exists dq, (dq = q \/ (q = p /\ dq = dp)) /\ seen tr o dq q.
  Proof.
    induction fuel as [|n IH]; intros dp p u tr o u' HL E q U; [discriminate|].
    rewrite walkdir_S in E. pose proof (funder_in _ _ U) as Hp.
    apply bind_inv in E as [(o1 & d & o2 & E1 & E2 & ->)|[(u0 & _ & [=])|[(_ & [=])|(_ & [=])]]].
    injection E1 as <- <-. destruct (fl_opens _ _ _ _ (HL tr) tr) as (ents & Eo & Hents). rewrite Eo in *.
    set (x := OOpendir dp (Some ents)) in *.
    apply bind_inv in E2 as [(o3 & u1 & o4 & E3 & E4 & ->)|[(u0 & _ & [=])|[(_ & [=])|(_ & [=])]]].
    apply bind_inv in E4 as [(o5 & u2 & o6 & E5 & E6 & ->)|[(u0 & _ & [=])|[(_ & [=])|(_ & [=])]]].
    destruct U as [_|nm q _ Hn U].
    - exists dp. split; [now right|]. apply seen_before, seen_later. refine (mark_seen dp p _ _ _ Hp _ E3). intros t. exact (fl_real _ _ _ _ (HL t) t).
    - pose proof (funder_in _ _ U) as Hs. pose proof (Hents nm Hn (dirs_stay tr _ Hs)) as Hin.
      enough (H : exists dq, (dq = q \/ (q = at_path p nm /\ dq = at_path p nm)) /\ seen (((tr ++ [x]) ++ o3)) o5 dq q).
      { destruct H as (dq & Hdq & H). exists dq. split; [destruct Hdq as [->|[-> ->]]; now left|].
        apply seen_before, seen_before. now apply seen_later. }
      clear Hents Eo E3 E6. revert u1 E5. subst x. generalize ((tr ++ [OOpendir dp (Some ents)]) ++ o3). clear o3 o6.
      revert o5 u2. induction ents as [|de es IHe]; intros o5 u2 t u1 E5; [destruct Hin|]. rewrite each_cons in E5.
      destruct Hin as [->|Hin].
      + cbn [de_type de_name N.eqb Pos.eqb negb] in E5.
        apply sound_name_facts in Hn as Hn'. destruct Hn' as (_ & _ & _ & Hdot & _).
        assert (Hd2 : text_eqb nm (lit "..") = false).
        { unfold sound_name in Hn. rewrite !andb_true_iff, !negb_true_iff in Hn. tauto. }
        rewrite Hdot, Hd2 in E5.
        apply bind_inv in E5 as [(o7 & rp & o8 & E7 & E8 & ->)|[(u0 & _ & [=])|[(_ & [=])|(_ & [=])]]].
        unfold realpath in E7. destruct (fl_join _ _ _ _ (HL t) t nm (dirs_stay t _ Hs)) as [J1 J2].
        assert (ER : os_realpath s t (firstn path_ulim (dp ++ lit "/" ++ nm)) = Some (at_path p nm)) by (rewrite firstn_all2; [exact J2|exact J1]).
        rewrite ER in E7. injection E7 as <- <-.
        apply bind_inv in E8 as [(o9 & u3 & o10 & E9 & E10 & ->)|[(u0 & _ & [=])|[(_ & [=])|(_ & [=])]]].
        destruct (IH (at_path p nm) (at_path p nm) _ _ _ _ (fun t => fs_leads _ _ (proj1 (tree t)) _ (dirs_stay t _ Hs)) E9 q U) as (dq & Hdq & Hseen).
        exists dq. split; [exact Hdq|]. apply seen_before. now apply seen_later.
      + destruct (negb (de_type de =? 4)%N); [eapply IHe; eassumption|].
        destruct (text_eqb (de_name de) (lit ".")); [eapply IHe; eassumption|].
        destruct (text_eqb (de_name de) (lit "..")); [eapply IHe; eassumption|].
        apply bind_inv in E5 as [(o7 & rp & o8 & E7 & E8 & ->)|[(u0 & _ & [=])|[(_ & [=])|(_ & [=])]]].
        destruct rp as [real|].
        * apply bind_inv in E8 as [(o9 & u3 & o10 & E9 & E10 & ->)|[(u0 & _ & [=])|[(_ & [=])|(_ & [=])]]].
          destruct (IHe Hin _ _ _ _ E10) as (dq & Hdq & Hseen). exists dq. split; [exact Hdq|]. now apply seen_before, seen_before.
        * destruct (IHe Hin _ _ _ _ E8) as (dq & Hdq & Hseen). exists dq. split; [exact Hdq|]. now apply seen_before.
  Qed.

  Hypothesis fd_ok : (1 <= fe_fd e)%Z.
  Definition all_seen (a : trace) : Prop := forall q, funder D root q -> exists dq, (dq = q \/ (q = root /\ dq = path)) /\ seen [] a dq q.
  Lemma make_seen fuel il tr : let '(o, r) := fa_make_sysres s fuel path il tr in
    match r with Ok _ => forall q, funder D root q -> exists dq, (dq = q \/ (q = root /\ dq = path)) /\ seen tr o dq q | _ => True end.
  Proof.
    destruct (fa_make_sysres s fuel path il tr) as [o [x|u| |]] eqn:E; try exact Coq.Init.Logic.I. intros q U. unfold fa_make_sysres in E.
    apply bind_inv in E as [(o1 & fd & o2 & E1 & E2 & ->)|[(u & _ & [=])|[(_ & [=])|(_ & [=])]]]. cbv zeta in E2.
    assert (Ef : fd = fe_fd e) by (unfold fanotify_init in E1; cbn in E1; congruence). subst fd. clear E1.
    destruct (Z.ltb_spec (fe_fd e) 1) as [Hlt|_]; [lia|].
    apply bind_inv in E2 as [(o3 & u & o4 & E3 & E4 & ->)|[(u & _ & [=])|[(_ & [=])|(_ & [=])]]].
    destruct (walk_seen fuel path root tt _ _ _ (fun t => proj2 (tree t)) E3 q U) as (dq & Hdq & Hs). exists dq. split; [exact Hdq|].
    apply seen_before. now apply seen_later.
  Qed.
  Lemma run_seen fuel il : exists a b, fst (linux_watch s fuel path il []) = a ++ b /\ Forall no_wait a /\ (Forall no_wait b \/ all_seen a).
  Proof.
    unfold linux_watch, try_fanotify. unfold bind at 1. unfold bind at 1, geteuid. change (os_geteuid s []) with 0%Z. change (0 =? 0)%Z with true. cbv iota.
    cbn [app]. set (g := OGeteuid 0). unfold run_fanotify, platform_watch. unfold bind at 1.
    pose proof (make_seen fuel il [g]) as HM. pose proof (fa_make_no_wait s fuel path il [g]) as HW. destruct (fa_make_sysres s fuel path il [g]) as [a ra]. cbn [fst] in HW.
    assert (Hga : Forall no_wait (g :: a)) by (constructor; [exact Coq.Init.Logic.I|exact HW]).
    destruct ra as [x|u| |]; try (exists (g :: a), []; rewrite app_nil_r; split; [reflexivity|]; split; [exact Hga|]; left; constructor).
    assert (Hs : all_seen (g :: a)).
    { intros q U. destruct (HM q U) as (dq & Hdq & H). exists dq. split; [exact Hdq|]. now apply (seen_before [] [g] a). }
    match goal with |- context [let (_, _) := ?m ?t in _] => destruct (m t) as [b rb] end.
    destruct rb as [r|u| |]; cbn [fst];
      try (exists (g :: a), b; split; [reflexivity|]; split; [exact Hga|]; right; exact Hs).
    match goal with |- context [let (_, _) := ?m ?t in _] => destruct (m t) as [c rc] end. cbn [fst].
    exists (g :: a), (b ++ c). split; [|split; [exact Hga|right; exact Hs]]. cbn. now rewrite <- app_assoc.
  Qed.
  Lemma prefix_of_wait (a b c d : trace) ep r : a ++ b = c ++ OEpollWait ep r :: d -> Forall no_wait a -> exists x, c = a ++ x.
  Proof.
    revert c. induction a as [|y a IH]; intros c E H; [exists c; reflexivity|]. inversion H; subst. destruct c as [|z c]; cbn in E; injection E as -> E; [contradiction|].
    destruct (IH c E) as (x & ->); [assumption|]. exists x. reflexivity.
  Qed.
  Lemma tree_covered fuel il a ep r b : fst (linux_watch s fuel path il []) = a ++ OEpollWait ep r :: b -> forall q, funder D root q ->
    let o := fst (linux_watch s fuel path il []) in
    covered e o a q \/ not_watched o q \/ (q = root /\ not_watched o path).
  Proof.
    intros E q U. cbv zeta. destruct (run_seen fuel il) as (m & rest & Em & Hm & Hc). rewrite E in Em.
    destruct (prefix_of_wait m rest a b ep r (eq_sym Em) Hm) as (x & ->). destruct Hc as [Hc|Hc].
    - exfalso. rewrite <- app_assoc in Em. apply app_inv_head in Em. subst rest. apply Forall_app in Hc as [_ Hc]. inversion Hc as [|? ? Hw _]. exact Hw.
    - rewrite E, <- app_assoc. destruct (Hc q U) as (dq & Hdq & [H|H]).
      + left. apply marked_covered. apply (state_marks m x). exact H.
      + right. assert (Hn : not_watched (m ++ x ++ OEpollWait ep r :: b) dq) by (unfold not_watched in *; rewrite shown_app; apply in_or_app; now left).
        destruct Hdq as [->|[-> ->]]; auto.
  Qed.
End Tree.

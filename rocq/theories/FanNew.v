(** New directories and the fanotify adapter, in the environment of [FanWorldSpec]. *)
From Verif Require Import Base PathModel EventModel Sys SysFacts LinuxModel InotifyModel FanotifyModel LinuxWatch LinuxSpec
  LinuxFacts LinuxRun LinuxProps LinuxChoice LinuxEnds WalkFacts InotifySpec InotifyFacts InotifyRun FanotifySpec FanotifyFacts FanotifyLoop FanotifyRun Shift
  FanWorldSpec FanWorldFacts FanWorldRun FanTreeSpec Answers FanTree.

Section New.
  Variable e : fenv.
  Hypothesis He : fenv_ok e.
  Notation s := (system e).

  Definition meets_in (l : list frec) : Prop := exists b1 r1 r2 b2, l = b1 ++ r1 :: r2 :: b2 /\ crossed r1 r2.
  Lemma meets_cons z l : meets_in l -> meets_in (z :: l).
  Proof. intros (b1 & r1 & r2 & b2 & -> & H). now exists (z :: b1), r1, r2, b2. Qed.
  Lemma batch_newdir tr m rs sh en : fbatch (shift s tr) m rs sh en -> forall b1 x b2, rs = map Chg (b1 ++ x :: b2) -> m = 0%nat -> Forall (good_rec e tr) (b1 ++ x :: b2) ->
    has FCreate x = true -> f_dir x = true -> In (Sh (rec_path (at_call e tr) x) EtCreate PtDir None) sh \/ meets_in (b1 ++ [x]).
  Proof.
    induction 1 as [m rs Hf|m rs Hf|m r rs Hf Hu|m r n rs Hf Hp Hu|m r rs p w o en Hf Hp Hn Hw Hb IH|m r n rs p q o en Hf1 Hf2 Hm H1 H2 Hn1 Hn2 Hb IH|m r n rs p q o en Hf1 Hf2 Hm H0 H1 H2 Hn1 Hn2 Hb IH];
      intros b1 x b2 Eb Em Hg Hc Hd; subst m.
    - apply fits_zero_nil in Hf. subst rs. destruct b1; discriminate.
    - destruct b1; discriminate.
    - exfalso. assert (Hr : exists y b, b1 ++ x :: b2 = y :: b) by (destruct b1; cbn; eauto). destruct Hr as (y & b & Er). rewrite Er in *. injection Eb as -> _.
      inversion Hg as [|? ? Hr _]; subst. destruct Hr as (i & Hi). destruct (never_unnamed e He tr y i Hi Hu).
    - exfalso. destruct (b1 ++ x :: b2) as [|y [|n' b]]; try discriminate. injection Eb as -> -> _. inversion Hg as [|? ? _ Hg']; subst. inversion Hg' as [|? ? Hn _]; subst.
      destruct Hn as (i & Hi). destruct (never_unnamed e He tr n' i Hi Hu).
    - destruct b1 as [|y b1].
      + left. injection Eb as -> ->. inversion Hg as [|? ? Hr Hg']; subst. destruct Hr as (i & Hi). apply (named_path e He tr x i p Hi) in Hn. subst p.
        apply in_or_app. right. left. unfold f_effect, f_ptype. now rewrite Hc, Hd.
      + injection Eb as -> ->. inversion Hg as [|? ? Hr Hg']; subst. destruct (IH b1 x b2 eq_refl eq_refl Hg' Hc Hd) as [H|H].
        * left. apply in_or_app. right. now right.
        * right. now apply (meets_cons y).
    - destruct b1 as [|y [|z b1]].
      + exfalso. injection Eb as -> E2. inversion Hg as [|? ? Hr _]; subst. destruct Hr as (i & Hi). pose proof (ri_files _ _ _ Hi (or_introl H1)). congruence.
      + exfalso. injection Eb as -> -> E2. inversion Hg as [|? ? _ Hg']; subst. inversion Hg' as [|? ? Hn _]; subst. destruct Hn as (j & Hj).
        pose proof (ri_files _ _ _ Hj (or_intror H2)). congruence.
      + injection Eb as -> -> ->. inversion Hg as [|? ? _ Hg']; subst. inversion Hg' as [|? ? _ Hg'']; subst.
        destruct (IH b1 x b2 eq_refl eq_refl Hg'' Hc Hd) as [H|H]; [left; now right|right]. now apply (meets_cons y), (meets_cons z).
    - destruct b1 as [|y [|z b1]].
      + exfalso. injection Eb as -> E2. inversion Hg as [|? ? Hr _]; subst. destruct Hr as (i & Hi). pose proof (ri_files _ _ _ Hi (or_intror H1)). congruence.
      + exfalso. injection Eb as -> -> E2. inversion Hg as [|? ? _ Hg']; subst. inversion Hg' as [|? ? Hn _]; subst. destruct Hn as (j & Hj).
        pose proof (ri_files _ _ _ Hj (or_introl H2)). congruence.
      + injection Eb as -> -> ->. right. exists [], y, z, (b1 ++ [x]). split; [reflexivity|]. repeat split; assumption.
  Qed.
  Lemma took_newdir w b1 r b2 sh : took e w (b1 ++ r :: b2) sh -> has FCreate r = true -> f_dir r = true ->
    In (Sh (rec_path w r) EtCreate PtDir None) (filter about_fs sh) \/ meets_in (b1 ++ [r]).
  Proof.
    intros (t & en & Hb & Hg & Hl) Hc Hd. destruct (batch_newdir t _ _ _ _ Hb b1 r b2 eq_refl eq_refl Hg Hc Hd) as [H|H]; [left|right; exact H].
    rewrite Forall_forall in Hg. rewrite (rec_path_later e He t w r (Hg r (in_elt r b1 b2)) Hl). apply filter_In. split; [exact H|reflexivity].
  Qed.
  Lemma newdir_told fuel path il o r : linux_watch s fuel path il [] = (o, r) ->
    forall q, In (q, FCreate, true) (fw_log (state e o)) -> ~ pending_for (state e o) q FCreate true -> ~ behind_crossing (state e o) q FCreate true ->
    exists a ev b, o = a ++ OCallback ev :: b /\ ev_path ev = q /\ is_new_dir ev.
  Proof.
    intros E q Hin Hp Hu. destruct (run_facts e He fuel path il o r E) as (_ & shs & Ef & Ht).
    destruct (fi_told _ (state_fine e He o) q FCreate true Hin) as (x & Hx & Hq & Hk & Hd). apply in_app_or in Hx as [Hx|Hx]; [|exfalso; apply Hp; exists x; auto].
    apply in_concat in Hx as (b & Hb & Hxb). destruct (in_concat_took e _ _ _ b Ht Hb) as (sh & Hs & Hin').
    apply in_split in Hxb as (b1 & b2 & ->). destruct (took_newdir _ _ _ _ _ Hs Hk Hd) as [H|H]; [|exfalso; apply Hu; exists b1, x, b2; auto].
    apply filter_In in H as [H _]. rewrite Hq in H. apply Hin' in H.
    assert (Hsh : In (Sh q EtCreate PtDir None) (shown o)).
    { assert (Hf : In (Sh q EtCreate PtDir None) (fs_events o)) by (rewrite Ef; apply filter_In; auto). now apply filter_In in Hf. }
    clear -Hsh. induction o as [|y o IH]; [destruct Hsh|].
    assert (Hl : In (Sh q EtCreate PtDir None) (shown o) -> exists a ev b, y :: o = a ++ OCallback ev :: b /\ ev_path ev = q /\ is_new_dir ev).
    { intros H. destruct (IH H) as (a & ev & b & -> & H1). exists (y :: a), ev, b. auto. }
    destruct y as [ev| | | | | | | | | | | | | | | | |]; try (apply Hl; exact Hsh). destruct Hsh as [Hsh|Hsh]; [|now apply Hl].
    exists [], ev, o. split; [reflexivity|]. destruct ev. unfold is_new_dir. cbn in *. injection Hsh as -> -> ->. auto.
  Qed.
  Definition no_add (x : obs) : Prop := match x with OAddWatch _ _ _ _ => False | _ => True end.
  Lemma run_answers fuel path il : answers s no_add [] (fst (linux_watch s fuel path il [])).
  Proof.
    rewrite linux_watch_split. unfold adapters, try_fanotify. rewrite !bind_assoc. unfold bind at 1, geteuid.
    change (os_geteuid s []) with 0%Z. change (0 =? 0)%Z with true. cbv iota. set (g := OGeteuid 0). set (tr1 := [] ++ [g]).
    destruct (run_fanotify_init s fuel path il tr1) as (fd0 & rest0 & Hini & _ & _ & Hnf).
    assert (Hfd0 : (1 <= fd0)%Z).
    { unfold run_fanotify, platform_watch, fa_make_sysres in Hini. rewrite bind_assoc in Hini. unfold bind at 1, fanotify_init in Hini.
      match type of Hini with context [let (_, _) := ?m ?t in _] => destruct (m t) end. injection Hini as <- _. apply (fv_fd e He). }
    specialize (Hnf Hfd0). pose proof (fanotify_answers s no_add (fun x H => H) fuel path il tr1) as HV.
    unfold bind at 1. destruct (run_fanotify s fuel path il tr1) as [o r]. cbn [fst snd] in *.
    assert (H1 : answers s no_add [] (g :: o)) by (cbn [answers]; split; [split; exact I|exact HV]).
    destruct r as [r|u| |]; try exact H1.
    assert (Hneq : r_eqb r r_e_sys_api_fanotify = false) by (destruct r; try reflexivity; exfalso; now apply Hnf).
    rewrite Hneq, bind_ret.
    assert (H2 : forall c, answers s no_add (g :: o) c -> answers s no_add [] (g :: o ++ c)).
    { intros c Hc. change (g :: o ++ c) with ((g :: o) ++ c). apply answers_app. split; [exact H1|exact Hc]. }
    match goal with |- context [if ?c then _ else _] => destruct c end; cbn; apply H2; cbn; repeat split.
  Qed.
  Lemma newdir_covered fuel path il o r : linux_watch s fuel path il [] = (o, r) ->
    forall q, In (q, FCreate, true) (fw_log (state e o)) -> ~ pending_for (state e o) q FCreate true -> ~ behind_crossing (state e o) q FCreate true ->
    (forall t p', os_realpath s t q = Some p' -> p' = q) ->
    not_watched o q \/ exists a m b, o = a ++ OFanMark (fe_fd e) q m 0 :: b /\ covered e o (a ++ [OFanMark (fe_fd e) q m 0]) q.
  Proof.
    intros E q Hin Hp Hu Hr. destruct (newdir_told fuel path il o r E q Hin Hp Hu) as (a & ev & b & Eo & Hq & Hnew).
    pose proof (linux_watch_marks s fuel path il []) as HM. pose proof (run_answers fuel path il) as HA. rewrite E in HM, HA. cbn [fst] in HM, HA.
    destruct (HM a ev b Eo Hnew) as (o0 & m & -> & Hat). rewrite Hq in Hat. destruct Hat as [real fd mask wd H0 Hask|real fd mask Hask|m t].
    - exfalso. rewrite Eo in HA. apply answers_app in HA as [HA _]. apply answers_app in HA as [_ HA]. cbn in HA. unfold agree in HA. cbn in HA. tauto.
    - right. rewrite Eo in HA. apply answers_app in HA as [HA _]. apply answers_app in HA as [_ HA]. cbn [answers app] in HA. destruct HA as ((HA1 & _) & (HA2 & _) & (HA3 & _) & _).
      cbn [answer] in HA1, HA2, HA3. symmetry in HA1. apply Hr in HA1. subst real.
      set (t3 := (o0 ++ [ORealpath q (Some q)]) ++ [OStatDir q true]) in *. cbn [os_fan_mark system] in HA3.
      assert (Hfd : fd = fe_fd e). { unfold marking in HA3. destruct (Z.eqb_spec fd (fe_fd e)); [assumption|discriminate HA3]. }
      subst fd. exists t3, mask, (OCallback ev :: b). split.
      + rewrite Eo. unfold t3. rewrite <- !app_assoc. reflexivity.
      + apply marked_covered. apply mark_works; [symmetry; exact HA3|].
        unfold LinuxSpec.asks in Hask. unfold asks. apply forallb_forall. rewrite Forall_forall in Hask. intros z Hz.
        specialize (Hask z). unfold flag in Hask. apply Hask. clear -Hz. cbn in *. repeat destruct Hz as [<-|Hz]; try tauto.
    - left. unfold not_watched. rewrite Eo. rewrite !shown_app. apply in_or_app. left. apply in_or_app. right. apply in_or_app. right. cbn. now left.
  Qed.
End New.

(** The start marks every readable directory once (C33). *)
From Verif Require Import Base PathModel EventModel Sys SysFacts LinuxModel InotifyModel
  FanotifyModel LinuxWatch LinuxSpec LinuxFacts LinuxRun LinuxProps LinuxChoice LinuxLoop InotifySpec InotifyFacts InotifyRun
  InotifyClaims InotifyTree WalkSpec.

Lemma offered_app a b : Forall no_wait a -> offered (a ++ b) = offered a ++ offered b.
Proof.
  induction 1 as [|x a Hx _ IH]; [reflexivity|]. cbn [app offered].
  destruct x; try exact IH; try (cbn [app]; now rewrite IH). destruct Hx.
Qed.

Lemma lit_dot e : text_eqb (de_name e) (lit ".") = false -> de_name e <> lit ".".
Proof. apply text_eqb_neq. Qed.

Section Walk.
  Variable s : os.
  Variable S : Type.
  Variable f : text -> S -> M S.
  Hypothesis Hf : forall p d st tr,
    (forall t, os_realpath s t p = Some d) -> (forall t, os_is_dir s t d = true) ->
    exists o st', f p st tr = (o, Ok st') /\ offered o = [d] /\ Forall no_wait o.

  (** The loop over the entries, named. *)
  Definition each_sub (k : nat) (p : text) : list dirent -> S -> M S :=
    fix each (es : list dirent) (st : S) : M S :=
    match es with
    | [] => ret st
    | de :: es' =>
        if negb (de_type de =? 4)%N then each es' st
        else if text_eqb (de_name de) (lit ".") then each es' st
        else if text_eqb (de_name de) (lit "..") then each es' st
        else
          r <- realpath s (firstn path_ulim (p ++ lit "/" ++ de_name de)) ;;
          match r with
          | None => each es' st
          | Some real => st' <- walkdir s k real f st ;; each es' st'
          end
    end.
  Lemma each_cons k p de es st : each_sub k p (de :: es) st =
    (if negb (de_type de =? 4)%N then each_sub k p es st
     else if text_eqb (de_name de) (lit ".") then each_sub k p es st
     else if text_eqb (de_name de) (lit "..") then each_sub k p es st
     else
       r <- realpath s (firstn path_ulim (p ++ lit "/" ++ de_name de)) ;;
       match r with
       | None => each_sub k p es st
       | Some real => st' <- walkdir s k real f st ;; each_sub k p es st'
       end).
  Proof. reflexivity. Qed.
  Lemma walkdir_S k p st : walkdir s (Datatypes.S k) p f st =
    (d <- opendir s p ;;
     match d with
     | None => ret st
     | Some ents => st1 <- f p st ;; st2 <- each_sub k p ents st1 ;; closedir p ;;; ret st2
     end).
  Proof. reflexivity. Qed.

  Lemma each_gone k p e es st tr :
    (length (p ++ lit "/" ++ de_name e) <= N.to_nat 4095)%nat ->
    de_type e = 4%N -> text_eqb (de_name e) (lit ".") = false -> text_eqb (de_name e) (lit "..") = false ->
    os_realpath s tr (p ++ lit "/" ++ de_name e) = None ->
    each_sub k p (e :: es) st tr =
    let x := ORealpath (p ++ lit "/" ++ de_name e) None in
    let (o, r) := each_sub k p es st (tr ++ [x]) in (x :: o, r).
  Proof.
    intros Hlen H1 H2 H3 H4. rewrite each_cons. rewrite H1, H2, H3. cbn [N.eqb negb Pos.eqb].
    rewrite (firstn_all2 (n := path_ulim)) by exact Hlen. unfold bind at 1, realpath. rewrite H4. reflexivity.
  Qed.
  Lemma each_real k p e es st tr q :
    (length (p ++ lit "/" ++ de_name e) <= N.to_nat 4095)%nat ->
    de_type e = 4%N -> text_eqb (de_name e) (lit ".") = false -> text_eqb (de_name e) (lit "..") = false ->
    os_realpath s tr (p ++ lit "/" ++ de_name e) = Some q ->
    each_sub k p (e :: es) st tr =
    let x := ORealpath (p ++ lit "/" ++ de_name e) (Some q) in
    let (o, r) := (st' <- walkdir s k q f st ;; each_sub k p es st') (tr ++ [x]) in (x :: o, r).
  Proof.
    intros Hlen H1 H2 H3 H4. rewrite each_cons. rewrite H1, H2, H3. cbn [N.eqb negb Pos.eqb].
    rewrite (firstn_all2 (n := path_ulim)) by exact Hlen. unfold bind at 1, realpath. rewrite H4. reflexivity.
  Qed.
  Lemma each_skip k p e es st tr :
    (de_type e =? 4)%N = false \/ text_eqb (de_name e) (lit ".") = true \/ text_eqb (de_name e) (lit "..") = true ->
    each_sub k p (e :: es) st tr = each_sub k p es st tr.
  Proof.
    intros H. rewrite each_cons. destruct (de_type e =? 4)%N; cbn [negb]; [|reflexivity].
    destruct (text_eqb (de_name e) (lit ".")); [reflexivity|]. destruct (text_eqb (de_name e) (lit "..")); [reflexivity|].
    destruct H as [H|[H|H]]; discriminate.
  Qed.

  (** Either skipped or looked at. *)
  Lemma entry_case e :
    ((de_type e =? 4)%N = false \/ text_eqb (de_name e) (lit ".") = true \/ text_eqb (de_name e) (lit "..") = true) \/
    (de_type e = 4%N /\ text_eqb (de_name e) (lit ".") = false /\ text_eqb (de_name e) (lit "..") = false).
  Proof.
    destruct (N.eqb_spec (de_type e) 4); [|tauto].
    destruct (text_eqb (de_name e) (lit ".")); [tauto|]. destruct (text_eqb (de_name e) (lit "..")); tauto.
  Qed.

  Lemma each_offers k
    (IH : forall p t st tr, on_disk s p t -> (depth t < k)%nat ->
      exists o st', walkdir s k p f st tr = (o, Ok st') /\ offered o = preorder t /\ Forall no_wait o) :
    (0 < k)%nat ->
    forall p d ents subs, lists s p d ents subs -> (forall t, In t subs -> (depth t < k)%nat) ->
    forall st tr, exists o st', each_sub k p ents st tr = (o, Ok st') /\
      offered o = flat_map preorder subs /\ Forall no_wait o.
  Proof.
    intros Hk p d ents subs Hl.
    induction Hl as [p d|p d e es subs He Hl IHl|p d e es subs Hlen Hr Hl IHl|p d e es subs q Hlen Hr Hno Hl IHl|p d e es subs sub He Hn Hlen Hr Hq Hnew Hon Hl IHl]; intros Hsub st1 tr0.
    - exists [], st1. repeat split. constructor.
    - rewrite each_skip; [apply IHl, Hsub|].
      destruct (entry_case e) as [H|(H1 & H2 & H3)]; [exact H|]. exfalso. apply He.
      split; [exact H1|]. split; now apply text_eqb_neq.
    - destruct (entry_case e) as [H|(H1 & H2 & H3)]; [rewrite each_skip by exact H; apply IHl, Hsub|].
      rewrite each_gone by (auto; apply Hr). cbv zeta.
      destruct (IHl Hsub st1 (tr0 ++ [ORealpath (p ++ lit "/" ++ de_name e) None])) as (o & st2 & E & Ho & Hq).
      rewrite E. do 2 eexists. split; [reflexivity|]. split; [exact Ho|]. constructor; [exact I|exact Hq].
    - destruct (entry_case e) as [H|(H1 & H2 & H3)]; [rewrite each_skip by exact H; apply IHl, Hsub|].
      rewrite (each_real k p e es st1 tr0 q) by (auto; apply Hr). cbv zeta.
      set (t1 := tr0 ++ [ORealpath (p ++ lit "/" ++ de_name e) (Some q)]).
      assert (Hw : walkdir s k q f st1 t1 = ([OOpendir q None], Ok st1)).
      { destruct k; [lia|]. rewrite walkdir_S. unfold bind, opendir. now rewrite Hno. }
      destruct (IHl Hsub st1 (t1 ++ [OOpendir q None])) as (o & st2 & E & Ho & Hq').
      match goal with |- context [bind ?m ?k t1] => replace (bind m k t1) with ([OOpendir q None] ++ o, Ok st2) by (symmetry; exact (bind_ok_eq _ _ _ _ _ _ _ Hw E)) end.
      do 2 eexists. split; [reflexivity|]. split; [exact Ho|]. repeat (constructor; [exact I|]). exact Hq'.
    - destruct He as (He1 & He2 & He3). apply text_eqb_neq in He2, He3.
      rewrite (each_real k p e es st1 tr0 (root_dir sub)) by (auto; apply Hr). cbv zeta.
      set (t1 := tr0 ++ [ORealpath (p ++ lit "/" ++ de_name e) (Some (root_dir sub))]).
      destruct (IH (root_dir sub) sub st1 t1 Hon (Hsub sub (or_introl eq_refl))) as (o & st2 & E & Ho & Hq').
      assert (Hsub' : forall t, In t subs -> (depth t < k)%nat) by (intros; apply Hsub; now right).
      destruct (IHl Hsub' st2 (t1 ++ o)) as (o' & st3 & E' & Ho' & Hq'').
      match goal with |- context [bind ?m ?k t1] => replace (bind m k t1) with (o ++ o', Ok st3) by (symmetry; exact (bind_ok_eq _ _ _ _ _ _ _ E E')) end.
      do 2 eexists. split; [reflexivity|]. cbn [offered flat_map]. rewrite offered_app by exact Hq'. rewrite Ho, Ho'.
      split; [reflexivity|]. constructor; [exact I|]. now apply Forall_app.
  Qed.

  Lemma walk_offers fuel : forall p t st tr, on_disk s p t -> (depth t < fuel)%nat ->
    exists o st', walkdir s fuel p f st tr = (o, Ok st') /\ offered o = preorder t /\ Forall no_wait o.
  Proof.
    induction fuel as [|k IH]; intros p t st tr Hd Hlt; [lia|].
    destruct Hd as [p d ents subs Hopen Hreal Hdir Hne Hl].
    rewrite walkdir_S. unfold bind at 1, opendir. rewrite Hopen.
    set (tr1 := tr ++ [OOpendir p (Some ents)]).
    destruct (Hf p d st tr1 Hreal Hdir) as (o1 & st1 & E1 & Ho1 & Hq1).
    assert (Hsub : forall t, In t subs -> (depth t < k)%nat).
    { intros t Ht. cbn [depth] in Hlt. clear -Ht Hlt. induction subs as [|x l IHl]; [destruct Ht|].
      cbn [fold_right] in Hlt. destruct Ht as [->|Ht]; [lia|]. apply IHl; [lia|exact Ht]. }
    assert (Hk : (0 < k)%nat) by (cbn [depth] in Hlt; lia).
    destruct (each_offers k IH Hk p d ents subs Hl Hsub st1 (tr1 ++ o1)) as (o2 & st2 & E2 & Ho2 & Hq2).
    rewrite (bind_ok_eq _ _ _ _ _ (o2 ++ [OClosedir p]) (Ok st2) E1).
    2:{ rewrite (bind_ok_eq _ _ _ _ _ [OClosedir p] (Ok st2) E2); reflexivity. }
    do 2 eexists. split; [reflexivity|].
    cbn [app offered preorder]. rewrite !offered_app by assumption. rewrite Ho1, Ho2. cbn [offered app].
    rewrite app_nil_r. split; [reflexivity|]. constructor; [exact I|].
    apply Forall_app. split; [exact Hq1|]. apply Forall_app. split; [exact Hq2|repeat constructor].
  Qed.
End Walk.

Section Start.
  Variable s : os.

  Lemma in_mark_offers fd p d dm tr :
    (forall t, os_realpath s t p = Some d) -> (forall t, os_is_dir s t d = true) ->
    exists o dm', (q <- in_mark s p fd dm ;; ret (fst q)) tr = (o, Ok dm') /\ offered o = [d] /\ Forall no_wait o.
  Proof.
    intros Hr Hd. unfold in_mark, bind, realpath, stat_dir, inotify_add_watch, send_msg, new_event, bind, now, callback, ret.
    rewrite Hr, Hd. cbn. destruct (0 <? _)%Z; cbn; do 2 eexists; (split; [reflexivity|]); (split; [reflexivity|repeat constructor]).
  Qed.
  Lemma fa_mark_offers fd p d (u : unit) tr :
    (forall t, os_realpath s t p = Some d) -> (forall t, os_is_dir s t d = true) ->
    exists o u', (fa_mark s p fd ;;; ret tt) tr = (o, Ok u') /\ offered o = [d] /\ Forall no_wait o.
  Proof.
    intros Hr Hd. unfold fa_mark, bind, realpath, stat_dir, fanotify_mark, send_msg, new_event, bind, now, callback, ret.
    rewrite Hr, Hd. cbn. destruct (_ =? 0)%Z; cbn; do 2 eexists; (split; [reflexivity|]); (split; [reflexivity|repeat constructor]).
  Qed.

  Lemma make_ep_offers a b tr : exists o ep, make_ep s a b tr = (o, Ok ep) /\ offered o = [] /\ Forall no_wait o.
  Proof.
    unfold make_ep, bind, epoll_create, epoll_ctl, sys_close, ret. cbn [app].
    repeat match goal with |- context [if ?c then _ else _] => destruct c end;
      do 2 eexists; (split; [reflexivity|split; [reflexivity|repeat constructor]]).
  Qed.

  Lemma in_make_offers fuel path t il tr : on_disk s path t -> (depth t < fuel)%nat ->
    let fd := os_inotify_init s tr in
    exists o x, in_make_sysres s fuel path il tr = (o, Ok x) /\ Forall no_wait o /\
      ((0 <= fd)%Z -> offered o = preorder t) /\ ((fd < 0)%Z -> offered o = []).
  Proof.
    intros Hd Hlt fd. unfold in_make_sysres. unfold bind at 1, inotify_init. cbv zeta. fold fd.
    destruct (Z.ltb_spec fd 0).
    { do 2 eexists. split; [reflexivity|]. split; [repeat constructor|]. split; [lia|reflexivity]. }
    set (t1 := tr ++ [OInotifyInit fd]).
    destruct (walk_offers s (zmap text) (fun dir dm => p <- in_mark s dir fd dm ;; ret (fst p))
               (in_mark_offers fd) fuel path t [] t1 Hd Hlt) as (o1 & dm & E1 & Ho1 & Hq1).
    unfold bind at 1. rewrite E1. destruct dm as [|x dm].
    - do 2 eexists. split; [reflexivity|]. rewrite app_nil_r. split; [constructor; [exact I|exact Hq1]|].
      split; [intros _; exact Ho1|lia].
    - destruct (make_ep_offers fd il (t1 ++ o1)) as (o2 & ep & E2 & Ho2 & Hq2).
      unfold bind at 1. rewrite E2. do 2 eexists. split; [reflexivity|]. rewrite app_nil_r.
      split; [constructor; [exact I|]; now apply Forall_app|].
      split; [intros _|lia]. cbn [app offered]. rewrite offered_app by exact Hq1. now rewrite Ho1, Ho2, app_nil_r.
  Qed.

  Lemma fa_make_offers fuel path t il tr : on_disk s path t -> (depth t < fuel)%nat ->
    let fd := os_fan_init s tr in
    exists o x, fa_make_sysres s fuel path il tr = (o, Ok x) /\ Forall no_wait o /\
      ((0 < fd)%Z -> offered o = preorder t) /\ ((fd <= 0)%Z -> offered o = []).
  Proof.
    intros Hd Hlt fd. unfold fa_make_sysres. unfold bind at 1, fanotify_init. cbv zeta. fold fd.
    destruct (Z.ltb_spec fd 1).
    { do 2 eexists. split; [reflexivity|]. split; [repeat constructor|]. split; [lia|reflexivity]. }
    set (t1 := tr ++ [OFanInit fd]).
    destruct (walk_offers s unit (fun dir _ => fa_mark s dir fd ;;; ret tt)
               (fa_mark_offers fd) fuel path t tt t1 Hd Hlt) as (o1 & u & E1 & Ho1 & Hq1).
    unfold bind at 1. rewrite E1.
    destruct (make_ep_offers fd il (t1 ++ o1)) as (o2 & ep & E2 & Ho2 & Hq2).
    unfold bind at 1. rewrite E2.
    assert (Ho : offered (o1 ++ o2) = preorder t) by (rewrite offered_app by exact Hq1; now rewrite Ho1, Ho2, app_nil_r).
    destruct (ep <? 1)%Z.
    - do 2 eexists. split; [reflexivity|]. split.
      { constructor; [exact I|]. apply Forall_app. split; [exact Hq1|]. apply Forall_app. split; [exact Hq2|repeat constructor]. }
      split; [intros _|lia]. cbn [app offered]. rewrite !offered_app by assumption. now rewrite Ho1, Ho2, !app_nil_r.
    - do 2 eexists. split; [reflexivity|]. rewrite app_nil_r.
      split; [constructor; [exact I|]; now apply Forall_app|]. split; [intros _; exact Ho|lia].
  Qed.

  (** After the start nothing is offered before the first wait. *)
  Lemma after_make K k_fd (recv : K -> M (result * K)) il fuel make tr o x :
    make tr = (o, Ok x) -> Forall no_wait o ->
    exists o' , fst (platform_watch s K k_fd recv il fuel make tr) = o ++ o' /\ offered o' = [] /\
      (Forall no_wait o' \/ exists w o'', o' = w :: o'' /\ ~ no_wait w).
  Proof.
    intros E Hq. unfold platform_watch. unfold bind at 1. rewrite E. destruct x as [[ok ke] ep].
    destruct fuel as [|n].
    { exists []. split; [reflexivity|]. split; [reflexivity|]. left. constructor. }
    destruct (r_lt ok r_complete) eqn:Elt.
    - assert (Hw : exists ww o2 r2, ep_loop s K k_fd recv il (S n) ep ok ke (tr ++ o) = (OEpollWait ep ww :: o2, r2)).
      { destruct (os_epoll_wait s (tr ++ o) ep) eqn:Ew.
        - rewrite (ep_loop_some _ _ _ _ _ _ _ _ _ _ _ Elt Ew). cbv zeta.
          match goal with |- context [let (_, _) := ?m in _] => destruct m end. eauto.
        - rewrite (ep_loop_none _ _ _ _ _ _ _ _ _ _ Elt Ew). cbv zeta.
          match goal with |- context [let (_, _) := ?m in _] => destruct m end. eauto. }
      destruct Hw as (ww & o2 & r2 & Hw). unfold bind at 1. rewrite Hw. destruct r2 as [[ok' ke']|u| |].
      2-4: eexists (OEpollWait ep ww :: o2); split; [reflexivity|]; split; [reflexivity|]; right; do 2 eexists; split; [reflexivity|intros []].
      eexists (OEpollWait ep ww :: o2 ++ [OClose (k_fd ke'); OClose ep]). split; [reflexivity|]. split; [reflexivity|].
      right. do 2 eexists. split; [reflexivity|intros []].
    - unfold bind at 1. rewrite ep_loop_done by exact Elt.
      exists [OClose (k_fd ke); OClose ep]. split; [reflexivity|]. split; [reflexivity|]. left. repeat constructor.
  Qed.

  Lemma offered_end a b : (Forall no_wait a \/ exists w o, a = w :: o /\ ~ no_wait w) -> offered a = [] -> offered b = [] -> offered (a ++ b) = [].
  Proof.
    intros [H|(w & o & -> & Hw)] Ha Hb.
    - rewrite offered_app by exact H. now rewrite Ha, Hb.
    - destruct w; cbn in Hw; try tauto; try reflexivity.
  Qed.

  Lemma linux_watch_offers fuel path t il tr :
    on_disk s path t -> (depth t < fuel)%nat -> opened (fst (linux_watch s fuel path il tr)) ->
    offered (fst (linux_watch s fuel path il tr)) = preorder t.
  Proof.
    intros Hd Hlt. assert (Hfuel : fuel <> 0%nat) by lia.
    set (fin := fun r => if r_ge r r_e then send_msg s r path ;;; ret false else ret true).
    assert (Hfin : forall r t, offered (fst (fin r t)) = [] /\ Forall no_wait (fst (fin r t))).
    { intros r t0. unfold fin. destruct (r_ge r r_e); cbn; split; repeat constructor. }
    assert (Hino : forall t1, let R := fst ((r' <- run_inotify s fuel path il ;; fin r') t1) in
       (exists rest, R = OInotifyInit (os_inotify_init s t1) :: rest /\ none_of uses_fanotify rest /\ none_of uses_inotify rest) /\
       ((0 <= os_inotify_init s t1)%Z -> offered R = preorder t) /\ ((os_inotify_init s t1 < 0)%Z -> offered R = [])).
    { intros t1 R. set (fd := os_inotify_init s t1).
      destruct (in_make_offers fuel path t il t1 Hd Hlt) as (o & x & E & Hq & Ho1 & Ho2). fold fd in Ho1, Ho2.
      destruct (after_make kin kin_fd (in_recv s) il fuel _ _ _ _ E Hq) as (o' & E' & Ho' & Hend).
      fold (run_inotify s fuel path il t1) in E'.
      assert (HR : exists o2, R = (o ++ o') ++ o2 /\ offered o2 = []).
      { unfold R, bind. fold (run_inotify s fuel path il) in E'. destruct (run_inotify s fuel path il t1) as [oo rr].
        cbn [fst] in E'. subst oo. destruct rr as [r|u| |]; try (exists []; now rewrite app_nil_r).
        destruct (Hfin r (t1 ++ o ++ o')) as [Hf1 _]. destruct (fin r (t1 ++ o ++ o')) as [o2 r2]. exists o2. auto. }
      destruct HR as (o2 & HR & Ho2').
      assert (Hoff : offered R = offered o).
      { rewrite HR, <- app_assoc, offered_app by exact Hq. rewrite offered_end by assumption. apply app_nil_r. }
      split; [|split; intros; rewrite Hoff; auto].
      assert (Hsplit : exists rest, fst (run_inotify s fuel path il t1) = OInotifyInit fd :: rest /\
                 none_of (fun x => uses_fanotify x \/ uses_inotify x) rest).
      { destruct (run_inotify_init s fuel path il t1) as (fd' & rest & Er & Hn).
        assert (fd' = fd).
        { unfold run_inotify, platform_watch, in_make_sysres in Er. rewrite bind_assoc in Er.
          unfold bind at 1, inotify_init in Er. match type of Er with fst (let (_, _) := ?m ?t in _) = _ => destruct (m t) end.
          cbn [fst app] in Er. injection Er as Er _. unfold fd. now symmetry. }
        subst fd'. eauto. }
      destruct Hsplit as (rest & Er & Hn).
      assert (HRR : exists o3, R = (OInotifyInit fd :: rest) ++ o3 /\ none_of (fun x => uses_fanotify x \/ uses_inotify x) o3).
      { unfold R, bind. destruct (run_inotify s fuel path il t1) as [oo rr]. cbn [fst] in Er. subst oo.
        destruct rr as [r|u| |]; try (exists []; rewrite app_nil_r; split; [reflexivity|constructor]).
        pose proof (final_none s r path (fun x => uses_fanotify x \/ uses_inotify x) (fun x H => H) (t1 ++ OInotifyInit fd :: rest)) as Hfn.
        fold (fin r) in Hfn. destruct (fin r (t1 ++ OInotifyInit fd :: rest)) as [o3 r3]. exists o3. auto. }
      destruct HRR as (o3 & -> & Hn3). exists (rest ++ o3). split; [reflexivity|].
      split; apply Forall_app; split; (eapply Forall_impl; [|eassumption]; cbn; tauto). }
    enough (HW : forall W, fst (linux_watch s fuel path il tr) = W -> opened W -> offered W = preorder t) by eauto.
    intros W. rewrite linux_watch_split. unfold adapters, try_fanotify.
    rewrite bind_assoc, bind_assoc. unfold bind at 1, geteuid. set (uid := os_geteuid s tr).
    match goal with |- context [let (_, _) := ?m ?t in _] => set (k := m); set (tr1 := t) end.
    destruct (k tr1) as [o2 r2] eqn:E2. cbn [fst app].
    intros <- Hop. cbn [offered]. assert (Hop' : opened o2).
    { destruct Hop as [(fd & [[=]|Hin] & H)|(fd & [[=]|Hin] & H)]; [left|right]; eauto. }
    clear Hop. unfold k in E2. clear k.
    destruct (Z.eqb_spec uid 0) as [Hu|Hu].
    - assert (HX : exists oF, fst (run_fanotify s fuel path il tr1) = oF /\ True) by eauto. clear HX.
      destruct (fa_make_offers fuel path t il tr1 Hd Hlt) as (o & x & E & Hq & Ho1 & Ho2).
      destruct (after_make kfa kfa_fd (fa_recv s) il fuel _ _ _ _ E Hq) as (o' & E' & Ho' & Hend).
      fold (run_fanotify s fuel path il) in E'.
      destruct (run_fanotify_init s fuel path il tr1) as (fd & rest & Er & Hn & Hlow & Hhigh).
      assert (Hfd : fd = os_fan_init s tr1).
      { clear -Er. unfold run_fanotify, platform_watch, fa_make_sysres in Er. rewrite bind_assoc in Er.
        unfold bind at 1, fanotify_init in Er. match type of Er with fst (let (_, _) := ?m ?t in _) = _ => destruct (m t) end.
        cbn [fst app] in Er. now injection Er as Er _. }
      unfold bind at 1 in E2. destruct (run_fanotify s fuel path il tr1) as [o3 r3]. cbn [fst snd] in *.
      rewrite <- Hfd in Ho1, Ho2.
      destruct (Z.ltb_spec fd 1) as [Hlt1|Hge].
      + destruct (Hlow Hfuel Hlt1) as [-> ->]. cbn [r_eqb code N.eqb Pos.eqb] in E2.
        set (t2 := tr1 ++ o3) in *.
        destruct (Hino t2) as ((rest2 & ER & HnF & HnI) & HI1 & HI2). clear Hino.
        change ((let (oa, ra) := (r' <- run_inotify s fuel path il ;; fin r') t2 in (o3 ++ oa, ra)) = (o2, r2)) in E2.
        destruct ((r' <- run_inotify s fuel path il ;; fin r') t2) as [o4 r4] eqn:E4.
        cbn [fst] in ER, HI1, HI2. injection E2 as <- _. clearbody t2. rewrite Er in Hop' |- *. clear E' Er.
        cbn [app offered]. destruct (Z.ltb_spec (os_inotify_init s t2) 0) as [Hneg|Hpos]; [|now apply HI1].
        exfalso. clear -Hop' ER HnF HnI Hneg Hlt1. rewrite ER in Hop'. cbn [app] in Hop'.
        unfold none_of in *. rewrite Forall_forall in HnF, HnI.
        destruct Hop' as [(f & Hin & Hf)|(f & Hin & Hf)]; cbn [In] in Hin.
        * destruct Hin as [[= <-]|[[=]|[[=]|[[=]|Hin]]]]; [lia|]. apply (HnF _ Hin). exact I.
        * destruct Hin as [[=]|[[=]|[[=]|[[= <-]|Hin]]]]; [lia|]. apply (HnI _ Hin). exact I.
      + specialize (Hhigh ltac:(lia)).
        assert (HR : exists o4, o2 = (o ++ o') ++ o4 /\ offered o4 = []).
        { destruct r3 as [r3|u| |]; try (injection E2 as <- _; exists []; now rewrite app_nil_r).
          destruct (r_eqb r3 r_e_sys_api_fanotify) eqn:Eq.
          { exfalso. apply Hhigh. destruct r3; try discriminate Eq; reflexivity. }
          rewrite bind_ret in E2. change (if r_ge r3 r_e then send_msg s r3 path ;;; ret false else ret true) with (fin r3) in E2.
          destruct (Hfin r3 (tr1 ++ o3)) as [Hf1 _].
          destruct (fin r3 (tr1 ++ o3)) as [o4 r4]. injection E2 as <- _. exists o4. rewrite E'. auto. }
        destruct HR as (o4 & -> & Ho4). rewrite <- app_assoc, offered_app by exact Hq.
        rewrite offered_end by assumption. rewrite app_nil_r. apply Ho1. lia.
    - rewrite bind_ret in E2. cbn [r_eqb code N.eqb Pos.eqb] in E2.
      destruct (Hino tr1) as ((rest2 & ER & HnF & HnI) & HI1 & HI2).
      change ((r' <- run_inotify s fuel path il ;; fin r') tr1 = (o2, r2)) in E2. rewrite E2 in ER, HI1, HI2. cbn [fst] in *.
      destruct (Z.ltb_spec (os_inotify_init s tr1) 0) as [Hneg|Hpos]; [|now apply HI1].
      exfalso. clear -Hop' ER HnF HnI Hneg. rewrite ER in Hop'.
      unfold none_of in *. rewrite Forall_forall in HnF, HnI.
      destruct Hop' as [(f & Hin & Hf)|(f & Hin & Hf)]; cbn [In] in Hin.
      * destruct Hin as [[=]|Hin]. apply (HnF _ Hin). exact I.
      * destruct Hin as [[= <-]|Hin]; [lia|]. apply (HnI _ Hin). exact I.
  Qed.
End Start.

(** ** Each directory once, parents first. *)

Scheme on_disk_mut := Induction for on_disk Sort Prop
  with lists_mut := Induction for lists Sort Prop.

Definition base_of (d : text) : text := slashed d.
Definition component (t : text) : text :=
  (fix go (t : text) : text := match t with [] => [] | b :: t' => if (b =? 47)%N then [] else b :: go t' end) t.

Lemma entry_slashed d n : d <> [] -> entry d n = slashed d ++ n.
Proof.
  intros Hd. unfold entry, slashed. destruct d as [|x d]; [congruence|].
  destruct (last (x :: d) 0 =? 47)%N; [reflexivity|]. now rewrite <- app_assoc.
Qed.

Lemma component_name n : good_name n -> component n = n.
Proof.
  intros [_ H]. induction H as [|b n [_ Hb] _ IH]; [reflexivity|]. cbn.
  destruct (N.eqb_spec b 47); [congruence|]. f_equal. exact IH.
Qed.
Lemma component_slash n rest : good_name n -> component (n ++ lit "/" ++ rest) = n.
Proof.
  intros [_ H]. induction H as [|b n [_ Hb] _ IH]; [reflexivity|]. cbn.
  destruct (N.eqb_spec b 47); [congruence|]. f_equal. exact IH.
Qed.

Lemma last_good d n : good_name n -> last (d ++ n) 0%N <> 47%N.
Proof.
  intros [Hne H]. destruct n as [|x n] using rev_ind; [congruence|]. clear IHn Hne.
  rewrite app_assoc, last_last. apply Forall_app in H. destruct H as [_ H]. inversion H. tauto.
Qed.

Lemma slashed_entry d n : good_name n -> d <> [] -> slashed (entry d n) = slashed d ++ n ++ lit "/".
Proof.
  intros Hn Hd. rewrite entry_slashed by exact Hd. unfold slashed at 1.
  destruct (N.eqb_spec (last (slashed d ++ n) 0%N) 47) as [E|_]; [now apply last_good in E|]. now rewrite <- app_assoc.
Qed.

(** Every directory of a tree is the root or lies strictly below it. *)
Definition below (d q : text) : Prop := q = d \/ exists rest, rest <> [] /\ q = slashed d ++ rest.

Lemma below_entry d n q : good_name n -> d <> [] -> below (entry d n) q ->
  exists rest, rest <> [] /\ q = slashed d ++ rest /\ component rest = n.
Proof.
  intros Hn Hd [->|(rest & Hr & ->)].
  - exists n. rewrite entry_slashed by exact Hd. split; [apply Hn|]. split; [reflexivity|]. now apply component_name.
  - rewrite slashed_entry by assumption. exists (n ++ lit "/" ++ rest). split; [destruct n; discriminate|].
    split; [now rewrite <- !app_assoc|]. now apply component_slash.
Qed.

Lemma preorder_below s p t : on_disk s p t -> forall q, In q (preorder t) -> below (root_dir t) q.
Proof.
  revert p t.
  apply (on_disk_mut s (fun p t _ => forall q, In q (preorder t) -> below (root_dir t) q)
    (fun p d ents subs _ => d <> [] -> forall q, In q (flat_map preorder subs) -> exists rest, rest <> [] /\ q = slashed d ++ rest));
    intros; cbn in *; auto.
  - destruct H0 as [<-|H0]; [now left|]. right. now apply H.
  - destruct H0.
  - apply in_app_iff in H2. destruct H2 as [H2|H2]; [|now apply H0].
    apply H in H2. rewrite e1 in H2. apply below_entry in H2; [|assumption..].
    destruct H2 as (rest & Hr & -> & _). eauto.
Qed.

Lemma NoDup_app {A} (a b : list A) : NoDup a -> NoDup b -> (forall x, In x a -> In x b -> False) -> NoDup (a ++ b).
Proof.
  induction 1 as [|x a Hx _ IH]; intros Hb Hd; [exact Hb|]. cbn. constructor.
  - rewrite in_app_iff. intros [H|H]; [tauto|]. eapply Hd; [now left|exact H].
  - apply IH; [exact Hb|]. intros y H1 H2. eapply Hd; [right; exact H1|exact H2].
Qed.

Lemma lists_names s p d ents subs : lists s p d ents subs ->
  Forall (fun t => exists n, good_name n /\ root_dir t = entry d n /\ on_disk s (root_dir t) t) subs.
Proof. induction 1; auto. constructor; eauto. Qed.

Lemma preorder_nodup s p t : on_disk s p t -> NoDup (preorder t).
Proof.
  revert p t.
  apply (on_disk_mut s (fun p t _ => NoDup (preorder t))
    (fun p d ents subs _ => d <> [] -> NoDup (flat_map preorder subs))).
  - intros p d ents subs Ho Hr Hd Hne Hl IH. cbn. constructor; [|now apply IH].
    intros Hin. apply in_flat_map in Hin. destruct Hin as (t & Ht & Hin).
    pose proof (lists_names _ _ _ _ _ Hl) as Hns. rewrite Forall_forall in Hns.
    destruct (Hns _ Ht) as (n & Hn & En & Hon). eapply preorder_below in Hin; [|exact Hon].
    rewrite En in Hin. apply below_entry in Hin; [|assumption..]. destruct Hin as (rest & Hrest & E & _).
    apply (f_equal (@length N)) in E. rewrite app_length in E. unfold slashed in E.
    destruct rest; [congruence|]. destruct (last d 0 =? 47)%N; cbn in E; rewrite ?app_length in E; cbn in E; lia.
  - intros p d _. constructor.
  - auto.
  - auto.
  - auto.
  - intros p d e es subs sub Hs Hn Hlen Hr Hq Hnew Hon IHsub Hl IHl Hne. cbn. apply NoDup_app; [exact IHsub|now apply IHl|].
    intros x H1 H2. apply in_flat_map in H2. destruct H2 as (t & Ht & H2).
    pose proof (lists_names _ _ _ _ _ Hl) as Hns. rewrite Forall_forall in Hns.
    destruct (Hns _ Ht) as (n & Hn' & En & Hon'). eapply preorder_below in H2; [|exact Hon'].
    eapply preorder_below in H1; [|exact Hon]. rewrite En in H2. rewrite Hq in H1.
    apply below_entry in H1; [|assumption..]. apply below_entry in H2; [|assumption..].
    destruct H1 as (r1 & _ & E1 & C1). destruct H2 as (r2 & _ & E2 & C2). rewrite E1 in E2.
    apply app_inv_head in E2. subst r2. rewrite C1 in C2. apply Hnew. rewrite Hq, C2, <- En.
    now apply in_map.
Qed.

(** The parent comes before. *)
Lemma preorder_parent s p t : on_disk s p t -> forall a q b, preorder t = a ++ q :: b ->
  (a = [] /\ q = root_dir t) \/ exists d n, In d a /\ good_name n /\ q = entry d n.
Proof.
  revert p t.
  apply (on_disk_mut s (fun p t _ => forall a q b, preorder t = a ++ q :: b ->
       (a = [] /\ q = root_dir t) \/ exists d n, In d a /\ good_name n /\ q = entry d n)
    (fun p d ents subs _ => forall a q b, flat_map preorder subs = a ++ q :: b ->
       exists d' n, (d' = d \/ In d' a) /\ good_name n /\ q = entry d' n)); auto.
  - intros p d ents subs _ _ _ _ _ IH a q b E. cbn in E. destruct a as [|x a]; [left; injection E as <- _; auto|].
    injection E as <- E. right. destruct (IH a q b E) as (d' & n & [->|H] & Hn & ->); exists d', n || exists d, n; cbn; auto.
  - intros p d a q b E. destruct a; discriminate.
  - intros p d e es subs sub Hs Hn Hlen Hr Hq Hnew Hon IHsub Hl IHl a q b E. cbn in E.
    assert (Hc : (exists b', preorder sub = a ++ q :: b') \/ exists a', a = preorder sub ++ a' /\ flat_map preorder subs = a' ++ q :: b).
    { clear -E. revert a E. induction (preorder sub) as [|x l IH]; intros a E; [right; exists a; split; [reflexivity|exact E]|].
      destruct a as [|y a]; cbn in E; injection E as <- E; [left; eexists; reflexivity|].
      destruct (IH _ E) as [(b' & ->)|(a' & -> & E')]; [left; exists b'; reflexivity|right; exists a'; split; [reflexivity|exact E']]. }
    destruct Hc as [(b' & E')|(a' & -> & E')].
    + destruct (IHsub _ _ _ E') as [[-> ->]|(d' & n & Hin & Hg & ->)]; [exists d, (de_name e); auto|exists d', n; auto].
    + destruct (IHl _ _ _ E') as (d' & n & [->|Hin] & Hg & ->); [exists d, n; auto|exists d', n]. rewrite in_app_iff. auto.
Qed.

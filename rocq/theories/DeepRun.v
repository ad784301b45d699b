(** The adapter on the kernel of [DeepSpec]. *)
From Verif Require Import Base PathModel EventModel Sys SysFacts LinuxModel InotifyModel FanotifyModel LinuxWatch
  LinuxSpec LinuxFacts LinuxRun LinuxProps LinuxChoice InotifySpec InotifyFacts InotifyRun KernelSpec KernelFacts KernelRun DeepSpec DeepFacts.

Lemma told_app a x b y : told_of a x -> told_of b y -> told_of (a ++ b) (x ++ y).
Proof. intros H Hb. induction H; cbn; [exact Hb|apply TOne|apply TMove|apply TGap|apply TItself|apply TItself']; assumption. Qed.
Lemma told_nil l : told_of [] l -> l = [].
Proof. inversion 1. reflexivity. Qed.
Lemma told_each ns : exists l, told_of ns l.
Proof. induction ns as [|[mv o a d| |] ns (l & IH)]; eexists; [apply TAll|apply TOne|apply TItself|apply TGap]; exact IH. Qed.

Lemma news_app a b : news (a ++ b) = news a ++ news b.
Proof. unfold news. rewrite <- !shown_items, items_app, shown_app, filter_app. reflexivity. Qed.
Lemma news_items o : news o = filter is_news (shown (items o)).
Proof. unfold news. now rewrite shown_items. Qed.

(** ** A batch *)
Lemma not_watched_no_news p : is_news (warning "w/sys/not_watched@" p) = false.
Proof. reflexivity. Qed.
Lemma marks_news s known p ms known1 : marks s known p ms known1 -> filter is_news (shown ms) = [] /\ (forall k d, known k = Some d -> known1 k = Some d).
Proof. destruct 1; cbn [shown filter]; [|rewrite not_watched_no_news]; split; auto. intros k d H1. unfold learn. now rewrite H1. Qed.
Lemma type_news r p f a : is_news (Sh p f (type_of r) a) = true.
Proof. unfold type_of. now destruct (k_dir r). Qed.
Lemma batch_told s known rs is known' : batch s true known rs is known' -> forall ss G, rs = map fst ss -> Forall (fits G) ss -> adjs_all ss ->
  (forall x mv o a dir, In x ss -> snd x = About mv o a dir -> known (k_wd (fst x)) = Some dir) ->
  known (-1)%Z = None -> (forall wd d, In (Marked wd d) is -> (0 < wd)%Z) ->
  told_of (map snd ss) (filter is_news (shown is)).
Proof.
  intros B. induction B as [known|known r rs is known' K B IH|known d r rs is known' K KO B IH|known d r rs is known' K Ef Ko B IH|known d d' r n rs is known' P K K' B IH|known d r rs ms is known1 known' K Kc Kd Hm B IH|known d f r rs is known' K Ef Hnc Hnp B IH];
    intros ss G E F A Hk Hm1 Hpos.
  - destruct ss; [|discriminate]. constructor.
  - destruct ss as [|x ss]; [discriminate|]. injection E as -> ->. inversion F as [|? ? F1 F2]; subst.
    assert (T : told_of (map snd ss) (filter is_news (shown is))).
    { apply (IH ss G); auto; [exact (adjs_part [x] ss [] (eq_ind_r adjs_all A (f_equal (cons x) (app_nil_r ss))))| |]; [intros y mv o a dir Hy; apply Hk; now right|intros wd d Hin; apply (Hpos wd d); now right]. }
    destruct x as [r nt]. unfold fits in F1. cbn [fst snd] in *. cbn [map snd shown filter]. change (is_news (warning "w/sys/phantom@" [])) with true. cbn iota.
    destruct nt as [mv o a dir| |].
    + exfalso. specialize (Hk _ mv o a dir (or_introl eq_refl) eq_refl). cbn in Hk. congruence.
    + now apply TItself'.
    + now apply TGap.
  - destruct ss as [|x ss]; [discriminate|]. injection E as -> ->. inversion F as [|? ? F1 F2]; subst. exfalso.
    destruct x as [r nt]. unfold fits in F1. cbn [fst snd] in *. rewrite KO in F1.
    destruct nt as [mv o a dir| |]; [destruct F1 as (_ & _ & F1 & _); discriminate|destruct F1 as (_ & F1 & _); congruence|]. destruct F1 as (_ & F1). rewrite F1 in K. congruence.
  - destruct ss as [|x ss]; [discriminate|]. injection E as -> ->. inversion F as [|? ? F1 F2]; subst.
    assert (T : told_of (map snd ss) (filter is_news (shown is))).
    { apply (IH ss G); auto; [exact (adjs_part [x] ss [] (eq_ind_r adjs_all A (f_equal (cons x) (app_nil_r ss))))|]. intros y mv o a dir Hy; apply Hk; now right. }
    destruct x as [r nt]. unfold fits in F1. cbn [fst snd] in *. cbn [map snd].
    destruct nt as [mv o a dir| |]; [destruct F1 as (_ & _ & F1 & _); congruence|now apply TItself|destruct F1; congruence].
  - destruct ss as [|x [|y ss]]; try discriminate. injection E as -> -> ->. inversion F as [|? ? F1 F']; subst. inversion F' as [|? ? F2 F3]; subst.
    assert (T : told_of (map snd ss) (filter is_news (shown is))).
    { apply (IH ss G); auto; [exact (adjs_part [x; y] ss [] (eq_ind_r adjs_all A (f_equal (fun l => x :: y :: l) (app_nil_r ss))))| |]; [intros z mv o a dir Hz; apply Hk; right; now right|intros wd d1 Hin; apply (Hpos wd d1); now right]. }
    destruct (A [] x y ss eq_refl) as [_ A2]. destruct (A2 P) as (Ed & mv & o & d1 & d2 & E1 & E2).
    pose proof (Hk x mv o false d1 (or_introl eq_refl) E1) as X1. assert (d1 = d) by congruence. subst d1.
    unfold fits in F1, F2. rewrite E1 in F1. rewrite E2 in F2. destruct F1 as (_ & N1 & Ef & T1 & _). destruct F2 as (_ & N2 & _ & T2 & _).
    pose proof P as (P1 & _). rewrite P1 in Ef. injection Ef as Ef. cbn [map shown filter]. rewrite type_news. rewrite E1, E2, N1, N2, T1, T2.
    destruct o as [? ? ?|? ?|? ?|? ? ?|dd p n p' n']; try discriminate Ef. cbn [name_of type_told]. now apply TMove.
  - destruct ss as [|x ss]; [discriminate|]. injection E as -> ->. inversion F as [|? ? F1 F2]; subst. destruct (marks_news _ _ _ _ _ Hm) as [M1 M2].
    assert (T : told_of (map snd ss) (filter is_news (shown is))).
    { apply (IH ss G); auto; [exact (adjs_part [x] ss [] (eq_ind_r adjs_all A (f_equal (cons x) (app_nil_r ss))))| | |].
      - intros y mv o a dir Hy E. apply M2. apply (Hk y mv o a dir); auto. now right.
      - inversion Hm as [wd real Hw Hr E1 E2|]; subst; [|exact Hm1]. unfold learn. rewrite Hm1. destruct (Z.eqb_spec (-1) wd); [lia|reflexivity].
      - intros wd d1 Hin. apply (Hpos wd d1). apply in_app_iff. right. now right. }
    destruct x as [r nt]. unfold fits in F1. cbn [fst snd] in *. rewrite shown_app, filter_app, M1. cbn [map snd app shown filter]. replace PtDir with (type_of r) by (unfold type_of; now rewrite Kd). rewrite type_news.
    destruct nt as [mv o a dir| |]; [|destruct F1 as (F1 & _); rewrite Kc in F1; discriminate|destruct F1; congruence].
    pose proof (Hk _ mv o a dir (or_introl eq_refl) eq_refl) as X. cbn in X. assert (dir = d) by congruence. subst dir.
    destruct F1 as (_ & N1 & Ef & T1 & _). rewrite Kc in Ef. injection Ef as Ef. rewrite N1, T1, Ef. now apply TOne.
  - destruct ss as [|x ss]; [discriminate|]. injection E as -> ->. inversion F as [|? ? F1 F2]; subst.
    assert (T : told_of (map snd ss) (filter is_news (shown is))).
    { apply (IH ss G); auto; [exact (adjs_part [x] ss [] (eq_ind_r adjs_all A (f_equal (cons x) (app_nil_r ss))))| |]; [intros y mv o a dir Hy; apply Hk; now right|intros wd d1 Hin; apply (Hpos wd d1); now right]. }
    destruct x as [r nt]. unfold fits in F1. cbn [fst snd] in *. cbn [map snd shown filter]. rewrite type_news.
    destruct nt as [mv o a dir| |]; [|destruct F1 as (F1 & _); congruence|destruct F1 as (F1 & _); rewrite F1 in Ef; discriminate].
    pose proof (Hk _ mv o a dir (or_introl eq_refl) eq_refl) as X. cbn in X. assert (dir = d) by congruence. subst dir.
    destruct F1 as (_ & N1 & Ef' & T1 & _). rewrite Ef in Ef'. injection Ef' as ->. rewrite N1, T1. now apply TOne.
Qed.

Lemma to_4096 n : (N.of_nat n <= 4096)%N -> (n <= N.to_nat 4096)%nat.
Proof. lia. Qed.
Lemma items_marked_pos (o : trace) wd d : In (Marked wd d) (items o) -> (0 < wd)%Z.
Proof.
  induction o as [|x o IH]; [intros []|]. destruct x; cbn; auto; [intros [[=]|H]; auto|]. destruct (Z.ltb_spec 0 wd0); auto. intros [[= <- <-]|H']; auto.
Qed.
Section Env.
  Variable e : denv.
  Hypothesis start : exists dirs files, de_start e = dk_start dirs files.
  Notation s := (dsystem e).

  Definition deffect (tr : trace) (x : obs) (k : dkern) : dkern :=
    match x with
    | OAddWatch fd p m _ => snd (dadding (fd =? de_fd e)%Z m (de_deny e tr) k p)
    | ORead fd _ => snd (dreading (fd =? de_fd e)%Z (de_want e tr) k)
    | _ => k
    end.
  Lemma dstate_snoc tr x : dstate e (tr ++ [x]) = deffect tr x (dat_call e tr).
  Proof. unfold dstate, dat_call. rewrite rev_app_distr. cbn [rev app dstate_rev]. rewrite rev_involutive. reflexivity. Qed.
  Lemma kgood_effect tr x k : kgood k -> kgood (deffect tr x k).
  Proof. intros I. destruct x; try exact I; cbn [deffect].
    - unfold dadding. destruct (negb _); [exact I|]. destruct (dasks_all _); [now apply kgood_marking|exact I].
    - now apply kgood_reading.
  Qed.
  Lemma kgood_state tr : kgood (dstate e tr).
  Proof.
    induction tr as [|x tr IH] using rev_ind; [destruct start as (d & f & E); unfold dstate; cbn; rewrite E; apply kgood_start|].
    rewrite dstate_snoc. apply kgood_effect. unfold dat_call. now apply kgood_happens.
  Qed.
  Lemma kgood_at tr : kgood (dat_call e tr).
  Proof. apply kgood_happens, kgood_state. Qed.

  (** ** What a read gives *)
  Lemma dreading_batch w k x q : kgood k -> dk_queue k = x :: q ->
    exists ss, batch_ok (map fst ss) /\ rd_len (fst (dreading true w k)) = Z.of_nat (length (encode (map fst ss))) /\ rd_bytes (fst (dreading true w k)) = encode (map fst ss) /\
      dk_queue k = ss ++ dk_queue (snd (dreading true w k)) /\ dk_read (snd (dreading true w k)) = dk_read k ++ ss /\ ss <> [] /\
      Forall (fits (dk_given k)) ss /\ adjs_all ss.
  Proof.
    intros [I _] E. unfold dreading. rewrite E. cbn [negb]. set (c := fitting 4096 (S w) (map fst (x :: q))). exists (firstn c (x :: q)). cbn [fst snd rd_len rd_bytes dk_queue dk_read].
    assert (Q : everything k = dk_read k ++ firstn c (x :: q) ++ skipn c (x :: q)) by (unfold everything; rewrite E, firstn_skipn; reflexivity).
    pose proof (di_adj _ _ _ _ _ I) as A. rewrite Q in A. apply adjs_part in A.
    pose proof (di_ok _ _ _ _ _ I) as O. rewrite Q in O. apply Forall_app in O as [_ O]. apply Forall_app in O as [O _].
    pose proof (di_fits _ _ _ _ _ I) as F. rewrite Q in F. apply Forall_app in F as [_ F]. apply Forall_app in F as [F _].
    split; [|split; [|split; [|split; [|split; [|split; [|split]]]]]]; auto.
    - constructor.
      + apply Forall_map. exact O.
      + rewrite <- firstn_map. pose proof (fitting_size (S w) 4096 (map fst (x :: q))) as Fs. fold c in Fs. exact (to_4096 _ Fs).
      + intros a r n b H. apply map_eq_app in H as (a' & t & E1 & _ & H). apply map_eq_cons in H as (r' & t' & -> & Er & H). apply map_eq_cons in H as (n' & b' & -> & En & _).
        destruct (A a' r' n' b' E1) as [H1 H2]. subst r n. split; [exact H1|]. intros P. now apply H2.
    - now rewrite firstn_skipn.
    - unfold c. cbn [map fitting]. pose proof (di_short _ _ _ _ _ I) as L. unfold everything in L. rewrite E in L. apply Forall_app in L as [_ L]. inversion L; subst.
      destruct (N.leb_spec (N.of_nat (length (encode_rec (fst x)))) 4096); [discriminate|lia].
  Qed.

  (** ** The adapter gets this kernel's answers *)
  Definition dagree (tr : trace) (x : obs) : Prop :=
    match x with
    | OAddWatch fd p m wd => fd = de_fd e /\ m = in_recv_mask /\ wd = fst (dmarking (de_deny e tr) (dat_call e tr) p)
    | OFanMark _ _ _ _ => False
    | _ => True
    end.
  Definition dcalm (x : obs) : Prop := match x with OAddWatch _ _ _ _ | OFanMark _ _ _ _ => False | _ => True end.
  Lemma dadding_ours p d k : dadding (de_fd e =? de_fd e)%Z in_recv_mask d k p = dmarking d k p.
  Proof. unfold dadding. rewrite Z.eqb_refl. reflexivity. Qed.
  Lemma dreading_ours w k : dreading (de_fd e =? de_fd e)%Z w k = dreading true w k.
  Proof. now rewrite Z.eqb_refl. Qed.
  Fixpoint danswers (tr : trace) (o : trace) : Prop :=
    match o with [] => True | x :: o' => dagree tr x /\ danswers (tr ++ [x]) o' end.
  Lemma danswers_app o : forall tr o', danswers tr (o ++ o') <-> danswers tr o /\ danswers (tr ++ o) o'.
  Proof.
    induction o as [|x o IH]; intros tr o'; cbn [app danswers]; [rewrite app_nil_r; tauto|]. rewrite IH, <- app_assoc. cbn [app]. tauto.
  Qed.
  Definition dval {A} (m : M A) : Prop := forall tr, danswers tr (fst (m tr)).
  Lemma dval_ret A (x : A) : dval (ret x).
  Proof. intros tr. exact Coq.Init.Logic.I. Qed.
  Lemma dval_bind A B (m : M A) (f : A -> M B) : dval m -> (forall a, dval (f a)) -> dval (bind m f).
  Proof.
    intros Hm Hf tr. specialize (Hm tr). unfold bind. destruct (m tr) as [o [a|u| |]]; cbn [fst] in *; auto.
    specialize (Hf a (tr ++ o)). destruct (f a (tr ++ o)) as [o' r]; cbn [fst] in *. apply danswers_app. auto.
  Qed.
  Lemma calm_danswers o : Forall dcalm o -> forall tr, danswers tr o.
  Proof. induction 1 as [|x o H _ IH]; intros tr; cbn; [exact Coq.Init.Logic.I|]. split; [destruct x; auto; contradiction|apply IH]. Qed.
  Lemma calm_dval A (m : M A) : (forall tr, Forall dcalm (fst (m tr))) -> dval m.
  Proof. intros H tr. apply calm_danswers, H. Qed.
  Lemma dval_mark p dm : dval (in_mark s p (de_fd e) dm).
  Proof.
    unfold in_mark. apply dval_bind; [apply calm_dval; repeat constructor|]. intros [real|].
    2:{ apply dval_bind; [apply calm_dval; repeat constructor|]. intros []. apply dval_ret. }
    apply dval_bind; [apply calm_dval; repeat constructor|]. intros d. apply dval_bind.
    - destruct d; [|apply dval_ret]. intros tr. unfold inotify_add_watch. cbn [fst danswers dagree os_add_watch dsystem]. rewrite dadding_ours. auto.
    - intros wd. destruct (0 <? wd)%Z; [apply dval_ret|]. apply dval_bind; [apply calm_dval; repeat constructor|]. intros []. apply dval_ret.
  Qed.
  Lemma dval_walk fuel : forall path dm, dval (walkdir s fuel path (fun dir dm => q <- in_mark s dir (de_fd e) dm ;; ret (fst q)) dm).
  Proof.
    assert (Hm : forall p dm, dval (q <- in_mark s p (de_fd e) dm ;; ret (fst q))).
    { intros. apply dval_bind; [apply dval_mark|]. intros. apply dval_ret. }
    induction fuel as [|n IH]; intros path dm; cbn [walkdir]; [intros tr; exact Coq.Init.Logic.I|].
    apply dval_bind; [apply calm_dval; repeat constructor|]. intros [ents|]; [|apply dval_ret].
    apply dval_bind; [apply Hm|]. intros dm1. apply dval_bind.
    - revert dm1. induction ents as [|de es IHe]; intros dm1; [apply dval_ret|].
      destruct (negb (de_type de =? 4)%N); [apply IHe|]. destruct (text_eqb (de_name de) (lit ".")); [apply IHe|]. destruct (text_eqb (de_name de) (lit "..")); [apply IHe|].
      apply dval_bind; [apply calm_dval; repeat constructor|]. intros [real|]; [|apply IHe]. apply dval_bind; [apply IH|]. intros dm2. apply IHe.
    - intros dm2. apply dval_bind; [apply calm_dval; repeat constructor|]. intros []. apply dval_ret.
  Qed.
  Lemma dval_make fuel path il : dval (in_make_sysres s fuel path il).
  Proof.
    unfold in_make_sysres. intros tr0. unfold bind at 1, inotify_init. cbv zeta. cbn [os_inotify_init dsystem].
    match goal with |- context [(if ?c then ?x else ?y) ?t] => assert (V : dval (if c then x else y)); [|specialize (V t); destruct ((if c then x else y) t) as [o1 r1]; cbn [fst snd app danswers dagree] in *; auto] end.
    destruct (de_fd e <? 0)%Z; [apply dval_ret|].
    apply dval_bind; [apply dval_walk|]. intros [|x dm]; [apply dval_ret|]. apply dval_bind; [|intros; apply dval_ret].
    apply calm_dval. intros tr. unfold make_ep, bind, epoll_create, epoll_ctl, sys_close, ret. cbn [app].
    repeat match goal with |- context [if ?c then _ else _] => destruct c end; repeat constructor.
  Qed.
  Lemma dval_recs : forall rs dm, dval (recs_run s (de_fd e) dm rs).
  Proof.
    assert (Hmsg : forall r p, dval (send_msg s r p)) by (intros; apply calm_dval; repeat constructor).
    intros rs. remember (length rs) as len eqn:El. revert rs El.
    induction len as [len IH] using lt_wf_ind. intros rs El dm. subst len.
    destruct rs as [|r rest]; [apply dval_ret|].
    assert (Hgo : forall dm, dval (recs_run s (de_fd e) dm rest)) by (intros; apply (IH (length rest)); auto).
    cbn [recs_run]. destruct (zfind (k_wd r) dm) as [d|]; [|apply dval_bind; auto].
    destruct (is_overflow (k_kind r)); [apply dval_bind; auto|].
    destruct (effect_of (k_kind r)) as [f|]; [|apply Hgo].
    assert (Hev : forall d r f t, dval (mk_event s d r f t)) by (intros; apply calm_dval; repeat constructor).
    assert (Hpr : forall d a b f t, dval (show_pair s d a b f t)) by (intros; apply calm_dval; repeat constructor).
    assert (Hcb : forall e, dval (callback e)) by (intros; apply calm_dval; repeat constructor).
    assert (Hsingle : dval
       (ev <- mk_event s d r f (type_of r) ;;
         dm1 <- (if k_dir r && match k_kind r with KCreate => true | _ => false end
                 then p <- in_mark s (ev_path ev) (de_fd e) dm ;; ret (fst p) else ret dm) ;;
         callback ev ;;; recs_run s (de_fd e) dm1 rest)).
    { apply dval_bind; auto. intros ev. apply dval_bind; auto.
      - destruct (k_dir r && _); [|apply dval_ret]. apply dval_bind; [apply dval_mark|]. intros; apply dval_ret.
      - intros dm1. apply dval_bind; auto. }
    destruct rest as [|n rest']; [exact Hsingle|].
    assert (Hgo' : forall dm, dval (recs_run s (de_fd e) dm rest')) by (intros; apply (IH (length rest')); auto; cbn; lia).
    destruct (pairb r n); [apply dval_bind; auto; intros; apply dval_bind; auto|].
    destruct (pairb n r); [apply dval_bind; auto; intros; apply dval_bind; auto|exact Hsingle].
  Qed.

  (** ** Watches and records over a run *)
  Notation G tr := (dk_given (dstate e tr)).
  Notation R tr := (dk_read (dstate e tr)).
  Lemma dhappens_given max k os : dk_given (dhappens max k os) = dk_given k /\ dk_read (dhappens max k os) = dk_read k.
  Proof.
    unfold dhappens. revert k. induction os as [|o os IH]; intros k; [auto|]. cbn [fold_left]. destruct (IH (dhappen max k o)) as [-> ->].
    unfold dhappen. destruct (dlegal k o); auto. destruct (posts _ _ _); auto.
  Qed.
  Lemma dat_given tr : dk_given (dat_call e tr) = G tr. Proof. apply dhappens_given. Qed.
  Lemma dat_read tr : dk_read (dat_call e tr) = R tr. Proof. apply dhappens_given. Qed.

  Definition ended (ss : list sent) (wd : Z) : Prop := exists x, In x ss /\ k_kind (fst x) = KDeleteSelf /\ k_wd (fst x) = wd.
  (** [known] is right. *)
  Definition knows (k : dkern) (known : dirs) : Prop :=
    (forall wd d, known wd = Some d -> In (wd, d) (dk_given k)) /\
    (forall wd d, In (wd, d) (dk_given k) -> known wd = Some d \/ ended (dk_read k) wd).
  Lemma knows_same k a b : same a b -> knows k a -> knows k b.
  Proof. intros H [H1 H2]. split; intros wd d; rewrite <- H; auto. Qed.
  Lemma marking_knows dn k p known : kgood k -> knows k known -> let '(wd, k') := dmarking dn k p in
    dk_read k' = dk_read k /\ (forall x, In x (dk_given k) -> In x (dk_given k')) /\ knows k' (if (0 <? wd)%Z then learn known wd p else known).
  Proof.
    intros I [K1 K2]. unfold dmarking. destruct (negb dn && dir_at k p); [|split; [reflexivity|split; [auto|split; assumption]]].
    destruct (wd_at k p) as [wd|] eqn:W.
    { split; [reflexivity|]. split; [auto|]. apply wd_at_in in W. pose proof (kg_inv _ I) as J. destruct (di_watch _ _ _ _ _ J _ _ W) as (P & HP).
      assert (Kw : known wd <> None).
      { destruct (K2 _ _ HP) as [H|(x & Hx & Kx & Wx)]; [congruence|exfalso]. apply in_split in Hx as (a & b & Hx).
        destruct (di_dead _ _ _ _ _ J a x (b ++ dk_queue k)) as [H _]; [unfold everything; rewrite Hx, <- app_assoc; reflexivity|exact Kx|]. rewrite Wx in H. now apply (H p). }
      destruct (0 <? wd)%Z; [|split; assumption]. eapply knows_same; [|split; [exact K1|exact K2]].
      intros z. unfold learn. destruct (known z) eqn:E; [reflexivity|]. destruct (Z.eqb_spec z wd); [congruence|reflexivity]. }
    pose proof (di_next _ _ _ _ _ (kg_inv _ I)) as Hnx.
    destruct (dk_next k <? 2147483648)%Z; [|split; [reflexivity|split; [auto|split; assumption]]].
    split; [reflexivity|]. cbn [dk_given]. split; [intros; apply in_app_iff; now left|]. destruct (Z.ltb_spec 0 (dk_next k)); [|lia].
    assert (Fresh : known (dk_next k) = None). { destruct (known (dk_next k)) eqn:E; [|reflexivity]. apply K1 in E. apply (di_range _ _ _ _ _ (kg_inv _ I)) in E. lia. }
    split; cbn [dk_given dk_read]; intros wd d.
    - unfold learn. destruct (known wd) as [d'|] eqn:E; [intros [= <-]; apply in_app_iff; left; now apply K1|]. destruct (Z.eqb_spec wd (dk_next k)) as [->|]; [|discriminate].
      intros [= <-]. apply in_app_iff. right. now left.
    - intros Hin. apply in_app_iff in Hin as [Hin|[[= <- <-]|[]]].
      + destruct (K2 _ _ Hin) as [E|E]; [left|now right]. unfold learn. now rewrite E.
      + left. unfold learn. now rewrite Fresh, Z.eqb_refl.
  Qed.
  Lemma seg o : forall tr known, danswers tr o -> Forall no_read o -> knows (dstate e tr) known ->
    R (tr ++ o) = R tr /\ (forall x, In x (G tr) -> In x (G (tr ++ o))) /\ knows (dstate e (tr ++ o)) (learn_all known (items o)).
  Proof.
    induction o as [|x o IH] using rev_ind; intros tr known Ha Hr K.
    - rewrite app_nil_r. auto.
    - apply danswers_app in Ha as [Ha [Hx _]]. apply Forall_app in Hr as [Hr Hx']. inversion Hx' as [|? ? Hnr _]; subst; clear Hx'.
      destruct (IH tr known Ha Hr K) as (IH1 & IH2 & IH3). rewrite app_assoc, dstate_snoc, items_app.
      pose proof (dat_given (tr ++ o)) as AG. pose proof (dat_read (tr ++ o)) as AR.
      assert (IH3' : knows (dat_call e (tr ++ o)) (learn_all known (items o))) by (unfold knows; rewrite AG, AR; exact IH3).
      rewrite learn_all_app.
      destruct x; try contradiction; cbn [deffect items learn_all]; rewrite ?AG, ?AR; auto.
      pose proof (marking_knows (de_deny e (tr ++ o)) (dat_call e (tr ++ o)) p _ (kgood_at (tr ++ o)) IH3') as H. cbn [dagree] in Hx.
      destruct Hx as (-> & -> & Hx). rewrite dadding_ours. destruct (dmarking _ _ _) as [wd' k']. cbn [fst snd] in *. subst wd'. destruct H as (H1 & H2 & H3).
      split; [now rewrite H1, AR|]. split; [intros y Hy; apply H2; rewrite AG; auto|]. destruct (0 <? wd)%Z; exact H3.
  Qed.

  (** ** The adapter's invariant *)
  Record di (tr : trace) (known : dirs) : Prop := {
    dv_answers : danswers [] tr;
    dv_known : knows (dstate e tr) known;
    dv_told : forall a b, tr = a ++ b -> exists l2 l3 mid, news b = l2 ++ l3 /\ told_of (map snd (R a)) (news a ++ l2) /\ told_of mid l3 /\ map snd (R tr) = map snd (R a) ++ mid }.
  Lemma di_same tr a b : same a b -> di tr a -> di tr b.
  Proof. intros H [H0 H1 H2]. constructor; auto. eapply knows_same; eauto. Qed.
  Lemma told_here tr known : di tr known -> told_of (map snd (R tr)) (news tr).
  Proof.
    intros A. destruct (dv_told _ _ A tr [] (eq_sym (app_nil_r tr))) as (l2 & l3 & mid & E & T & _). symmetry in E. apply app_eq_nil in E as [-> _]. now rewrite app_nil_r in T.
  Qed.
  Lemma di_seg tr o known : danswers tr o -> Forall no_read o -> news o = [] -> di tr known -> di (tr ++ o) (learn_all known (items o)).
  Proof.
    intros Ha Hr Hn A. pose proof A as [A0 A1 A2]. destruct (seg o tr known Ha Hr A1) as (ER & EG & EK). constructor.
    - apply danswers_app. auto.
    - exact EK.
    - intros a b E. apply app_split in E as [(b' & -> & ->)|(o1 & -> & ->)].
      + destruct (A2 a b' eq_refl) as (l2 & l3 & mid & E1 & E2 & E3 & E4). exists l2, l3, mid. rewrite news_app, Hn, app_nil_r, ER. auto.
      + apply danswers_app in Ha as [Ha _]. apply Forall_app in Hr as [Hr _]. rewrite news_app in Hn. apply app_eq_nil in Hn as [Hn1 Hn2].
        destruct (seg o1 tr known Ha Hr A1) as (ER1 & _). exists [], [], []. rewrite Hn2, news_app, Hn1, !app_nil_r, ER, ER1.
        split; [reflexivity|]. split; [now apply (told_here tr known)|]. split; [constructor|reflexivity].
  Qed.
  Lemma din_recv_fd ke tr o r ke' : in_recv s ke tr = (o, Ok (r, ke')) -> kin_fd ke' = kin_fd ke.
  Proof. intros E. apply in_recv_result in E. apply E. Qed.
  Lemma din_make_fd fuel path il tr o ok ke ep : in_make_sysres s fuel path il tr = (o, Ok (ok, ke, ep)) -> kin_fd ke = de_fd e.
  Proof.
    intros Ea. unfold in_make_sysres in Ea. unfold bind at 1, inotify_init in Ea. cbv zeta in Ea. change (os_inotify_init s tr) with (de_fd e) in Ea.
    destruct (de_fd e <? 0)%Z; [injection Ea as _ _ <- _; reflexivity|].
    match type of Ea with (match bind ?w ?f ?t with _ => _ end) = _ => destruct (bind w f t) as [o1 r1] eqn:E1; destruct r1 as [x|u| |]; try discriminate; injection Ea as _ -> end.
    apply bind_inv in E1 as [(o2 & dm & o3 & E2 & E3 & ->)|[(? & _ & [=])|[(_ & [=])|(_ & [=])]]]. destruct dm as [|d dm]; [injection E3 as _ _ <- _; reflexivity|].
    apply bind_inv in E3 as [(o4 & ep1 & o5 & E4 & E5 & ->)|[(? & _ & [=])|[(_ & [=])|(_ & [=])]]]. injection E5 as _ _ <- _. reflexivity.
  Qed.
  Lemma di_recv ke tr : kin_fd ke = de_fd e -> di tr (fun k => zfind k (kin_dm ke)) ->
    exists o ke', in_recv s ke tr = (o, Ok (r_pending, ke')) /\ kin_fd ke' = de_fd e /\ di (tr ++ o) (fun k => zfind k (kin_dm ke')).
  Proof.
    intros Hfd A. destruct (dk_queue (dat_call e tr)) as [|x q] eqn:Q.
    - assert (Er : os_read s tr (kin_fd ke) in_buf_len = nothing).
      { cbn [os_read dsystem]. unfold dreading. rewrite Q. reflexivity. }
      unfold in_recv, bind, sys_read. rewrite Er. cbn [nothing rd_len rd_errno rd_bytes Z.ltb Z.compare andb negb Z.eqb Pos.eqb].
      do 2 eexists. split; [reflexivity|]. split; [exact Hfd|]. cbn [kin_dm].
      match goal with |- di (tr ++ ?l) _ => set (ob := l) end.
      assert (ES : dstate e (tr ++ ob) = dat_call e tr).
      { unfold ob. cbn [app]. rewrite dstate_snoc. cbn [deffect]. unfold dreading. now rewrite Q. }
      assert (Nn : news ob = []) by reflexivity.
      pose proof A as [A0 A1 A2]. cbn in ob. constructor.
      { apply danswers_app. split; [exact A0|]. unfold ob. cbn. auto. }
      { rewrite ES. unfold knows. rewrite dat_given, dat_read. exact A1. }
      { intros a b E. destruct b as [|y b] using rev_ind.
        - rewrite app_nil_r in E. subst a. exists [], [], []. cbn [app]. rewrite !app_nil_r, ES, dat_read, news_app, Nn, app_nil_r.
          split; [reflexivity|]. split; [now apply (told_here tr (fun k => zfind k (kin_dm ke)))|]. split; [constructor|reflexivity].
        - unfold ob in E. rewrite app_assoc in E. apply app_inj_tail in E as [E <-]. destruct (A2 a b E) as (l2 & l3 & mid & E1 & E2 & E3 & E4).
          exists l2, l3, mid. rewrite news_app, ES, dat_read. change (news [_]) with (@nil shape). rewrite app_nil_r. auto. }
    - destruct (dreading_batch (de_want e tr) _ x q (kgood_at tr) Q) as (ss & B & H1 & H2 & HQ & HR & _ & HF & HA).
      pose proof B as [Hok Hsz Hord].
      assert (Hsz' : (N.of_nat (length (encode (map fst ss))) <= in_buf_len)%N) by (unfold in_buf_len; lia).
      assert (Hrd : read_gives s ke tr (map fst ss)) by (unfold read_gives; cbn [os_read dsystem]; rewrite Hfd, dreading_ours; split; assumption).
      destruct (in_recv_batch s true ke tr (map fst ss) Hok Hsz' Hrd Hord (fun H => False_ind _ (diff_true_false H))) as (o & ke' & known' & E & Hba & Hk).
      destruct (in_recv_recs s ke tr (map fst ss) Hok Hsz' Hrd) as (o1 & dm' & E1 & ER). rewrite E in ER. injection ER as Eo _.
      exists o, ke'. split; [exact E|]. split; [apply din_recv_fd in E; congruence|]. set (rdo := ORead _ _) in *. rewrite Hfd in E1.
      pose proof (recs_run_no_read s (de_fd e) (map fst ss) (kin_dm ke) (tr ++ [rdo])) as Hnr. rewrite E1 in Hnr. cbn [fst] in Hnr.
      pose proof (dval_recs (map fst ss) (kin_dm ke) (tr ++ [rdo])) as Hv. rewrite E1 in Hv. cbn [fst] in Hv.
      pose proof A as [A0 A1 A2]. pose proof A1 as [K1 K2].
      assert (ES : dstate e (tr ++ [rdo]) = snd (dreading true (de_want e tr) (dat_call e tr))) by (rewrite dstate_snoc; cbn [deffect rdo]; now rewrite Hfd, dreading_ours).
      assert (Egx : G (tr ++ [rdo]) = G tr). { rewrite ES, <- dat_given. unfold dreading. rewrite Q. reflexivity. }
      assert (ERx : R (tr ++ [rdo]) = R tr ++ ss) by (rewrite ES, HR, dat_read; reflexivity).
      assert (Kx : knows (dstate e (tr ++ [rdo])) (fun k => zfind k (kin_dm ke))).
      { split; rewrite Egx; [exact K1|]. intros wd d H. destruct (K2 wd d H) as [H'|(y & Hy & H')]; [now left|right]. exists y. split; [rewrite ERx; apply in_app_iff; now left|exact H']. }
      destruct (seg o1 (tr ++ [rdo]) _ Hv Hnr Kx) as (ERd & EG & EK). rewrite ERx in ERd.
      assert (Eo' : tr ++ o = (tr ++ [rdo]) ++ o1) by (rewrite Eo, <- app_assoc; reflexivity).
      assert (Ei : items o = items o1) by (rewrite Eo; reflexivity).
      pose proof (batch_learn _ _ _ _ _ _ Hba) as HL.
      assert (Told : told_of (map snd ss) (news o)).
      { rewrite news_items. eapply (batch_told _ _ _ _ _ Hba ss (G tr)); auto.
        - rewrite <- dat_given. exact HF.
        - intros y mv op a dir Hy Ey. rewrite Forall_forall in HF. pose proof (HF y Hy) as Fy. unfold fits in Fy. rewrite Ey in Fy. destruct Fy as (Gy & _ & Ef & _). rewrite dat_given in Gy.
          destruct (K2 _ _ Gy) as [H|(z & Hz & Kz & Wz)]; [exact H|exfalso]. pose proof (kg_inv _ (kgood_at tr)) as J.
          apply in_split in Hz as (u & v & Hz). assert (Ev : everything (dat_call e tr) = u ++ z :: (v ++ ss ++ dk_queue (snd (dreading true (de_want e tr) (dat_call e tr))))).
          { unfold everything. rewrite dat_read, HQ, Hz, <- app_assoc. reflexivity. }
          destruct (di_dead _ _ _ _ _ J u z _ Ev Kz) as [_ Dd]. rewrite Forall_forall in Dd. rewrite (Dd y) in Ef; [discriminate| |congruence].
          apply in_app_iff. right. apply in_app_iff. now left.
        - destruct (zfind (-1) (kin_dm ke)) eqn:Z; [|reflexivity]. apply K1 in Z. apply (di_range _ _ _ _ _ (kg_inv _ (kgood_state tr))) in Z. lia.
        - intros wd d Hin. apply items_marked_pos in Hin. exact Hin. }
      rewrite Eo'. constructor.
      + apply danswers_app. split; [apply danswers_app; split; [exact A0|split; exact Coq.Init.Logic.I]|exact Hv].
      + destruct EK as [EK1 EK2]. split.
        * intros wd d. rewrite Hk. unfold forget_deleted. destruct (existsb _ _); [discriminate|]. rewrite HL, Ei. apply EK1.
        * intros wd d H. rewrite Hk. unfold forget_deleted. destruct (existsb _ _) eqn:X.
          -- right. rewrite ERd. apply existsb_exists in X as (n & Hn & Hb). apply andb_true_iff in Hb as [Hb1 Hb2]. apply Z.eqb_eq in Hb1.
             apply in_map_iff in Hn as (y & <- & Hn). exists y. split; [apply in_app_iff; now right|]. split; [destruct (k_kind (fst y)); congruence|exact Hb1].
          -- rewrite HL, Ei. apply EK2, H.
      + intros a b Eab. rewrite <- app_assoc in Eab. apply app_split in Eab as [(b' & Et & Eb)|(o2 & -> & Eb)].
        * destruct (A2 a b' Et) as (l2 & l3 & mid & X1 & X2 & X3 & X4). exists l2, (l3 ++ news o), (mid ++ map snd ss).
          replace ([rdo] ++ o1) with o in Eb by (rewrite Eo; reflexivity). subst b. rewrite news_app, X1, app_assoc. split; [reflexivity|]. split; [exact X2|].
          split; [now apply told_app|]. rewrite ERd, map_app. etransitivity; [apply (f_equal (fun z => z ++ map snd ss)); exact X4|]. now rewrite app_assoc.
        * destruct o2 as [|y o2].
          { cbn [app] in Eb. exists [], (news o), (map snd ss). rewrite <- Eb, !app_nil_r. replace (rdo :: o1) with o by (rewrite Eo; reflexivity). split; [reflexivity|].
            split; [now apply (told_here tr (fun k => zfind k (kin_dm ke)))|]. split; [exact Told|]. now rewrite ERd, map_app. }
          cbn in Eb. injection Eb as <- Eb.
          assert (Hv2 : danswers (tr ++ [rdo]) o2) by (rewrite Eb in Hv; now apply danswers_app in Hv as [Hv _]).
          assert (Hn2 : Forall no_read o2) by (rewrite Eb in Hnr; now apply Forall_app in Hnr as [Hnr _]).
          destruct (seg o2 (tr ++ [rdo]) _ Hv2 Hn2 Kx) as (ER2 & _). rewrite ERx in ER2.
          replace (tr ++ rdo :: o2) with ((tr ++ [rdo]) ++ o2) by (rewrite <- app_assoc; reflexivity).
          exists (news b), [], []. rewrite ER2, ERd, !app_nil_r. split; [reflexivity|]. split; [|split; [constructor|reflexivity]].
          replace (news ((tr ++ [rdo]) ++ o2) ++ news b) with (news tr ++ news o) by (rewrite <- !news_app, Eo, Eb, <- !app_assoc; reflexivity).
          rewrite map_app. apply told_app; [now apply (told_here tr (fun k => zfind k (kin_dm ke)))|exact Told].
  Qed.
  Lemma di_ready il : forall fds ok ke tr, kin_fd ke = de_fd e -> di tr (fun k => zfind k (kin_dm ke)) ->
    exists o ok' ke', each_ready kin kin_fd (in_recv s) il fds ok ke tr = (o, Ok (ok', ke')) /\ kin_fd ke' = de_fd e /\ di (tr ++ o) (fun k => zfind k (kin_dm ke')).
  Proof.
    induction fds as [|fd fds IH]; intros ok ke tr Hfd A; cbn [each_ready].
    - exists [], ok, ke. rewrite app_nil_r. auto.
    - destruct (fd =? il)%Z; [now apply IH|]. destruct (fd =? kin_fd ke)%Z; [|now apply IH].
      destruct (di_recv ke tr Hfd A) as (o1 & ke1 & E1 & F1 & A1). destruct (IH r_pending ke1 _ F1 A1) as (o2 & ok2 & ke2 & E2 & F2 & A2).
      exists (o1 ++ o2), ok2, ke2. split; [now rewrite (bind_ok_eq _ _ _ _ _ _ _ E1 E2)|]. split; [exact F2|now rewrite app_assoc].
  Qed.
  Lemma di_quiet tr o known : Forall dcalm o -> Forall no_read o -> news o = [] -> di tr known -> di (tr ++ o) known.
  Proof.
    intros Hc Hr Hf A. pose proof (di_seg tr o known (calm_danswers o Hc tr) Hr Hf A) as B. eapply di_same; [|exact B].
    intros k. clear -Hc. revert known. induction Hc as [|x o H _ IH]; intros known; [reflexivity|]. destruct x; cbn [items learn_all]; try exact (IH known). contradiction.
  Qed.
  Lemma di_loop il : forall fuel ep ok ke tr, kin_fd ke = de_fd e -> di tr (fun k => zfind k (kin_dm ke)) ->
    exists o r, ep_loop s kin kin_fd (in_recv s) il fuel ep ok ke tr = (o, r) /\ exists known, di (tr ++ o) known.
  Proof.
    induction fuel as [|n IH]; intros ep ok ke tr Hfd A; cbn [ep_loop].
    { exists [], Fuel. split; [reflexivity|]. rewrite app_nil_r. eauto. }
    destruct (negb (r_lt ok r_complete)).
    { exists [], (Ok (ok, ke)). split; [reflexivity|]. rewrite app_nil_r. eauto. }
    unfold bind at 1, epoll_wait. set (w := os_epoll_wait s tr ep). set (x := OEpollWait ep w).
    assert (A' : di (tr ++ [x]) (fun k => zfind k (kin_dm ke))) by (apply di_quiet; auto; repeat constructor).
    destruct w as [fds|].
    - destruct (di_ready il (firstn 64 fds) ok ke _ Hfd A') as (o1 & ok1 & ke1 & E1 & F1 & A1).
      destruct (IH ep ok1 ke1 _ F1 A1) as (o2 & r2 & E2 & known & A2). rewrite (bind_ok_eq _ _ _ _ _ _ _ E1 E2).
      do 2 eexists. split; [reflexivity|]. exists known. rewrite <- !app_assoc in A2. exact A2.
    - destruct (IH ep r_e_sys_api_epoll ke _ Hfd A') as (o2 & r2 & E2 & known & A2). rewrite E2.
      do 2 eexists. split; [reflexivity|]. exists known. rewrite <- app_assoc in A2. exact A2.
  Qed.

  Lemma di_nil : di [] nowhere.
  Proof.
    destruct start as (d & f & E). constructor; [exact Coq.Init.Logic.I| |].
    - unfold knows, dstate. cbn [rev dstate_rev]. rewrite E. cbn. split; [discriminate|contradiction].
    - intros a b H. symmetry in H. apply app_eq_nil in H as [-> ->]. exists [], [], []. unfold dstate. cbn [rev dstate_rev]. rewrite E. cbn. repeat split; constructor.
  Qed.
  Lemma start_news o : Forall start_obs o -> news o = [].
  Proof.
    induction 1 as [|x o H _ IH]; [reflexivity|]. change (x :: o) with ([x] ++ o). rewrite news_app, IH. destruct x; try reflexivity.
    cbn in H. destruct H as (q & H). unfold news. cbn [callbacks map filter flat_map app]. rewrite H, not_watched_no_news. reflexivity.
  Qed.
  Lemma di_run fuel path il tr : di tr nowhere ->
    exists o r, run_inotify s fuel path il tr = (o, r) /\ exists known, di (tr ++ o) known.
  Proof.
    intros A0. unfold run_inotify, platform_watch. unfold bind at 1.
    pose proof (in_make_start s fuel path il tr) as Hst. pose proof (dval_make fuel path il tr) as Hv.
    destruct (in_make_sysres s fuel path il tr) as [a ra] eqn:Ea. cbn [fst] in Hst, Hv.
    pose proof (di_seg tr a nowhere Hv (start_no_read _ Hst) (start_news _ Hst) A0) as A1.
    destruct ra as [[[ok ke] ep]|u| |]; try (do 2 eexists; split; [reflexivity|]; eexists; exact A1).
    pose proof (din_make_fd fuel path il tr) as Hfd. specialize (Hfd _ _ _ _ Ea). apply in_make_learn in Ea as [Hl _].
    assert (A2 : di (tr ++ a) (fun k => zfind k (kin_dm ke))). { eapply di_same; [|exact A1]. intros k. symmetry. apply Hl. }
    unfold bind at 1. destruct (di_loop il fuel ep ok ke _ Hfd A2) as (b & r & Eb & known & A3). rewrite Eb. rewrite <- app_assoc in A3.
    destruct r as [[ok' ke']|u| |]; try (do 2 eexists; split; [reflexivity|]; exists known; exact A3).
    cbn. do 2 eexists. split; [reflexivity|]. exists known. rewrite !app_assoc in *. apply di_quiet; auto; repeat constructor.
  Qed.
  Lemma deep_watch fuel path il : (forall tr, os_geteuid s tr <> 0%Z) -> exists known, di (fst (linux_watch s fuel path il [])) known.
  Proof.
    intros Hu. unfold linux_watch. unfold bind at 1. unfold try_fanotify. unfold bind at 1, geteuid.
    destruct (Z.eqb_spec (os_geteuid s []) 0) as [H0|_]; [now apply Hu in H0|].
    cbn [app ret r_eqb code N.eqb Pos.eqb]. set (g := OGeteuid (os_geteuid s [])).
    assert (A0 : di [g] nowhere) by (apply (di_quiet [] [g] nowhere); try apply di_nil; repeat constructor).
    destruct (di_run fuel path il _ A0) as (o & r & E & known & A). unfold bind at 1. rewrite E. exists known.
    destruct r as [r|u| |]; try exact A. destruct (r_ge r r_e) eqn:Rr.
    - cbn -[to_str].
      rewrite app_comm_cons. apply di_quiet; auto; [repeat constructor|repeat constructor|].
      unfold news. cbn -[to_str text_eqb lit]. destruct r; try discriminate Rr; reflexivity.
    - cbn. rewrite app_nil_r. exact A.
  Qed.
End Env.

(** What the inotify adapter remembers, on the kernel of [KernelSpec]: lemmas. *)
From Verif Require Import Base PathModel EventModel Sys SysFacts LinuxModel InotifyModel FanotifyModel LinuxWatch
  LinuxSpec LinuxFacts LinuxRun LinuxProps LinuxChoice InotifySpec InotifyFacts InotifyRun KernelSpec KernelFacts KernelRun.

(** ** The kernel's watches *)
Record kmem (k : kern) : Prop := {
  km_one : NoDup (map snd (kn_watch k));
  km_dirs : forall wd p, In (wd, p) (kn_watch k) -> In p (kn_dirs k);
  km_gone : forall wd p, In (wd, p) (kn_given k) -> In (wd, p) (kn_watch k) \/ deleted_in (sofar k) wd }.
Lemma in_has p l : has p l = true <-> In p l.
Proof.
  unfold has. rewrite existsb_exists. split; [intros (x & H & E); apply text_eqb_eq in E; now subst|].
  intros H. exists p. split; [exact H|now apply text_eqb_eq].
Qed.
Lemma push_has q r x : In x q \/ x = r /\ is_modify r = false -> In x (push q r).
Proof.
  unfold push. intros H. destruct (rev q) as [|l t] eqn:E; [|destruct (same_rec l r && is_modify r) eqn:C]; try (rewrite in_app_iff; cbn; intuition congruence).
  apply andb_true_iff in C as [_ C]. destruct H as [H|[_ H]]; [exact H|congruence].
Qed.
Lemma pushes_has rs x : forall q, In x q \/ In x rs /\ is_modify x = false -> In x (fold_left push rs q).
Proof.
  induction rs as [|r rs IH]; intros q H; cbn [fold_left]; [destruct H as [H|[[] _]]; exact H|]. apply IH.
  destruct H as [H|[[->|H] M]]; [left; apply push_has; now left|left; apply push_has; now right|now right].
Qed.
Lemma nodup_filter {A B} (f : A -> B) (g : A -> bool) l : NoDup (map f l) -> NoDup (map f (filter g l)).
Proof.
  induction l as [|x l IH]; cbn; [auto|]. intros H. inversion H as [|? ? H1 H2]; subst. destruct (g x); [|now apply IH]. cbn. constructor; [|now apply IH].
  intros X. apply H1. apply in_map_iff in X as (y & E & Hy). apply filter_In in Hy as [Hy _]. apply in_map_iff. eauto.
Qed.
Lemma watched_one k wd p : NoDup (map snd (kn_watch k)) -> In (wd, p) (kn_watch k) -> watched k p = Some wd.
Proof.
  unfold watched. induction (kn_watch k) as [|[w q] l IH]; intros Nd H; [destruct H|]. cbn [find snd]. cbn [map snd] in Nd. inversion Nd as [|? ? N1 N2]; subst.
  destruct H as [[= -> ->]|H]; [assert (E : text_eqb p p = true) by now apply text_eqb_eq|]; [now rewrite E|].
  destruct (text_eqb q p) eqn:E; [|now apply IH]. apply text_eqb_eq in E. subst q. destruct N1. apply in_map_iff. now exists (wd, p).
Qed.
Lemma kmem_start dirs files : kmem (kern_start dirs files).
Proof. constructor; cbn; [constructor|contradiction|contradiction]. Qed.
Lemma kmem_happen k o : kmem k -> kmem (happen k o).
Proof.
  intros [K1 K2 K3]. unfold happen. destruct (legal k o) eqn:L; [|now constructor].
  assert (Q : forall wd, deleted_in (sofar k) wd -> deleted_in (kn_read k ++ fold_left push (records k o) (kn_queue k)) wd).
  { intros wd (r & Hr & H1 & H2). exists r. split; [|auto]. apply in_app_iff in Hr as [Hr|Hr]; apply in_app_iff; [now left|right]. apply pushes_has. now left. }
  constructor; unfold sofar; cbn [kn_watch kn_dirs kn_given kn_read kn_queue].
  - unfold watch_after. destruct o; auto. now apply nodup_filter.
  - intros wd q H. unfold watch_after, dirs_after in *. destruct o as [b p n|p n|p n|p n b|p n n2|p n|b p n]; cbn beta iota in *; eauto.
    + destruct b; [apply in_app_iff; left|]; eauto.
    + unfold without. apply filter_In in H as [H E]. apply filter_In. split; [eauto|]. cbn [snd] in E. apply negb_true_iff in E. apply negb_true_iff.
      destruct (text_eqb (entry p n) q) eqn:X; [|reflexivity]. apply text_eqb_eq in X. subst q. rewrite (proj2 (text_eqb_eq _ _) eq_refl) in E. discriminate.
    + destruct b; [apply in_app_iff; left|]; eauto.
  - intros wd q H. destruct (K3 wd q H) as [H1|H1]; [|right; now apply Q]. destruct o as [b p n|p n|p n|p n b|p n n2|p n|b p n]; try (left; exact H1).
    unfold watch_after. destruct (text_eqb q (entry p n)) eqn:E.
    + right. apply text_eqb_eq in E. subst q. exists (rec_of wd KDeleteSelf true 0 []). split; [|split; reflexivity]. apply in_app_iff. right.
      apply pushes_has. right. split; [|reflexivity]. cbn [records]. assert (A : about k (entry p n) KDeleteSelf true 0 [] = [rec_of wd KDeleteSelf true 0 []]) by (unfold about; now rewrite (watched_one k wd _ K1 H1)).
      rewrite A. match goal with |- context [if ?b then _ else _] => destruct b end; rewrite !in_app_iff; cbn; auto.
    + left. apply filter_In. split; [exact H1|]. cbn [snd]. now rewrite E.
Qed.
Lemma kmem_happens os : forall k, kmem k -> kmem (happens k os).
Proof. unfold happens. induction os as [|o os IH]; intros k H; [exact H|]. apply IH. now apply kmem_happen. Qed.
Lemma kmem_marking d k p : kmem k -> kmem (snd (marking d k p)).
Proof.
  intros [K1 K2 K3]. unfold marking. destruct (negb d && has p (kn_dirs k)) eqn:C; [|now constructor]. destruct (watched k p) eqn:W; [now constructor|].
  destruct (kn_next k <? 2147483648)%Z; [|now constructor]. apply andb_true_iff in C as [_ C]. apply in_has in C. cbn [snd]. constructor; unfold sofar; cbn [kn_watch kn_dirs kn_given kn_read kn_queue].
  - rewrite map_app. cbn [map snd]. apply NoDup_rev in K1. rewrite <- (rev_involutive (map snd (kn_watch k) ++ [p])). apply NoDup_rev. rewrite rev_app_distr. cbn [rev app].
    constructor; [|exact K1]. rewrite <- in_rev. intros H. apply in_map_iff in H as ([wd q] & E & H). cbn [snd] in E. subst q.
    unfold watched in W. destruct (find _ (kn_watch k)) eqn:F; [discriminate|]. pose proof (find_none _ _ F _ H) as X. cbn [snd] in X. rewrite (proj2 (text_eqb_eq _ _) eq_refl) in X. discriminate X.
  - intros wd q H. apply in_app_iff in H as [H|[[= <- <-]|[]]]; eauto.
  - intros wd q H. apply in_app_iff in H as [H|[[= <- <-]|[]]].
    + destruct (K3 wd q H) as [H1|H1]; [left; apply in_app_iff; now left|right; exact H1].
    + left. apply in_app_iff. right. now left.
Qed.
Lemma kmem_reading w k : kmem k -> kmem (snd (reading w k)).
Proof.
  intros [K1 K2 K3]. unfold reading. destruct (kn_queue k) as [|r q] eqn:E; [now constructor|]. set (c := fitting _ _ _). cbn [snd].
  constructor; cbn [kn_watch kn_dirs kn_given]; auto. intros wd p H. destruct (K3 wd p H) as [H1|H1]; [now left|right].
  unfold sofar in *. cbn [kn_read kn_queue]. rewrite <- app_assoc, firstn_skipn. now rewrite E in H1.
Qed.

(** ** The map keeps one entry for each descriptor *)
Definition keys (dm : zmap text) : Prop := NoDup (map fst dm).
Lemma keys_emplace k d dm : keys dm -> keys (zemplace k d dm).
Proof.
  unfold keys, zemplace. intros H. destruct (zfind k dm) eqn:E; [exact H|]. cbn. constructor; [|exact H]. clear H.
  induction dm as [|[j a] dm IH]; cbn in *; [tauto|]. destruct (Z.eqb_spec k j); [discriminate|]. intros [?|?]; [congruence|]. now apply IH.
Qed.
Lemma keys_erase ws : forall dm, keys dm -> keys (fold_left (fun m wd => zerase wd m) ws dm).
Proof. induction ws as [|w ws IH]; intros dm H; [exact H|]. cbn [fold_left]. apply IH. unfold zerase. now apply nodup_filter. Qed.
Lemma keys_find dm wd d : keys dm -> In (wd, d) dm -> zfind wd dm = Some d.
Proof.
  unfold keys. induction dm as [|[j a] dm IH]; intros K H; [destruct H|]. cbn in *. inversion K as [|? ? K1 K2]; subst.
  destruct H as [[= -> ->]|H]; [now rewrite Z.eqb_refl|]. destruct (Z.eqb_spec wd j) as [->|]; [|now apply IH]. destruct K1. apply in_map_iff. now exists (j, d).
Qed.
Lemma find_in dm wd (d : text) : zfind wd dm = Some d -> In (wd, d) dm.
Proof. induction dm as [|[j a] dm IH]; cbn; [discriminate|]. destruct (Z.eqb_spec wd j) as [->|]; [intros [= ->]; now left|right; auto]. Qed.
Section Keys.
  Variable s : os.
  Definition gives {A} (P : A -> Prop) (m : M A) : Prop := forall tr o a, m tr = (o, Ok a) -> P a.
  Lemma gives_ret A (P : A -> Prop) x : P x -> gives P (ret x).
  Proof. intros H tr o a [= _ <-]. exact H. Qed.
  Lemma gives_bind A B (Q : A -> Prop) (P : B -> Prop) (m : M A) (f : A -> M B) : gives Q m -> (forall a, Q a -> gives P (f a)) -> gives P (bind m f).
  Proof.
    intros Hm Hf tr o b E. unfold bind in E. destruct (m tr) as [o1 [a|u| |]] eqn:E1; try discriminate. destruct (f a (tr ++ o1)) as [o2 r] eqn:E2. injection E as _ ->.
    eapply Hf; [eapply Hm; exact E1|exact E2].
  Qed.
  Lemma gives_any A (m : M A) : gives (fun _ => True) m.
  Proof. intros tr o a _. exact Coq.Init.Logic.I. Qed.
  Lemma gives_after A B (P : B -> Prop) (m : M A) (f : A -> M B) : (forall a, gives P (f a)) -> gives P (bind m f).
  Proof. intros H. eapply gives_bind; [apply gives_any|]. intros a _. apply H. Qed.
  Lemma keys_mark p fd dm : keys dm -> gives (fun x => keys (fst x)) (in_mark s p fd dm).
  Proof.
    intros H. unfold in_mark. apply gives_after. intros [real|]; [|apply gives_after; intros; now apply gives_ret].
    apply gives_after. intros d. apply gives_after. intros wd. destruct (0 <? wd)%Z; [apply gives_ret; now apply keys_emplace|]. apply gives_after. intros. now apply gives_ret.
  Qed.
  Lemma keys_marked p fd dm : keys dm -> gives keys (q <- in_mark s p fd dm ;; ret (fst q)).
  Proof. intros H. eapply gives_bind; [now apply keys_mark|]. intros a Ha. now apply gives_ret. Qed.
  Lemma keys_walk fd fuel : forall path dm, keys dm -> gives keys (walkdir s fuel path (fun dir dm => q <- in_mark s dir fd dm ;; ret (fst q)) dm).
  Proof.
    induction fuel as [|n IH]; intros path dm H; cbn [walkdir]; [intros tr o a; discriminate|].
    apply gives_after. intros [ents|]; [|now apply gives_ret]. eapply gives_bind; [now apply keys_marked|]. intros dm1 H1. eapply gives_bind.
    - revert dm1 H1. induction ents as [|de es IHe]; intros dm1 H1; [apply gives_ret; exact H1|].
      destruct (negb (de_type de =? 4)%N); [now apply IHe|]. destruct (text_eqb (de_name de) (lit ".")); [now apply IHe|]. destruct (text_eqb (de_name de) (lit "..")); [now apply IHe|].
      apply gives_after. intros [real|]; [|now apply IHe]. eapply gives_bind; [now apply IH|]. intros dm2 H2. now apply IHe.
    - intros dm2 H2. cbv beta in H2. apply gives_after. intros. now apply gives_ret.
  Qed.
  Lemma keys_recs fd : forall rs dm, keys dm -> gives keys (recs_run s fd dm rs).
  Proof.
    intros rs. remember (length rs) as len eqn:El. revert rs El.
    induction len as [len IH] using lt_wf_ind. intros rs El dm H. subst len.
    destruct rs as [|r rest]; [now apply gives_ret|].
    assert (Hgo : forall dm, keys dm -> gives keys (recs_run s fd dm rest)) by (intros; apply (IH (length rest)); auto).
    cbn [recs_run]. destruct (zfind (k_wd r) dm) as [d|]; [|apply gives_after; auto].
    destruct (is_overflow (k_kind r)); [apply gives_after; auto|].
    destruct (effect_of (k_kind r)) as [f|]; [|now apply Hgo].
    assert (Hsingle : gives keys
       (ev <- mk_event s d r f (type_of r) ;;
         dm1 <- (if k_dir r && match k_kind r with KCreate => true | _ => false end
                 then p <- in_mark s (ev_path ev) fd dm ;; ret (fst p) else ret dm) ;;
         callback ev ;;; recs_run s fd dm1 rest)).
    { apply gives_after. intros ev. eapply (gives_bind _ _ keys).
      - destruct (k_dir r && _); [now apply keys_marked|now apply gives_ret].
      - intros dm1 H1. apply gives_after. auto. }
    destruct rest as [|n rest']; [exact Hsingle|].
    assert (Hgo' : forall dm, keys dm -> gives keys (recs_run s fd dm rest')) by (intros; apply (IH (length rest')); auto; cbn; lia).
    destruct (pairb r n); [apply gives_after; intros; apply gives_after; auto|].
    destruct (pairb n r); [apply gives_after; intros; apply gives_after; auto|exact Hsingle].
  Qed.
  Lemma keys_make fuel path il : gives (fun x => keys (kin_dm (snd (fst x)))) (in_make_sysres s fuel path il).
  Proof.
    unfold in_make_sysres. apply gives_after. intros fd. cbv zeta. destruct (fd <? 0)%Z; [apply gives_ret; constructor|].
    eapply gives_bind; [apply keys_walk; constructor|]. intros [|x dm] H; [apply gives_ret; constructor|]. apply gives_after. intros. now apply gives_ret.
  Qed.
End Keys.

Section Env.
  Variable e : env.
  Hypothesis start : exists dirs files, e_start e = kern_start dirs files.
  Notation s := (system e).
  Notation G tr := (kn_given (state e tr)).
  Notation R tr := (kn_read (state e tr)).
  Lemma kmem_state tr : kmem (state e tr).
  Proof.
    induction tr as [|x tr IH] using rev_ind; [destruct start as (d & f & E); unfold state; cbn; rewrite E; apply kmem_start|].
    rewrite state_snoc. assert (K : kmem (at_call e tr)) by (unfold at_call; now apply kmem_happens).
    destruct x; try exact K; cbn [effect_on].
    - unfold adding. destruct (negb _); [exact K|]. destruct (asks_all _); [now apply kmem_marking|exact K].
    - unfold reading_of. destruct (_ =? _)%Z; [now apply kmem_reading|exact K].
  Qed.
  Lemma marking_watches d k p : (0 < fst (marking d k p))%Z -> In (fst (marking d k p), p) (kn_watch (snd (marking d k p))).
  Proof.
    unfold marking. destruct (negb d && has p (kn_dirs k)); [|cbn; lia]. destruct (watched k p) as [wd|] eqn:W; [intros _; now apply watched_in|].
    destruct (kn_next k <? 2147483648)%Z; [|cbn; lia]. intros _. cbn. apply in_app_iff. right. now left.
  Qed.
  Lemma not_dead k wd p : kinv k -> In (wd, p) (kn_watch k) -> ~ deleted_in (sofar k) wd.
  Proof. intros I H (r & Hr & K & <-). apply in_split in Hr as (x & y & E). destruct (ki_dead _ I x r y E K) as [D _]. exact (D p H). Qed.
  Lemma marked_live o : forall tr w q, answers e tr o -> Forall no_read o -> In (Marked w q) (items o) -> ~ deleted_in (R tr) w.
  Proof.
    induction o as [|x o IH] using rev_ind; intros tr w q Ha Hr H; [destruct H|]. apply answers_app in Ha as [Ha [Hx _]]. apply Forall_app in Hr as [Hr _].
    rewrite items_app in H. apply in_app_iff in H as [H|H]; [now apply (IH tr w q)|].
    destruct x; cbn [items] in H; try (destruct H; fail); try (destruct H as [H|[]]; discriminate H).
    cbn [agree] in Hx. destruct Hx as (-> & -> & Hx). destruct (Z.ltb_spec 0 wd) as [L|L]; [|destruct H]. destruct H as [[= <- _]|[]].
    destruct (given_seg e start o tr Ha Hr) as [ER _].
    pose proof (marking_watches (e_deny e (tr ++ o)) (at_call e (tr ++ o)) p) as W. rewrite <- Hx in W. specialize (W L).
    assert (KI : kinv (snd (marking (e_deny e (tr ++ o)) (at_call e (tr ++ o)) p))) by (apply kinv_marking, (kinv_at e start)).
    pose proof (not_dead _ _ _ KI W) as D. intros (r & Hin & Hr2). apply D. exists r. split; [|exact Hr2]. unfold sofar. apply in_app_iff. left.
    pose proof (marking_given (e_deny e (tr ++ o)) (at_call e (tr ++ o)) p (kinv_at e start _)) as X. destruct (marking _ _ _) as [w2 k2]. cbn [snd] in *. destruct X as [X _].
    rewrite X, (at_read e (tr ++ o)), ER. exact Hin.
  Qed.
  Record mem (tr : trace) (dm : zmap text) : Prop := {
    mem_keys : keys dm;
    mem_live : forall wd, zfind wd dm <> None -> ~ deleted_in (R tr) wd }.
  Lemma mem_quiet tr o dm : answers e tr o -> Forall no_read o -> mem tr dm -> mem (tr ++ o) dm.
  Proof. intros Ha Hr [M1 M2]. constructor; [exact M1|]. destruct (given_seg e start o tr Ha Hr) as [-> _]. exact M2. Qed.
  Lemma mem_recv ke tr o ke' : kin_fd ke = e_fd e -> mem tr (kin_dm ke) -> in_recv s ke tr = (o, Ok (r_pending, ke')) -> mem (tr ++ o) (kin_dm ke').
  Proof.
    intros Hfd [M1 M2] E. destruct (kn_queue (at_call e tr)) as [|r q] eqn:Q.
    - assert (Er : os_read s tr (kin_fd ke) in_buf_len = {| rd_len := -1; rd_bytes := []; rd_errno := 11 |}).
      { cbn [os_read system]. rewrite Hfd, (reading_ours e). unfold reading. rewrite Q. reflexivity. }
      unfold in_recv, bind, sys_read in E. rewrite Er in E. cbn [rd_len rd_errno rd_bytes Z.ltb Z.compare andb negb Z.eqb Pos.eqb] in E. injection E as <- <-. cbn [kin_dm].
      assert (ES : state e (tr ++ [ORead (kin_fd ke) {| rd_len := -1; rd_bytes := []; rd_errno := 11 |}]) = at_call e tr).
      { rewrite state_snoc. cbn [effect_on]. rewrite Hfd, (reading_ours e). unfold reading. now rewrite Q. }
      cbn [app]. constructor; [exact M1|]. rewrite ES, (at_read e). exact M2.
    - destruct (reading_batch (e_want e tr) _ r q (kinv_at e start tr) Q) as (rs & B & L & H1 & H2 & HQ & HR & _).
      pose proof B as [Hok Hsz Hord].
      assert (Hsz' : (N.of_nat (length (encode rs)) <= in_buf_len)%N) by (unfold in_buf_len; lia).
      assert (Hrd : read_gives s ke tr rs) by (unfold read_gives; cbn [os_read system]; rewrite Hfd, (reading_ours e); split; assumption).
      destruct (in_recv_batch s false ke tr rs Hok Hsz' Hrd Hord (fun _ => L)) as (o' & ke2 & known' & E' & Hba & Hk). rewrite E in E'. injection E' as <- <-.
      destruct (in_recv_recs s ke tr rs Hok Hsz' Hrd) as (o1 & dm' & E1 & ER). rewrite E in ER. injection ER as Eo Ek.
      set (x := ORead _ _) in *. rewrite Hfd in E1.
      pose proof (recs_run_no_read s (e_fd e) rs (kin_dm ke) (tr ++ [x])) as Hnr. rewrite E1 in Hnr. cbn [fst] in Hnr.
      pose proof (val_recs e rs (kin_dm ke) (tr ++ [x])) as Hv. rewrite E1 in Hv. cbn [fst] in Hv.
      destruct (given_seg e start o1 (tr ++ [x]) Hv Hnr) as [ERd _].
      assert (ES : state e (tr ++ [x]) = snd (reading (e_want e tr) (at_call e tr))) by (rewrite state_snoc; cbn [effect_on x]; now rewrite Hfd, (reading_ours e)).
      assert (ERx : R (tr ++ [x]) = R tr ++ rs) by (rewrite ES, HR, (at_read e); reflexivity).
      assert (Eo' : tr ++ o = (tr ++ [x]) ++ o1) by (rewrite Eo, <- app_assoc; reflexivity). rewrite Eo'.
      constructor.
      + rewrite Ek. cbn [kin_dm]. apply keys_erase. eapply keys_recs; [exact M1|exact E1].
      + intros wd Hwd. rewrite ERd. rewrite Hk in Hwd. unfold forget_deleted in Hwd. destruct (existsb _ rs) eqn:X; [congruence|].
        pose proof (batch_learn _ _ _ _ _ _ Hba) as HL. rewrite HL in Hwd.
        destruct (learn_all _ _ wd) as [d|] eqn:Ed; [|congruence]. apply learn_all_from in Ed as [Ed|Ed].
        * rewrite ERx. intros (r0 & Hr0 & K0 & W0). apply in_app_iff in Hr0 as [Hr0|Hr0].
          -- apply (M2 wd); [congruence|]. exists r0. auto.
          -- assert (Y : existsb (fun r => (k_wd r =? wd)%Z && match k_kind r with KDeleteSelf => true | _ => false end) rs = true).
             { apply existsb_exists. exists r0. split; [exact Hr0|]. rewrite W0, Z.eqb_refl, K0. reflexivity. }
             first [rewrite Y in X; discriminate X | congruence].
        * apply (marked_live o1 (tr ++ [x]) wd d Hv Hnr). replace (items o1) with (items o) by (rewrite Eo; reflexivity). exact Ed.
  Qed.
  Lemma mem_ready il : forall fds ok ke tr o ok' ke', kin_fd ke = e_fd e -> ai e tr (fun k => zfind k (kin_dm ke)) -> mem tr (kin_dm ke) ->
    each_ready kin kin_fd (in_recv s) il fds ok ke tr = (o, Ok (ok', ke')) ->
    kin_fd ke' = e_fd e /\ ai e (tr ++ o) (fun k => zfind k (kin_dm ke')) /\ mem (tr ++ o) (kin_dm ke').
  Proof.
    induction fds as [|fd fds IH]; intros ok ke tr o ok' ke' Hfd A Mm E; cbn [each_ready] in E.
    - injection E as <- <- <-. rewrite app_nil_r. auto.
    - destruct (fd =? il)%Z; [eapply IH; eauto|]. destruct (fd =? kin_fd ke)%Z; [|eapply IH; eauto].
      destruct (ai_recv e start ke tr Hfd A) as (o1 & ke1 & E1 & F1 & A1). pose proof (mem_recv _ _ _ _ Hfd Mm E1) as M1.
      unfold bind in E. rewrite E1 in E. destruct (each_ready _ _ _ _ fds r_pending ke1 (tr ++ o1)) as [o2 r2] eqn:E2. injection E as <- ->.
      rewrite app_assoc. eapply IH; [exact F1|exact A1|exact M1|exact E2].
  Qed.
  Lemma mem_loop il : forall fuel ep ok ke tr o ok' ke', kin_fd ke = e_fd e -> ai e tr (fun k => zfind k (kin_dm ke)) -> mem tr (kin_dm ke) ->
    ep_loop s kin kin_fd (in_recv s) il fuel ep ok ke tr = (o, Ok (ok', ke')) ->
    ai e (tr ++ o) (fun k => zfind k (kin_dm ke')) /\ mem (tr ++ o) (kin_dm ke').
  Proof.
    induction fuel as [|n IH]; intros ep ok ke tr o ok' ke' Hfd A Mm E; cbn [ep_loop] in E; [discriminate|].
    destruct (negb (r_lt ok r_complete)); [injection E as <- <- <-; rewrite app_nil_r; auto|].
    unfold bind at 1, epoll_wait in E. set (w := os_epoll_wait s tr ep) in *. set (x := OEpollWait ep w) in *.
    assert (Cx : Forall calm [x] /\ Forall no_read [x]) by (split; repeat constructor). destruct Cx as [Cx Nx].
    assert (A' : ai e (tr ++ [x]) (fun k => zfind k (kin_dm ke))) by (apply (ai_quiet e start); auto).
    assert (M' : mem (tr ++ [x]) (kin_dm ke)) by (apply mem_quiet; auto; now apply calm_answers).
    destruct w as [fds|].
    - match type of E with (let (_, _) := ?b in _) = _ => destruct b as [o1 r1] eqn:Eb end. injection E as <- ->.
      unfold bind in Eb. destruct (each_ready _ _ _ _ _ ok ke (tr ++ [x])) as [o2 [[ok2 ke2]|u| |]] eqn:E2; try discriminate.
      destruct (mem_ready il _ _ _ _ _ _ _ Hfd A' M' E2) as (F2 & A2 & M2).
      destruct (ep_loop _ _ _ _ _ n ep ok2 ke2 _) as [o3 r3] eqn:E3. injection Eb as <- ->.
      destruct (IH _ _ _ _ _ _ _ F2 A2 M2 E3) as [A3 M3]. rewrite <- !app_assoc in A3, M3. exact (conj A3 M3).
    - match type of E with (let (_, _) := ?b in _) = _ => destruct b as [o1 r1] eqn:Eb end. injection E as <- ->.
      destruct (IH _ _ _ _ _ _ _ Hfd A' M' Eb) as [A3 M3]. rewrite <- app_assoc in A3, M3. exact (conj A3 M3).
  Qed.
End Env.

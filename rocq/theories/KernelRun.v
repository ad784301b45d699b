(** The adapter on the kernel of [KernelSpec]. *)
From Verif Require Import Base PathModel EventModel Sys SysFacts LinuxModel InotifyModel FanotifyModel LinuxWatch
  LinuxSpec LinuxFacts LinuxRun LinuxProps LinuxChoice InotifySpec InotifyFacts InotifyRun KernelSpec KernelFacts.

(** ** Calls keep the invariant *)
Lemma kinv_marking d k p : kinv k -> kinv (snd (marking d k p)).
Proof.
  intros I. unfold marking. destruct (negb d && has p (kn_dirs k)); [|exact I]. destruct (watched k p) eqn:W; [exact I|].
  destruct (kn_next k <? 2147483648)%Z eqn:L; [|exact I]. apply Z.ltb_lt in L.
  destruct I as [I1 I2 I3 I4 I5 I6 I7 I8 I9 I10 I11]. constructor; unfold sofar, owed in *; cbn [snd kn_given kn_watch kn_next kn_cookies kn_read kn_queue kn_log]; auto.
  - destruct I1 as (all & L1 & D). exists all. split; [|exact D]. eapply logged_more; [|exact L1]. intros w Hw. apply in_app_iff. now left.
  - intros wd q H. apply in_app_iff in H as [H|H]; apply in_app_iff; [left; now apply I2|now right].
  - intros wd q H. apply in_app_iff in H as [H|[[= <- <-]|[]]]; [apply I3 in H; lia|lia].
  - lia.
  - intros wd q q' H H'. apply in_app_iff in H as [H|[[= <- <-]|[]]]; apply in_app_iff in H' as [H'|[H'|[]]].
    + eapply I5; eassumption.
    + injection H' as <- <-. apply I3 in H. lia.
    + apply I3 in H'. lia.
    + now injection H' as <-.
  - revert I6. apply Forall_impl. intros r (q & H). exists q. apply in_app_iff. now left.
  - intros x r y E K. destruct (I11 x r y E K) as [H1 H2]. split; [|exact H2]. intros q H. apply in_app_iff in H as [H|[[= H _]|[]]]; [now apply (H1 q)|].
    assert (F : exists q, In (k_wd r, q) (kn_given k)).
    { rewrite Forall_forall in I6. apply I6. rewrite E. apply in_elt. }
    destruct F as (q' & F). apply I3 in F. lia.
Qed.
Lemma kinv_reading w k : kinv k -> kinv (snd (reading w k)).
Proof.
  intros I. unfold reading. destruct (kn_queue k) as [|r q] eqn:E; [exact I|]. set (c := fitting _ _ _).
  assert (S : (kn_read k ++ firstn c (r :: q)) ++ skipn c (r :: q) = sofar k) by (unfold sofar; rewrite E, <- app_assoc, firstn_skipn; reflexivity).
  destruct I as [I1 I2 I3 I4 I5 I6 I7 I8 I9 I10 I11]. cbn [snd].
  constructor; unfold sofar at 1 || idtac; unfold owed in *; cbn [snd kn_given kn_watch kn_next kn_cookies kn_read kn_queue kn_log] in *; rewrite ?S; auto;
    unfold sofar in *; cbn [snd kn_given kn_watch kn_next kn_cookies kn_read kn_queue kn_log] in *; rewrite ?S; auto.
Qed.

Lemma app_split {A} (l l' x y : list A) : l ++ l' = x ++ y ->
  (exists y', l = x ++ y' /\ y = y' ++ l') \/ (exists x', x = l ++ x' /\ l' = x' ++ y).
Proof.
  revert x. induction l as [|a l IH]; intros x E; cbn in E; [right; exists x; auto|].
  destruct x as [|b x]; cbn in E; [left; exists (a :: l); auto|]. injection E as -> E.
  destruct (IH _ E) as [(y' & -> & ->)|(x' & -> & ->)]; [left|right]; eexists; split; reflexivity.
Qed.

(** ** Records and what is reported of them *)
Inductive grp (G : list (Z * text)) : list krec -> list shape -> Prop :=
| GR0 : grp G [] []
| GR1 r p f rs l : In (k_wd r, p) G -> effect_of (k_kind r) = Some f -> grp G rs l ->
    grp G (r :: rs) (Sh (entry p (k_name r)) f (type_of r) None :: l)
| GR2 r n p rs l : In (k_wd r, p) G -> rename_pair r n -> grp G rs l ->
    grp G (r :: n :: rs) (Sh (entry p (k_name r)) EtRename (type_of r) (Some (Sh (entry p (k_name n)) EtRename (type_of n) None)) :: l)
| GR3 r rs l : effect_of (k_kind r) = None -> grp G rs l -> grp G (r :: rs) l.
Lemma grp_app G a x b y : grp G a x -> grp G b y -> grp G (a ++ b) (x ++ y).
Proof. intros H Hb. induction H; cbn; [exact Hb|eapply GR1|eapply GR2|eapply GR3]; eassumption. Qed.
Lemma grp_more G G' a x : (forall w, In w G -> In w G') -> grp G a x -> grp G' a x.
Proof. intros H Hl. induction Hl; [constructor|eapply GR1|eapply GR2|eapply GR3]; eauto. Qed.
Lemma grp_each G rs : Forall (fun r => exists p, In (k_wd r, p) G) rs -> exists l, grp G rs l.
Proof.
  induction 1 as [|r rs (p & Hp) _ (l & IH)]; [eexists; constructor|]. destruct (effect_of (k_kind r)) eqn:E; eexists; [eapply GR1|eapply GR3]; eassumption.
Qed.
Lemma grp_less G G' a x : grp G a x -> (forall r p, In r a -> In (k_wd r, p) G -> In (k_wd r, p) G') -> grp G' a x.
Proof.
  induction 1; intros Hl; [constructor|eapply GR1|eapply GR2|eapply GR3]; eauto; try (apply Hl; auto with datatypes); apply IHgrp; intros; apply Hl; auto with datatypes.
Qed.
Lemma grp_nil G l : grp G [] l -> l = [].
Proof. inversion 1. reflexivity. Qed.

Lemma dedup_cons a r rs : dedup a (r :: rs) -> exists k a', a = repeat r (S k) ++ a' /\ dedup a' rs /\ (k <> 0 -> is_modify r = true).
Proof.
  remember (r :: rs) as q eqn:E. intros H. revert r rs E. induction H; intros r' rs' E; [discriminate| |].
  - injection E as -> ->. exists 0, a. split; [reflexivity|]. split; [exact H|]. congruence.
  - subst b. destruct (IHdedup _ _ eq_refl) as (k & a' & E & D & M). cbn in E. injection E as -> E. exists (S k), a'. split; [|split; [exact D|auto]].
    cbn. now rewrite E.
Qed.
Lemma dedup_one a r rs : dedup a (r :: rs) -> is_modify r = false -> exists a', a = r :: a' /\ dedup a' rs.
Proof. intros H M. destruct (dedup_cons _ _ _ H) as ([|k] & a' & -> & D & Hk); [exists a'; auto|]. rewrite Hk in M; discriminate. Qed.

Lemma told_log G : (forall wd p q, In (wd, p) G -> In (wd, q) G -> p = q) ->
  forall n Q l all E, length Q <= n -> grp G Q l -> dedup all Q -> logged G E all -> told E l.
Proof.
  intros F. induction n as [|n IH]; intros Q l all E Hn HG HD HL.
  - destruct Q; [|cbn in Hn; lia]. apply grp_nil in HG. apply dedup_nil in HD. subst. inversion HL. constructor.
  - inversion HG as [|r p f rs l' Hin Hef HG' E1 E2|r m p rs l' Hin Hpair HG' E1 E2|r rs l' Hef HG' E1 E2]; subst Q l; clear HG; cbn [length] in Hn.
    + apply dedup_nil in HD. subst all. inversion HL. constructor.
    + destruct (dedup_cons _ _ _ HD) as (k & a & -> & D & M). destruct (plain (k_kind r)) eqn:P.
      * (* alone *)
        assert (X : exists E', E = repeat (Sh (entry p (k_name r)) f (type_of r) None) (S k) ++ E' /\ logged G E' a).
        { clear -F HL Hin Hef P. revert E HL. induction k as [|k IHk]; intros E HL.
          - cbn [repeat app] in *. inversion HL as [|? p' f' E0 ? Hin' P' Hef' HL'|? ? ? ? ? ? Hp|? ? ? He|? ? ? ? ? Hh]; subst.
            + exists E0. split; [|exact HL']. rewrite (F _ _ _ Hin Hin'). cbn. congruence.
            + destruct Hp as (Hp & _). rewrite Hp in P. discriminate.
            + congruence.
            + destruct (k_kind r); discriminate.
          - change (repeat r (S (S k)) ++ a) with (r :: (repeat r (S k) ++ a)) in HL.
            inversion HL as [|? p' f' E0 ? Hin' P' Hef' HL'|? ? ? ? ? ? Hp|? ? ? He|? ? ? ? ? Hh]; subst.
            + destruct (IHk _ HL') as (E' & -> & HLa). exists E'. split; [|exact HLa]. rewrite (F _ _ _ Hin Hin'). replace f' with f by congruence. reflexivity.
            + destruct Hp as (Hp & _). rewrite Hp in P. discriminate.
            + congruence.
            + destruct (k_kind r); discriminate. }
        destruct X as (E' & -> & HLa). assert (T : told E' l') by (apply (IH rs l' a E'); auto; lia).
        destruct k as [|k]; [cbn; now constructor|]. specialize (M ltac:(discriminate)). unfold is_modify in M.
        destruct (k_kind r); try discriminate M. injection Hef as <-. clear -T. induction k as [|k IHk]; cbn in *; [apply ToldMerged|apply ToldMerged, IHk]. now constructor.
      * (* half of a rename *)
        assert (k = 0) as ->. { destruct k; [reflexivity|]. specialize (M ltac:(discriminate)). unfold is_modify in M. destruct (k_kind r); discriminate. }
        cbn [repeat app] in HL. inversion HL as [|? p' f' E0 ? Hin' P' Hef' HL'|? m p' E0 a' Hin' Hp Hwd Hd Hd' HL'|? ? ? He|? p' E0 ? Hin' Hh Hnp HL']; subst; [congruence| |congruence|].
        2:{ rewrite (F _ _ _ Hin Hin'). replace f with EtRename by (destruct (k_kind r); try discriminate; now injection Hef). constructor. apply (IH rs l' a E0); auto. lia. }
        pose proof Hp as (K1 & K2 & _). rewrite K1 in Hef. injection Hef as <-.
        destruct rs as [|m' rs]. { apply dedup_nil in D. discriminate. }
        assert (Em : m' = m). { destruct (dedup_cons _ _ _ D) as (k & a'' & Ea & _). cbn in Ea. now injection Ea. } subst m'.
        destruct (dedup_one _ _ _ D) as (a'' & Ea & D'). { unfold is_modify. now rewrite K2. } injection Ea as <-.
        inversion HG' as [|? q f rs' l'' Hinm Hefm HGm Ex1 Ex2|? ? ? ? ? ? Hp2|? ? ? Hem]; subst; [|destruct Hp2 as (Hp2 & _); congruence|rewrite K2 in Hem; discriminate].
        rewrite K2 in Hefm. injection Hefm as <-. unfold type_of. rewrite Hd, Hd'. rewrite (F _ _ _ Hin Hin').
        rewrite Hwd in Hinm. rewrite (F _ _ _ Hinm Hin'). apply ToldHalves. apply (IH rs l'' a' E0); auto. cbn in Hn. lia.
    + pose proof Hpair as (K1 & K2 & _).
      destruct (dedup_one _ _ _ HD) as (a & -> & D). { unfold is_modify. now rewrite K1. }
      destruct (dedup_one _ _ _ D) as (a' & -> & D'). { unfold is_modify. now rewrite K2. }
      inversion HL as [|? p' f' E0 ? Hin' P' Hef' HL'|? m' p' E0 a'' Hin' Hp Hwd Hd Hd' HL'|? ? ? He|? p' E0 ? Hin' Hh Hnp HL']; subst; [rewrite K1 in P'; discriminate| |rewrite K1 in He; discriminate|now apply (Hnp _ _ eq_refl) in Hpair].
      unfold type_of. rewrite Hd, Hd', (F _ _ _ Hin Hin'). constructor. apply (IH rs l' a' E0); auto. cbn in Hn. lia.
    + destruct (dedup_one _ _ _ HD) as (a & -> & D). { unfold is_modify. destruct (k_kind r); try reflexivity. discriminate Hef. }
      inversion HL as [|? p' f' E0 ? Hin' P' Hef' HL'|? m p' E0 a' Hin' Hp Hwd Hd Hd' HL'|? ? ? He HL'|? p' E0 ? Hin' Hh Hnp HL']; subst; [congruence|destruct Hp as (Hp & _); rewrite Hp in Hef; discriminate| |destruct (k_kind r); discriminate].
      apply (IH rs l' a E); auto. lia.
Qed.

(** What a list of visible steps shows of the filesystem. *)
Definition is_fs (s : shape) : bool := match s with Sh _ _ PtWatcher _ => false | _ => true end.
Fixpoint shown (is : list item) : list shape :=
  match is with [] => [] | Shown x :: is' => x :: shown is' | Marked _ _ :: is' => shown is' end.
Lemma shown_app a b : shown (a ++ b) = shown a ++ shown b.
Proof. induction a as [|[] a IH]; cbn; now rewrite ?IH. Qed.
Lemma shown_items o : shown (items o) = map shape_of (callbacks o).
Proof. induction o as [|x o IH]; [reflexivity|]. destruct x; cbn; auto; [now rewrite IH|]. destruct (0 <? wd)%Z; cbn; exact IH. Qed.
Lemma fs_items o : fs_shapes o = filter is_fs (shown (items o)).
Proof. unfold fs_shapes. now rewrite shown_items. Qed.

Lemma marks_more s known p ms known1 : marks s known p ms known1 -> filter is_fs (shown ms) = [] /\ (forall k d, known k = Some d -> known1 k = Some d).
Proof. destruct 1; cbn; split; auto. intros k d H1. unfold learn. now rewrite H1. Qed.
Lemma batch_grp s G known rs is known' : batch s false known rs is known' ->
  (forall wd p q, In (wd, p) G -> In (wd, q) G -> p = q) -> renames_local rs ->
  Forall (fun r => effect_of (k_kind r) <> None -> exists p, known (k_wd r) = Some p /\ In (k_wd r, p) G) rs ->
  grp G rs (filter is_fs (shown is)).
Proof.
  intros B F. induction B as [known|known r rs is known' K B IH|known d r rs is known' K KO B IH|known d r rs is known' K Ef Ko B IH|known d d' r n rs is known' P K K' B IH|known d r rs ms is known1 known' K Kc Kd Hm B IH|known d f r rs is known' K Ef Hnc Hnp B IH]; intros Hloc Hk.
  - constructor.
  - inversion Hk as [|? ? H1 H2]; subst. cbn. apply GR3; [|apply IH; [now apply renames_local_tail in Hloc|exact H2]].
    destruct (effect_of (k_kind r)); [|reflexivity]. destruct H1 as (p & E & _); [discriminate|congruence].
  - inversion Hk as [|? ? H1 H2]; subst. cbn. apply GR3; [now rewrite KO|]. apply IH; [now apply renames_local_tail in Hloc|exact H2].
  - inversion Hk as [|? ? H1 H2]; subst. apply GR3; [exact Ef|]. apply IH; [now apply renames_local_tail in Hloc|exact H2].
  - inversion Hk as [|? ? H1 H2]; subst. inversion H2 as [|? ? H3 H4]; subst.
    pose proof P as (K1 & _). destruct H1 as (p & E & Hin); [rewrite K1; discriminate|]. assert (p = d) by congruence. subst p.
    assert (k_wd n = k_wd r) by (apply (Hloc [] r n rs eq_refl P)). assert (d' = d) by congruence. subst d'.
    assert (Fs : forall a b c, is_fs (Sh a b (type_of r) c) = true) by (intros; unfold type_of; now destruct (k_dir r)).
    cbn [shown filter app]. rewrite Fs. apply GR2; auto. apply IH; [apply renames_local_tail in Hloc; now apply renames_local_tail in Hloc|exact H4].
  - inversion Hk as [|? ? H1 H2]; subst. destruct (marks_more _ _ _ _ _ Hm) as [M1 M2].
    rewrite shown_app, filter_app, M1. cbn [app shown filter is_fs].
    replace PtDir with (type_of r) by (unfold type_of; now rewrite Kd). destruct H1 as (p & E & Hin); [rewrite Kc; discriminate|]. assert (p = d) by congruence. subst p.
    apply GR1; [exact Hin|now rewrite Kc|]. apply IH; [now apply renames_local_tail in Hloc|].
    revert H2. apply Forall_impl. intros n H Hn. destruct (H Hn) as (p & E1 & E2). exists p. split; [now apply M2|exact E2].
  - inversion Hk as [|? ? H1 H2]; subst. destruct H1 as (p & E & Hin); [congruence|]. assert (p = d) by congruence. subst p.
    assert (Fs : forall a b c, is_fs (Sh a b (type_of r) c) = true) by (intros; unfold type_of; now destruct (k_dir r)).
    cbn [shown filter]. rewrite Fs. apply GR1; auto. apply IH; [now apply renames_local_tail in Hloc|exact H2].
Qed.
Lemma batch_learn s l known rs is known' : batch s l known rs is known' -> forall k, known' k = learn_all known is k.
Proof.
  induction 1; intros k; cbn; auto.
  rewrite learn_all_app. cbn [learn_all]. rewrite IHbatch. inversion H2; subst; reflexivity.
Qed.

Section Env.
  Variable e : env.
  Hypothesis start : exists dirs files, e_start e = kern_start dirs files.
  Notation s := (system e).

  Definition effect_on (tr : trace) (x : obs) (k : kern) : kern :=
    match x with
    | OAddWatch fd p m _ => snd (adding (fd =? e_fd e)%Z m (e_deny e tr) k p)
    | ORead fd _ => snd (reading_of (fd =? e_fd e)%Z (e_want e tr) k)
    | _ => k
    end.
  Lemma state_snoc tr x : state e (tr ++ [x]) = effect_on tr x (at_call e tr).
  Proof. unfold state, at_call. rewrite rev_app_distr. cbn [rev app state_rev]. rewrite rev_involutive. reflexivity. Qed.
  Lemma kinv_effect tr x k : kinv k -> kinv (effect_on tr x k).
  Proof. intros I. destruct x; try exact I; cbn [effect_on].
    - unfold adding. destruct (negb _); [exact I|]. destruct (asks_all _); [now apply kinv_marking|exact I].
    - unfold reading_of. destruct (_ =? _)%Z; [now apply kinv_reading|exact I].
  Qed.
  Lemma kinv_state tr : kinv (state e tr).
  Proof.
    induction tr as [|x tr IH] using rev_ind; [destruct start as (d & f & E); unfold state; cbn; rewrite E; apply kinv_start|].
    rewrite state_snoc. apply kinv_effect. unfold at_call. now apply kinv_happens.
  Qed.
  Lemma kinv_at tr : kinv (at_call e tr).
  Proof. apply kinv_happens, kinv_state. Qed.

  (** ** What a read gives *)
  Lemma fitting_size n : forall room q, (N.of_nat (length (encode (firstn (fitting room n q) q))) <= room)%N.
  Proof.
    induction n as [|n IH]; intros room q; [cbn; lia|]. destruct q as [|r q]; [cbn; lia|]. cbn [fitting].
    destruct (N.leb_spec (N.of_nat (length (encode_rec r))) room) as [L|L]; [|cbn; lia].
    cbn [firstn]. rewrite encode_cons, app_length. specialize (IH (room - N.of_nat (length (encode_rec r)))%N q). lia.
  Qed.
  Lemma reading_batch w k r q : kinv k -> kn_queue k = r :: q ->
    exists rs, batch_ok rs /\ renames_local rs /\ rd_len (fst (reading w k)) = Z.of_nat (length (encode rs)) /\ rd_bytes (fst (reading w k)) = encode rs /\
      kn_queue k = rs ++ kn_queue (snd (reading w k)) /\ kn_read (snd (reading w k)) = kn_read k ++ rs /\ rs <> [].
  Proof.
    intros I E. unfold reading. rewrite E. set (c := fitting 4096 (S w) (r :: q)). exists (firstn c (r :: q)). cbn [fst snd rd_len rd_bytes kn_queue kn_read].
    assert (Q : sofar k = kn_read k ++ firstn c (r :: q) ++ skipn c (r :: q)) by (unfold sofar; rewrite E, firstn_skipn; reflexivity).
    pose proof (ki_adj _ I) as A. rewrite Q in A. apply adj_part in A.
    pose proof (ki_ok _ I) as O. rewrite Q in O. apply Forall_app in O as [_ O]. apply Forall_app in O as [O _].
    split; [|split; [|split; [|split; [|split; [|split]]]]]; auto.
    - constructor; [exact O| |].
      + pose proof (fitting_size (S w) 4096 (r :: q)). unfold c. lia.
      + intros a x n b H. destruct (A a x n b H) as [H1 H2]. split; [exact H1|]. intros P. now apply H2.
    - intros a x n b H P. destruct (A a x n b H) as [_ H2]. now apply H2.
    - now rewrite firstn_skipn.
    - unfold c. cbn [fitting]. pose proof (ki_short _ I) as L. rewrite Q in L. rewrite <- E, app_assoc in L.
      assert (Lr : (length (encode_rec r) <= 300)%nat).
      { pose proof (ki_short _ I) as L'. unfold sofar in L'. rewrite E in L'. apply Forall_app in L' as [_ L']. now inversion L'. }
      destruct (N.leb_spec (N.of_nat (length (encode_rec r))) 4096); [discriminate|lia].
  Qed.
  Lemma system_kernel : inotify_kernel false s.
  Proof.
    intros tr fd n. cbn [os_read system]. unfold reading_of. destruct (_ =? _)%Z; [|left; split; reflexivity]. destruct (kn_queue (at_call e tr)) as [|r q] eqn:E.
    - left. unfold reading. rewrite E. split; reflexivity.
    - right. destruct (reading_batch (e_want e tr) _ r q (kinv_at tr) E) as (rs & B & L & H1 & H2 & _). exists rs. auto.
  Qed.

  (** ** The adapter gets this kernel's answers *)
  Definition agree (tr : trace) (x : obs) : Prop :=
    match x with
    | OAddWatch fd p m wd => fd = e_fd e /\ m = in_recv_mask /\ wd = fst (marking (e_deny e tr) (at_call e tr) p)
    | _ => True
    end.
  Lemma adding_ours p d k : adding (e_fd e =? e_fd e)%Z in_recv_mask d k p = marking d k p.
  Proof. unfold adding. rewrite Z.eqb_refl. reflexivity. Qed.
  Lemma reading_ours w k : reading_of (e_fd e =? e_fd e)%Z w k = reading w k.
  Proof. unfold reading_of. now rewrite Z.eqb_refl. Qed.
  Fixpoint answers (tr : trace) (o : trace) : Prop :=
    match o with [] => True | x :: o' => agree tr x /\ answers (tr ++ [x]) o' end.
  Lemma answers_app o : forall tr o', answers tr (o ++ o') <-> answers tr o /\ answers (tr ++ o) o'.
  Proof.
    induction o as [|x o IH]; intros tr o'; cbn [app answers]; [rewrite app_nil_r; tauto|]. rewrite IH, <- app_assoc. cbn [app]. tauto.
  Qed.
  Definition val {A} (m : M A) : Prop := forall tr, answers tr (fst (m tr)).
  Lemma val_ret A (x : A) : val (ret x).
  Proof. intros tr. exact Coq.Init.Logic.I. Qed.
  Lemma val_bind A B (m : M A) (f : A -> M B) : val m -> (forall a, val (f a)) -> val (bind m f).
  Proof.
    intros Hm Hf tr. specialize (Hm tr). unfold bind. destruct (m tr) as [o [a|u| |]]; cbn [fst] in *; auto.
    specialize (Hf a (tr ++ o)). destruct (f a (tr ++ o)) as [o' r]; cbn [fst] in *. apply answers_app. auto.
  Qed.
  Definition calm (x : obs) : Prop := match x with OAddWatch _ _ _ _ => False | _ => True end.
  Lemma calm_answers o : Forall calm o -> forall tr, answers tr o.
  Proof. induction 1 as [|x o H _ IH]; intros tr; cbn; [exact Coq.Init.Logic.I|]. split; [destruct x; auto; contradiction|apply IH]. Qed.
  Lemma calm_val A (m : M A) : (forall tr, Forall calm (fst (m tr))) -> val m.
  Proof. intros H tr. apply calm_answers, H. Qed.

  Lemma val_mark p dm : val (in_mark s p (e_fd e) dm).
  Proof.
    unfold in_mark. apply val_bind; [apply calm_val; repeat constructor|]. intros [real|].
    2:{ apply val_bind; [apply calm_val; repeat constructor|]. intros []. apply val_ret. }
    apply val_bind; [apply calm_val; repeat constructor|]. intros d. apply val_bind.
    - destruct d; [|apply val_ret]. intros tr. unfold inotify_add_watch. cbn [fst answers agree os_add_watch system]. rewrite adding_ours. auto.
    - intros wd. destruct (0 <? wd)%Z; [apply val_ret|]. apply val_bind; [apply calm_val; repeat constructor|]. intros []. apply val_ret.
  Qed.
  Lemma val_walk fuel : forall path dm, val (walkdir s fuel path (fun dir dm => q <- in_mark s dir (e_fd e) dm ;; ret (fst q)) dm).
  Proof.
    assert (Hm : forall p dm, val (q <- in_mark s p (e_fd e) dm ;; ret (fst q))).
    { intros. apply val_bind; [apply val_mark|]. intros. apply val_ret. }
    induction fuel as [|n IH]; intros path dm; cbn [walkdir]; [intros tr; exact Coq.Init.Logic.I|].
    apply val_bind; [apply calm_val; repeat constructor|]. intros [ents|]; [|apply val_ret].
    apply val_bind; [apply Hm|]. intros dm1. apply val_bind.
    - revert dm1. induction ents as [|de es IHe]; intros dm1; [apply val_ret|].
      destruct (negb (de_type de =? 4)%N); [apply IHe|]. destruct (text_eqb (de_name de) (lit ".")); [apply IHe|]. destruct (text_eqb (de_name de) (lit "..")); [apply IHe|].
      apply val_bind; [apply calm_val; repeat constructor|]. intros [real|]; [|apply IHe]. apply val_bind; [apply IH|]. intros dm2. apply IHe.
    - intros dm2. apply val_bind; [apply calm_val; repeat constructor|]. intros []. apply val_ret.
  Qed.
  Lemma val_make fuel path il : val (in_make_sysres s fuel path il).
  Proof.
    unfold in_make_sysres. intros tr0. unfold bind at 1, inotify_init. cbv zeta. cbn [os_inotify_init system].
    match goal with |- context [(if ?c then ?x else ?y) ?t] => assert (V : val (if c then x else y)); [|specialize (V t); destruct ((if c then x else y) t) as [o1 r1]; cbn [fst snd app answers agree] in *; auto] end.
    destruct (e_fd e <? 0)%Z; [apply val_ret|].
    apply val_bind; [apply val_walk|]. intros [|x dm]; [apply val_ret|]. apply val_bind; [|intros; apply val_ret].
    apply calm_val. intros tr. unfold make_ep, bind, epoll_create, epoll_ctl, sys_close, ret. cbn [app].
    repeat match goal with |- context [if ?c then _ else _] => destruct c end; repeat constructor.
  Qed.
  Lemma val_recs : forall rs dm, val (recs_run s (e_fd e) dm rs).
  Proof.
    assert (Hmsg : forall r p, val (send_msg s r p)) by (intros; apply calm_val; repeat constructor).
    intros rs. remember (length rs) as len eqn:El. revert rs El.
    induction len as [len IH] using lt_wf_ind. intros rs El dm. subst len.
    destruct rs as [|r rest]; [apply val_ret|].
    assert (Hgo : forall dm, val (recs_run s (e_fd e) dm rest)) by (intros; apply (IH (length rest)); auto).
    cbn [recs_run]. destruct (zfind (k_wd r) dm) as [d|]; [|apply val_bind; auto].
    destruct (is_overflow (k_kind r)); [apply val_bind; auto|].
    destruct (effect_of (k_kind r)) as [f|]; [|apply Hgo].
    assert (Hev : forall d r f t, val (mk_event s d r f t)) by (intros; apply calm_val; repeat constructor).
    assert (Hpr : forall d a b f t, val (show_pair s d a b f t)) by (intros; apply calm_val; repeat constructor).
    assert (Hcb : forall e, val (callback e)) by (intros; apply calm_val; repeat constructor).
    assert (Hsingle : val
       (ev <- mk_event s d r f (type_of r) ;;
         dm1 <- (if k_dir r && match k_kind r with KCreate => true | _ => false end
                 then p <- in_mark s (ev_path ev) (e_fd e) dm ;; ret (fst p) else ret dm) ;;
         callback ev ;;; recs_run s (e_fd e) dm1 rest)).
    { apply val_bind; auto. intros ev. apply val_bind; auto.
      - destruct (k_dir r && _); [|apply val_ret]. apply val_bind; [apply val_mark|]. intros; apply val_ret.
      - intros dm1. apply val_bind; auto. }
    destruct rest as [|n rest']; [exact Hsingle|].
    assert (Hgo' : forall dm, val (recs_run s (e_fd e) dm rest')) by (intros; apply (IH (length rest')); auto; cbn; lia).
    destruct (pairb r n); [apply val_bind; auto; intros; apply val_bind; auto|].
    destruct (pairb n r); [apply val_bind; auto; intros; apply val_bind; auto|exact Hsingle].
  Qed.

  (** ** Watches and records over a run *)
  Notation G tr := (kn_given (state e tr)).
  Notation R tr := (kn_read (state e tr)).
  Lemma happens_given k os : kn_given (happens k os) = kn_given k /\ kn_read (happens k os) = kn_read k.
  Proof.
    unfold happens. revert k. induction os as [|o os IH]; intros k; [auto|]. cbn [fold_left]. destruct (IH (happen k o)) as [-> ->].
    unfold happen. destruct (legal k o); auto.
  Qed.
  Lemma at_given tr : kn_given (at_call e tr) = G tr. Proof. apply happens_given. Qed.
  Lemma at_read tr : kn_read (at_call e tr) = R tr. Proof. apply happens_given. Qed.
  Lemma marking_given d k p : kinv k -> let '(wd, k') := marking d k p in
    kn_read k' = kn_read k /\ (forall w q, In (w, q) (kn_given k') <-> In (w, q) (kn_given k) \/ (0 < wd)%Z /\ w = wd /\ q = p).
  Proof.
    intros I. unfold marking. destruct (negb d && has p (kn_dirs k)).
    2:{ split; [reflexivity|]. intros w q. split; [auto|intros [H|(H & _)]; [exact H|lia]]. }
    destruct (watched k p) as [wd|] eqn:W.
    { split; [reflexivity|]. intros w q. split; [auto|]. intros [H|(_ & -> & ->)]; [exact H|]. apply (ki_given _ I). now apply watched_in. }
    destruct (kn_next k <? 2147483648)%Z.
    - split; [reflexivity|]. intros w q. cbn. rewrite in_app_iff. cbn. pose proof (ki_next _ I). split; [intros [H1|[[= <- <-]|[]]]; [now left|right]|intros [H1|(_ & -> & ->)]; auto]. split; [lia|auto].
    - split; [reflexivity|]. intros w q. split; [auto|intros [H|(H & _)]; [exact H|lia]].
  Qed.
  Lemma given_seg o : forall tr, answers tr o -> Forall no_read o ->
    R (tr ++ o) = R tr /\ forall w q, In (w, q) (G (tr ++ o)) <-> In (w, q) (G tr) \/ In (Marked w q) (items o).
  Proof.
    induction o as [|x o IH] using rev_ind; intros tr Ha Hr.
    - rewrite app_nil_r. split; [reflexivity|]. cbn. tauto.
    - apply answers_app in Ha as [Ha [Hx _]]. apply Forall_app in Hr as [Hr Hx']. inversion Hx' as [|? ? Hnr _]; subst; clear Hx'.
      destruct (IH tr Ha Hr) as [IH1 IH2]. rewrite app_assoc, state_snoc, items_app.
      pose proof (at_given (tr ++ o)) as AG. pose proof (at_read (tr ++ o)) as AR.
      destruct x; try contradiction; cbn [effect_on items]; rewrite ?app_nil_r, ?AG, ?AR; auto.
      { split; [exact IH1|]. intros w q. rewrite IH2, in_app_iff. cbn. intuition discriminate. }
      pose proof (marking_given (e_deny e (tr ++ o)) (at_call e (tr ++ o)) p (kinv_at (tr ++ o))) as H. cbn [agree] in Hx.
      destruct Hx as (-> & -> & Hx). rewrite adding_ours. destruct (marking _ _ _) as [wd' k']. cbn [fst snd] in *. subst wd'. destruct H as [H1 H2]. split; [now rewrite H1, AR|].
      intros w q. rewrite H2, AG, IH2, in_app_iff. destruct (Z.ltb_spec 0 wd); cbn.
      + split; [intros [[?|?]|(_ & -> & ->)]; auto|intros [?|[?|[[= -> ->]|[]]]]; auto].
      + split; [intros [[?|?]|(? & _)]; auto; lia|intros [?|[?|[]]]; auto].
  Qed.
  Lemma learn_all_more is : forall known k d, known k = Some d -> learn_all known is k = Some d.
  Proof. induction is as [|[x|w q] is IH]; intros known k d H; cbn; auto. apply IH. unfold learn. now rewrite H. Qed.
  Lemma learn_all_from is : forall known k d, learn_all known is k = Some d -> known k = Some d \/ In (Marked k d) is.
  Proof.
    induction is as [|[x|w q] is IH]; intros known k d H; cbn in *; auto; apply IH in H as [H|H]; auto.
    unfold learn in H. destruct (known k); auto. destruct (Z.eqb_spec k w); [|discriminate]. injection H as <-. subst w. auto.
  Qed.
  Lemma learn_all_has is : forall known k d, In (Marked k d) is -> exists d', learn_all known is k = Some d'.
  Proof.
    induction is as [|[x|w q] is IH]; intros known k d H; [destruct H| |]; destruct H as [H|H]; try discriminate; cbn; [now apply (IH _ _ d)| |now apply (IH _ _ d)].
    injection H as -> ->. destruct (known k) as [d'|] eqn:E.
    - exists d'. apply learn_all_more. unfold learn. now rewrite E.
    - exists d. apply learn_all_more. unfold learn. now rewrite E, Z.eqb_refl.
  Qed.

  (** ** The adapter's invariant *)
  Definition deleted_in (rs : list krec) (wd : Z) : Prop := exists r, In r rs /\ k_kind r = KDeleteSelf /\ k_wd r = wd.
  (** A new directory was marked, or there was a warning. *)
  Definition attempted (q : text) (is : list item) : Prop :=
    In (Shown (warning "w/sys/not_watched@" q)) is \/ exists wd real, In (Marked wd real) is /\ resolves s q real.
  Record ai (tr : trace) (known : dirs) : Prop := {
    ai_answers : answers [] tr;
    ai_new : forall r p, In r (R tr) -> k_kind r = KCreate -> k_dir r = true -> In (k_wd r, p) (G tr) -> attempted (entry p (k_name r)) (items tr);
    ai_always : forall a b, tr = a ++ b -> exists l2, grp (G a) (R a) (fs_shapes a ++ l2);
    ai_sound : forall wd d, known wd = Some d -> In (wd, d) (G tr);
    ai_full : forall wd d, In (wd, d) (G tr) -> known wd = Some d \/ deleted_in (R tr) wd;
    ai_told : grp (G tr) (R tr) (fs_shapes tr) }.
  Lemma fs_shapes_app a b : fs_shapes (a ++ b) = fs_shapes a ++ fs_shapes b.
  Proof. now rewrite !fs_items, items_app, shown_app, filter_app. Qed.
  Lemma ai_same tr a b : same a b -> ai tr a -> ai tr b.
  Proof. intros H [H0 Hn Hal H1 H2 H3]. constructor; auto; intros wd d; rewrite <- H; auto. Qed.
  Lemma attempted_app q a b : attempted q (a ++ b) <-> attempted q a \/ attempted q b.
  Proof.
    unfold attempted. rewrite in_app_iff. split.
    - intros [[H|H]|(wd & real & H & Hr)]; auto. apply in_app_iff in H as [H|H]; [left|right]; right; eauto.
    - intros [[H|(wd & real & H & Hr)]|[H|(wd & real & H & Hr)]]; auto; right; exists wd, real; rewrite in_app_iff; auto.
  Qed.
  Lemma ki_wds_read tr r : In r (R tr) -> exists p, In (k_wd r, p) (G tr).
  Proof. intros H. pose proof (ki_wds _ (kinv_state tr)) as W. rewrite Forall_forall in W. apply W. unfold sofar. apply in_app_iff. now left. Qed.
  Lemma batch_new l known rs is known' : batch s l known rs is known' ->
    forall r d, In r rs -> k_kind r = KCreate -> k_dir r = true -> known (k_wd r) = Some d -> attempted (entry d (k_name r)) is.
  Proof.
    assert (Cons : forall q x is, attempted q is -> attempted q (x :: is)).
    { intros q x i0 H. change (x :: i0) with ([x] ++ i0). apply attempted_app. now right. }
    induction 1 as [known|known r rs is known' K B IH|known d r rs is known' K KO B IH|known d r rs is known' K Ef Ko B IH|known d d' r n rs is known' P K K' B IH|known d r rs ms is known1 known' K Kc Kd Hm B IH|known d f r rs is known' K Ef Hnc Hnp B IH];
      intros x q Hin Xc Xd Hx; [destruct Hin|..]; destruct Hin as [<-|Hin]; eauto; try congruence.
    - rewrite Xc in Ef. discriminate.
    - destruct P as (P & _). congruence.
    - destruct Hin as [<-|Hin]; eauto. destruct P as (_ & P & _). congruence.
    - apply attempted_app. left. assert (d = q) by congruence. subst d. destruct Hm as [wd real Hw Hr|]; [right; exists wd, real; cbn; auto|left; cbn; auto].
    - apply attempted_app. right. apply Cons. apply (IH x q); auto. now apply (proj2 (marks_more _ _ _ _ _ Hm)).
    - exfalso. apply Hnc. auto.
  Qed.
  (** calls that read nothing and report nothing but messages *)
  Lemma ai_seg tr o known : answers tr o -> Forall no_read o -> fs_shapes o = [] -> ai tr known -> ai (tr ++ o) (learn_all known (items o)).
  Proof.
    intros Ha Hr Hf [Hans Hn Hal H1 H2 H3]. destruct (given_seg o tr Ha Hr) as [ER EG]. constructor.
    - apply answers_app. auto.
    - intros r p Hin Kc Kd HG. rewrite ER in Hin. rewrite items_app. apply attempted_app. left. apply Hn; auto.
      destruct (ki_wds_read tr r Hin) as (p' & Hp'). replace p with p'; [exact Hp'|]. apply (ki_fun _ (kinv_state (tr ++ o)) (k_wd r)); auto. apply EG. now left.
    - intros a b E. apply app_split in E as [(b' & -> & ->)|(o1 & -> & ->)]; [eapply Hal; reflexivity|].
      apply answers_app in Ha as [Ha _]. apply Forall_app in Hr as [Hr _]. rewrite fs_shapes_app in Hf. apply app_eq_nil in Hf as [Hf _].
      destruct (given_seg o1 tr Ha Hr) as [ER1 EG1]. exists []. rewrite fs_shapes_app, Hf, !app_nil_r, ER1. eapply grp_more; [|exact H3]. intros [w q] H. apply EG1. now left.
    - intros wd d H. apply EG. apply learn_all_from in H as [H|H]; auto.
    - intros wd d H. rewrite ER. pose proof H as H0. apply EG in H as [H|H].
      + apply H2 in H as [H|H]; auto. left. now apply learn_all_more.
      + destruct (learn_all_has (items o) known wd d H) as (d' & E). left. rewrite E. f_equal.
        apply (ki_fun _ (kinv_state (tr ++ o)) wd); auto. apply EG. apply learn_all_from in E as [E|E]; auto.
    - rewrite ER, fs_shapes_app, Hf, app_nil_r. eapply grp_more; [|exact H3]. intros [w q] H. apply EG. now left.
  Qed.
  Lemma in_recv_fd ke tr o r ke' : in_recv s ke tr = (o, Ok (r, ke')) -> kin_fd ke' = kin_fd ke.
  Proof. intros E. apply in_recv_result in E. apply E. Qed.
  Lemma in_make_fd fuel path il tr o ok ke ep : in_make_sysres s fuel path il tr = (o, Ok (ok, ke, ep)) -> kin_fd ke = e_fd e.
  Proof.
    intros Ea. unfold in_make_sysres in Ea. unfold bind at 1, inotify_init in Ea. cbv zeta in Ea. change (os_inotify_init s tr) with (e_fd e) in Ea.
    destruct (e_fd e <? 0)%Z; [injection Ea as _ _ <- _; reflexivity|].
    match type of Ea with (match bind ?w ?f ?t with _ => _ end) = _ => destruct (bind w f t) as [o1 r1] eqn:E1; destruct r1 as [x|u| |]; try discriminate; injection Ea as _ -> end.
    apply bind_inv in E1 as [(o2 & dm & o3 & E2 & E3 & ->)|[(? & _ & [=])|[(_ & [=])|(_ & [=])]]]. destruct dm as [|d dm]; [injection E3 as _ _ <- _; reflexivity|].
    apply bind_inv in E3 as [(o4 & ep1 & o5 & E4 & E5 & ->)|[(? & _ & [=])|[(_ & [=])|(_ & [=])]]]. injection E5 as _ _ <- _. reflexivity.
  Qed.
  Lemma ai_recv ke tr : kin_fd ke = e_fd e -> ai tr (fun k => zfind k (kin_dm ke)) ->
    exists o ke', in_recv s ke tr = (o, Ok (r_pending, ke')) /\ kin_fd ke' = e_fd e /\ ai (tr ++ o) (fun k => zfind k (kin_dm ke')).
  Proof.
    intros Hfd A. destruct (kn_queue (at_call e tr)) as [|r q] eqn:Q.
    - assert (Er : os_read s tr (kin_fd ke) in_buf_len = {| rd_len := -1; rd_bytes := []; rd_errno := 11 |}).
      { cbn [os_read system]. rewrite Hfd, reading_ours. unfold reading. rewrite Q. reflexivity. }
      unfold in_recv, bind, sys_read. rewrite Er. cbn [rd_len rd_errno rd_bytes Z.ltb Z.compare andb negb Z.eqb Pos.eqb].
      do 2 eexists. split; [reflexivity|]. split; [exact Hfd|]. cbn [kin_dm]. destruct A as [A0 An Aal A1 A2 A3].
      assert (ES : state e (tr ++ [ORead (kin_fd ke) {| rd_len := -1; rd_bytes := []; rd_errno := 11 |}]) = at_call e tr).
      { rewrite state_snoc. cbn [effect_on]. rewrite Hfd, reading_ours. unfold reading. now rewrite Q. }
      cbn. constructor; rewrite ?ES, ?at_given, ?at_read; auto.
      { apply answers_app. cbn. auto. }
      { rewrite items_app. cbn. rewrite app_nil_r. exact An. }
      { intros a b E. destruct b as [|y b] using rev_ind.
        - rewrite app_nil_r in E. subst a. exists []. rewrite ES, at_given, at_read, fs_shapes_app. cbn. rewrite !app_nil_r. exact A3.
        - rewrite app_assoc in E. apply app_inj_tail in E as [E _]. eapply Aal, E. }
      rewrite fs_shapes_app. cbn. now rewrite app_nil_r.
    - destruct (reading_batch (e_want e tr) _ r q (kinv_at tr) Q) as (rs & B & L & H1 & H2 & HQ & HR & _).
      pose proof B as [Hok Hsz Hord].
      assert (Hsz' : (N.of_nat (length (encode rs)) <= in_buf_len)%N) by (unfold in_buf_len; lia).
      assert (Hrd : read_gives s ke tr rs) by (unfold read_gives; cbn [os_read system]; rewrite Hfd, reading_ours; split; assumption).
      destruct (in_recv_batch s false ke tr rs Hok Hsz' Hrd Hord (fun _ => L)) as (o & ke' & known' & E & Hba & Hk).
      destruct (in_recv_recs s ke tr rs Hok Hsz' Hrd) as (o1 & dm' & E1 & ER). rewrite E in ER. injection ER as Eo _.
      exists o, ke'. split; [exact E|]. split; [apply in_recv_fd in E; congruence|]. set (x := ORead _ _) in *. rewrite Hfd in E1.
      pose proof (recs_run_no_read s (e_fd e) rs (kin_dm ke) (tr ++ [x])) as Hnr. rewrite E1 in Hnr. cbn [fst] in Hnr.
      pose proof (val_recs rs (kin_dm ke) (tr ++ [x])) as Hv. rewrite E1 in Hv. cbn [fst] in Hv.
      destruct (given_seg o1 (tr ++ [x]) Hv Hnr) as [ERd EG].
      assert (ES : state e (tr ++ [x]) = snd (reading (e_want e tr) (at_call e tr))) by (rewrite state_snoc; cbn [effect_on x]; now rewrite Hfd, reading_ours).
      assert (Egx : G (tr ++ [x]) = G tr). { rewrite ES, <- at_given. unfold reading. rewrite Q. reflexivity. }
      rewrite ES, HR, at_read in ERd. rewrite Egx in EG.
      assert (Eo' : tr ++ o = (tr ++ [x]) ++ o1) by (rewrite Eo, <- app_assoc; reflexivity).
      assert (Ei : items o = items o1) by (rewrite Eo; reflexivity).
      pose proof (batch_learn _ _ _ _ _ _ Hba) as HL. destruct A as [A0 An Aal A1 A2 A3].
      pose proof (kinv_state ((tr ++ [x]) ++ o1)) as KI.
      assert (Hknown : forall wd d, In (wd, d) (G ((tr ++ [x]) ++ o1)) -> known' wd = Some d \/ deleted_in (R tr) wd).
      { intros wd d H. pose proof H as H0. apply EG in H as [H|H].
        - apply A2 in H as [H|H]; auto. left. rewrite HL. now apply learn_all_more.
        - rewrite <- Ei in H. destruct (learn_all_has (items o) (fun k => zfind k (kin_dm ke)) wd d H) as (d' & Ed). left. rewrite HL, Ed. f_equal.
          apply (ki_fun _ KI wd); auto. apply EG. apply learn_all_from in Ed as [Ed|Ed]; [left; auto|right; now rewrite <- Ei]. }
      assert (Hold : forall n, In n rs -> effect_of (k_kind n) <> None -> exists p, zfind (k_wd n) (kin_dm ke) = Some p /\ In (k_wd n, p) (G ((tr ++ [x]) ++ o1))).
      { intros n Hn He. pose proof (kinv_at tr) as KA.
        assert (Hs : sofar (at_call e tr) = R tr ++ rs ++ kn_queue (snd (reading (e_want e tr) (at_call e tr)))) by (unfold sofar; now rewrite at_read, <- HQ).
        pose proof (ki_wds _ KA) as W. rewrite Forall_forall in W. destruct (W n) as (p & Hp); [rewrite Hs; apply in_app_iff; right; apply in_app_iff; now left|].
        rewrite at_given in Hp. exists p. split; [|apply EG; now left]. destruct (A2 _ _ Hp) as [H|(m & Hm & Km & Wm)]; [exact H|exfalso].
        apply in_split in Hm as (y & z & Hm). assert (Hs' : sofar (at_call e tr) = y ++ m :: (z ++ rs ++ kn_queue (snd (reading (e_want e tr) (at_call e tr))))) by (rewrite Hs, Hm, <- app_assoc; reflexivity).
        destruct (ki_dead _ KA y m _ Hs' Km) as [_ D]. rewrite Forall_forall in D. apply He, (D n); [|congruence].
        apply in_app_iff. right. apply in_app_iff. now left. }
      assert (Told : grp (G (tr ++ o)) (R tr ++ rs) (fs_shapes (tr ++ o))).
      { rewrite fs_shapes_app. apply grp_app.
        * eapply grp_more; [|exact A3]. intros [w p] H. rewrite Eo'. apply EG. now left.
        * rewrite fs_items. rewrite Eo'. eapply batch_grp; [exact Hba|exact (ki_fun _ KI)|exact L|].
          apply Forall_forall. exact Hold. }
      rewrite Eo'. constructor.
      + apply answers_app. split; [apply answers_app; split; [exact A0|split; exact Coq.Init.Logic.I]|exact Hv].
      + intros n p Hin Kc Kd HG. rewrite ERd in Hin. rewrite <- Eo', items_app. apply attempted_app. apply in_app_iff in Hin as [Hin|Hin].
        * left. apply An; auto. destruct (ki_wds_read tr n Hin) as (p' & Hp'). replace p with p'; [exact Hp'|]. apply (ki_fun _ KI (k_wd n)); auto. apply EG. now left.
        * right. destruct (Hold n Hin) as (p' & Hp' & HG'); [rewrite Kc; discriminate|]. rewrite (ki_fun _ KI _ _ _ HG HG'). eapply batch_new; eauto.
      + intros a b Eab. rewrite <- app_assoc in Eab. apply app_split in Eab as [(b' & -> & _)|(o2 & -> & Eb)]; [eapply Aal; reflexivity|].
        destruct o2 as [|y o2]; [exists []; rewrite !app_nil_r; exact A3|]. cbn in Eb. injection Eb as <- Eb.
        assert (Hv2 : answers (tr ++ [x]) o2) by (rewrite Eb in Hv; now apply answers_app in Hv as [Hv _]).
        assert (Hn2 : Forall no_read o2) by (rewrite Eb in Hnr; now apply Forall_app in Hnr as [Hnr _]).
        destruct (given_seg o2 (tr ++ [x]) Hv2 Hn2) as [ER2 EG2]. rewrite ES, HR, at_read in ER2. rewrite Egx in EG2.
        replace (tr ++ x :: o2) with ((tr ++ [x]) ++ o2) by (rewrite <- app_assoc; reflexivity).
        exists (fs_shapes b). rewrite <- fs_shapes_app, ER2.
        replace (((tr ++ [x]) ++ o2) ++ b) with (tr ++ o) by (rewrite Eo, Eb, <- !app_assoc; reflexivity).
        eapply grp_less; [exact Told|]. intros r0 p Hr0 Hp. apply EG2. left.
        assert (W : exists p', In (k_wd r0, p') (G tr)).
        { pose proof (ki_wds _ (kinv_at tr)) as W. rewrite Forall_forall in W. rewrite <- at_given. apply W. unfold sofar. rewrite at_read, HQ. rewrite !in_app_iff in *. tauto. }
        destruct W as (p' & W). replace p with p'; [exact W|]. apply (ki_fun _ KI (k_wd r0)); [apply EG; now left|now rewrite <- Eo'].
      + intros wd d. rewrite Hk. unfold forget_deleted. destruct (existsb _ _); [discriminate|]. rewrite HL. intros H.
        apply EG. apply learn_all_from in H as [H|H]; auto. right. now rewrite <- Ei.
      + intros wd d H. rewrite ERd, Hk. unfold forget_deleted. destruct (existsb _ rs) eqn:X.
        * right. apply existsb_exists in X as (n & Hn & Hb). apply andb_true_iff in Hb as [Hb1 Hb2]. apply Z.eqb_eq in Hb1.
          exists n. split; [apply in_app_iff; now right|]. split; [destruct (k_kind n); congruence|exact Hb1].
        * destruct (Hknown wd d H) as [Hd|(n & Hn & Hn')]; [now left|right; exists n; split; [apply in_app_iff; now left|exact Hn']].
      + rewrite ERd, <- Eo'. exact Told.
  Qed.
  Lemma ai_ready il : forall fds ok ke tr, kin_fd ke = e_fd e -> ai tr (fun k => zfind k (kin_dm ke)) ->
    exists o ok' ke', each_ready kin kin_fd (in_recv s) il fds ok ke tr = (o, Ok (ok', ke')) /\ kin_fd ke' = e_fd e /\ ai (tr ++ o) (fun k => zfind k (kin_dm ke')).
  Proof.
    induction fds as [|fd fds IH]; intros ok ke tr Hfd A; cbn [each_ready].
    - exists [], ok, ke. rewrite app_nil_r. auto.
    - destruct (fd =? il)%Z; [now apply IH|]. destruct (fd =? kin_fd ke)%Z; [|now apply IH].
      destruct (ai_recv ke tr Hfd A) as (o1 & ke1 & E1 & F1 & A1). destruct (IH r_pending ke1 _ F1 A1) as (o2 & ok2 & ke2 & E2 & F2 & A2).
      exists (o1 ++ o2), ok2, ke2. split; [now rewrite (bind_ok_eq _ _ _ _ _ _ _ E1 E2)|]. split; [exact F2|now rewrite app_assoc].
  Qed.
  Lemma ai_quiet tr o known : Forall calm o -> Forall no_read o -> fs_shapes o = [] -> ai tr known -> ai (tr ++ o) known.
  Proof.
    intros Hc Hr Hf A. pose proof (ai_seg tr o known (calm_answers o Hc tr) Hr Hf A) as B. eapply ai_same; [|exact B].
    intros k. clear -Hc. revert known. induction Hc as [|x o H _ IH]; intros known; [reflexivity|]. destruct x; cbn [items learn_all]; try exact (IH known). contradiction.
  Qed.
  Lemma ai_loop il : forall fuel ep ok ke tr, kin_fd ke = e_fd e -> ai tr (fun k => zfind k (kin_dm ke)) ->
    exists o r, ep_loop s kin kin_fd (in_recv s) il fuel ep ok ke tr = (o, r) /\ exists known, ai (tr ++ o) known.
  Proof.
    induction fuel as [|n IH]; intros ep ok ke tr Hfd A; cbn [ep_loop].
    { exists [], Fuel. split; [reflexivity|]. rewrite app_nil_r. eauto. }
    destruct (negb (r_lt ok r_complete)).
    { exists [], (Ok (ok, ke)). split; [reflexivity|]. rewrite app_nil_r. eauto. }
    unfold bind at 1, epoll_wait. set (w := os_epoll_wait s tr ep). set (x := OEpollWait ep w).
    assert (A' : ai (tr ++ [x]) (fun k => zfind k (kin_dm ke))) by (apply ai_quiet; auto; repeat constructor).
    destruct w as [fds|].
    - destruct (ai_ready il (firstn 64 fds) ok ke _ Hfd A') as (o1 & ok1 & ke1 & E1 & F1 & A1).
      destruct (IH ep ok1 ke1 _ F1 A1) as (o2 & r2 & E2 & known & A2). rewrite (bind_ok_eq _ _ _ _ _ _ _ E1 E2).
      do 2 eexists. split; [reflexivity|]. exists known. rewrite <- !app_assoc in A2. exact A2.
    - destruct (IH ep r_e_sys_api_epoll ke _ Hfd A') as (o2 & r2 & E2 & known & A2). rewrite E2.
      do 2 eexists. split; [reflexivity|]. exists known. rewrite <- app_assoc in A2. exact A2.
  Qed.

  Lemma ai_nil : ai [] nowhere.
  Proof.
    destruct start as (d & f & E). constructor; unfold state; cbn [rev state_rev]; rewrite ?E; cbn; try contradiction; [exact Coq.Init.Logic.I| |discriminate|constructor].
    intros a b H. symmetry in H. apply app_eq_nil in H as [-> ->]. exists []. cbn. rewrite E. constructor.
  Qed.
  Lemma start_fs o : Forall start_obs o -> fs_shapes o = [].
  Proof.
    induction 1 as [|x o H _ IH]; [reflexivity|]. change (x :: o) with ([x] ++ o). rewrite fs_shapes_app, IH. destruct x; try reflexivity.
    cbn in H. destruct H as (q & H). unfold fs_shapes. cbn. rewrite H. reflexivity.
  Qed.
  Lemma ai_run fuel path il tr : ai tr nowhere ->
    exists o r, run_inotify s fuel path il tr = (o, r) /\ exists known, ai (tr ++ o) known.
  Proof.
    intros A0. unfold run_inotify, platform_watch. unfold bind at 1.
    pose proof (in_make_start s fuel path il tr) as Hst. pose proof (val_make fuel path il tr) as Hv.
    destruct (in_make_sysres s fuel path il tr) as [a ra] eqn:Ea. cbn [fst] in Hst, Hv.
    pose proof (ai_seg tr a nowhere Hv (start_no_read _ Hst) (start_fs _ Hst) A0) as A1.
    destruct ra as [[[ok ke] ep]|u| |]; try (do 2 eexists; split; [reflexivity|]; eexists; exact A1).
    pose proof (in_make_fd fuel path il tr) as Hfd. specialize (Hfd _ _ _ _ Ea). apply in_make_learn in Ea as [Hl _].
    assert (A2 : ai (tr ++ a) (fun k => zfind k (kin_dm ke))). { eapply ai_same; [|exact A1]. intros k. symmetry. apply Hl. }
    unfold bind at 1. destruct (ai_loop il fuel ep ok ke _ Hfd A2) as (b & r & Eb & known & A3). rewrite Eb. rewrite <- app_assoc in A3.
    destruct r as [[ok' ke']|u| |]; try (do 2 eexists; split; [reflexivity|]; exists known; exact A3).
    cbn. do 2 eexists. split; [reflexivity|]. exists known. rewrite !app_assoc in *. apply ai_quiet; auto; repeat constructor.
  Qed.
  Lemma ai_watch fuel path il : (forall tr, os_geteuid s tr <> 0%Z) -> exists known, ai (fst (linux_watch s fuel path il [])) known.
  Proof.
    intros Hu. unfold linux_watch. unfold bind at 1. unfold try_fanotify. unfold bind at 1, geteuid.
    destruct (Z.eqb_spec (os_geteuid s []) 0) as [H0|_]; [now apply Hu in H0|].
    cbn [app ret r_eqb code N.eqb Pos.eqb]. set (g := OGeteuid (os_geteuid s [])).
    assert (A0 : ai [g] nowhere) by (apply (ai_quiet [] [g] nowhere); try apply ai_nil; repeat constructor).
    destruct (ai_run fuel path il _ A0) as (o & r & E & known & A). unfold bind at 1. rewrite E. exists known.
    destruct r as [r|u| |]; try exact A. destruct (r_ge r r_e).
    - cbn.
      rewrite app_comm_cons. apply ai_quiet; auto; repeat constructor.
    - cbn. rewrite app_nil_r. exact A.
  Qed.
End Env.

(** What becomes of overflow records (C25), and of directories that move (C20). *)
From Verif Require Import Base PathModel EventModel Sys SysFacts LinuxModel InotifyModel
  FanotifyModel LinuxWatch LinuxSpec LinuxFacts LinuxRun LinuxProps InotifySpec InotifyFacts InotifyRun
  InotifyClaims InotifyTree.

Definition positive (known : dirs) : Prop := forall k d, known k = Some d -> (0 < k)%Z.

Lemma learn_positive known wd d : positive known -> (0 < wd)%Z -> positive (learn known wd d).
Proof.
  intros H Hwd k e. unfold learn. destruct (known k) eqn:E; [intros _; eapply H, E|].
  destruct (Z.eqb_spec k wd); [|discriminate]. lia.
Qed.
Lemma learn_all_positive is : forall known, positive known -> (forall wd d, In (Marked wd d) is -> (0 < wd)%Z) ->
  positive (learn_all known is).
Proof.
  induction is as [|[x|wd d] is IH]; intros known H Hp; cbn; auto.
  - apply IH; [exact H|]. intros w e Hi; apply (Hp w e); now right.
  - apply IH; [apply learn_positive; [exact H|apply (Hp wd d); now left]|]. intros w e Hi; apply (Hp w e); now right.
Qed.
Lemma batch_positive s loose known rs is known' : batch s loose known rs is known' -> positive known ->
  (forall wd d, In (Marked wd d) is -> (0 < wd)%Z) -> positive known'.
Proof.
  intros Hb Hp Hm k d Hk. rewrite (batch_learn _ _ _ _ _ _ Hb k) in Hk.
  eapply learn_all_positive; eassumption.
Qed.
Lemma forget_positive rs known : positive known -> positive (forget_deleted rs known).
Proof. intros H k d. unfold forget_deleted. destruct (existsb _ _); [discriminate|]. apply H. Qed.

(** The kernel sends overflow records with descriptor -1. *)
Definition overflow_nameless (rs : list krec) : Prop :=
  forall r, In r rs -> k_kind r = KOverflow -> k_wd r = (-1)%Z.

Definition is_overflow_warning (sh : shape) : Prop := exists d, sh = warning "w/sys/q_overflow@" d.

Lemma batch_no_overflow s loose known rs is known' : batch s loose known rs is known' -> positive known ->
  overflow_nameless rs -> forall sh, In (Shown sh) is -> ~ is_overflow_warning sh.
Proof.
  unfold is_overflow_warning, warning.
  induction 1 as [|known r rs is known' Hw Hb IH|known d r rs is known' Hw Hk Hb IH|known d r rs is known' Hw He Ho Hb IH|known d d' r n rs is known' Hp Hw Hw' Hb IH|known d r rs ms is known1 known' Hw Hk Hd Hm Hb IH|known d f r rs is known' Hw He Hn Hp Hb IH]; intros Hpos Hov sh Hin.
  - destruct Hin.
  - destruct Hin as [[= <-]|Hin]; [intros [q Hq]; discriminate|]. apply (IH Hpos); [|exact Hin]. intros x Hx. apply Hov. now right.
  - exfalso. apply Hpos in Hw. rewrite (Hov r (or_introl eq_refl) Hk) in Hw. lia.
  - apply (IH Hpos); [|exact Hin]. intros x Hx. apply Hov. now right.
  - destruct Hin as [[= <-]|Hin].
    + intros [q Hq]. injection Hq as _ _ Hq _. unfold type_of in Hq. destruct (k_dir r); discriminate.
    + apply (IH Hpos); [|exact Hin]. intros x Hx. apply Hov. now right; right.
  - apply in_app_or in Hin as [Hin|[[= <-]|Hin]].
    + destruct Hm as [wd real Hwd Hr|]; destruct Hin as [Hin|[]]; [discriminate|]. injection Hin as <-.
      intros [q Hq]. discriminate.
    + intros [q Hq]. discriminate.
    + apply IH; [|intros x Hx; apply Hov; now right|exact Hin].
      destruct Hm as [wd real Hwd Hr|]; [now apply learn_positive|exact Hpos].
  - destruct Hin as [[= <-]|Hin].
    + intros [q Hq]. injection Hq as _ _ Hq. unfold type_of in Hq. destruct (k_dir r); discriminate.
    + apply (IH Hpos); [|exact Hin]. intros x Hx. apply Hov. now right.
Qed.

Lemma session_no_overflow s loose known rss is : session s loose known rss is -> positive known ->
  (forall wd d, In (Marked wd d) is -> (0 < wd)%Z) -> Forall overflow_nameless rss ->
  forall sh, In (Shown sh) is -> ~ is_overflow_warning sh.
Proof.
  induction 1 as [|known rs rss is is' known' Hb Hs IH]; intros Hp Hm Ho sh Hin; [destruct Hin|].
  inversion Ho as [|? ? Ho1 Ho2]; subst. apply in_app_or in Hin as [Hin|Hin].
  - eapply batch_no_overflow; eassumption.
  - apply IH; auto.
    + apply forget_positive. eapply batch_positive; [eassumption|exact Hp|].
      intros wd d H. apply (Hm wd d). apply in_or_app. now left.
    + intros wd d H. apply (Hm wd d). apply in_or_app. now right.
Qed.

Lemma batch_overflow_phantom s loose known r rs is known' : batch s loose known (r :: rs) is known' ->
  known (k_wd r) = None -> exists is', is = Shown (warning "w/sys/phantom@" []) :: is' /\ batch s loose known rs is' known'.
Proof. intros H Hk. inversion H; subst; try congruence. eauto. Qed.

(** Every batch of a session is processed from some state of knowledge. *)
Lemma session_at s loose known rss is : session s loose known rss is -> positive known ->
  (forall wd d, In (Marked wd d) is -> (0 < wd)%Z) ->
  forall a rs b, rss = a ++ rs :: b ->
  exists known1 known2 is1 is2 is3, is = is1 ++ is2 ++ is3 /\ positive known1 /\ batch s loose known1 rs is2 known2.
Proof.
  induction 1 as [|known rs0 rss is is' known' Hb Hs IH]; intros Hp Hm a rs b E; [destruct a; discriminate|].
  destruct a as [|x a]; injection E as -> E.
  - exists known, known', [], is, is'. auto.
  - destruct (IH) with (a := a) (rs := rs) (b := b) as (k1 & k2 & i1 & i2 & i3 & -> & H1 & H2); auto.
    + apply forget_positive. eapply batch_positive; [eassumption|exact Hp|].
      intros wd d H. apply (Hm wd d). apply in_or_app. now left.
    + intros wd d H. apply (Hm wd d). apply in_or_app. now right.
    + exists k1, k2, (is ++ i1), i2, i3. split; [now rewrite <- app_assoc|]. auto.
Qed.

Lemma shown_callback o sh : In (Shown sh) (items o) <-> exists e, In (OCallback e) o /\ shape_of e = sh.
Proof.
  induction o as [|x o IH]; [split; [intros []|intros (e & [] & _)]|].
  assert (Hoth : forall y, (forall e, y <> OCallback e) ->
    (In (Shown sh) (items o) <-> exists e, In (OCallback e) (y :: o) /\ shape_of e = sh)).
  { intros y Hy. rewrite IH. split; intros (e & H & He); exists e; split; auto; [now right|].
    destruct H as [H|H]; [now apply Hy in H|exact H]. }
  destruct x; cbn [items]; try (apply Hoth; discriminate).
  - cbn [In]. rewrite IH. split.
    + intros [[= <-]|(e' & H & He)]; [exists e; auto|exists e'; auto].
    + intros (e' & [[= <-]|H] & He); [left; congruence|right; eauto].
  - destruct (0 <? wd)%Z; [|apply Hoth; discriminate].
    cbn [In]. rewrite (Hoth (OAddWatch fd p mask wd)) by discriminate. split; [intros [[=]|H]; exact H|auto].
Qed.

(** ** The bytes of a batch determine its records *)
Lemma le_bytes_inj n : forall a b, (a < 2 ^ N.of_nat (8 * n))%N -> (b < 2 ^ N.of_nat (8 * n))%N ->
  le_bytes n a = le_bytes n b -> a = b.
Proof.
  induction n as [|n IH]; intros a b Ha Hb E.
  - change (2 ^ N.of_nat (8 * 0))%N with 1%N in *. lia.
  - cbn [le_bytes] in E. injection E as E1 E2.
    assert (Hp : (2 ^ N.of_nat (8 * S n) = 256 * 2 ^ N.of_nat (8 * n))%N).
    { replace (N.of_nat (8 * S n)) with (8 + N.of_nat (8 * n))%N by lia. now rewrite N.pow_add_r. }
    rewrite Hp in *.
    apply IH in E2; [|apply N.div_lt_upper_bound; lia..].
    rewrite (N.div_mod a 256), (N.div_mod b 256) by lia. now rewrite E1, E2.
Qed.

Lemma app_inj_len {A} (a a' b b' : list A) : length a = length a' -> a ++ b = a' ++ b' -> a = a' /\ b = b'.
Proof.
  revert a'. induction a as [|x a IH]; intros [|y a'] Hl E; try discriminate; [auto|].
  cbn in *. injection E as -> E. apply IH in E as [-> ->]; auto.
Qed.

Lemma le_bytes_len n v : length (le_bytes n v) = n.
Proof. revert v. induction n; intros; cbn; auto. Qed.

Lemma name_pad_inj (n n' : text) p p' :
  Forall (fun b => b <> 0 /\ b <> 47)%N n -> Forall (fun b => b <> 0 /\ b <> 47)%N n' ->
  n ++ repeat 0%N p = n' ++ repeat 0%N p' -> n = n' /\ p = p'.
Proof.
  intros H. revert n'. induction H as [|x n [Hx _] _ IH]; intros n' H' E.
  - destruct n' as [|y n']; cbn in E.
    + split; [reflexivity|]. apply (f_equal (@length N)) in E. now rewrite !repeat_length in E.
    + inversion H' as [|? ? [Hy _] _]; subst. destruct p; [discriminate|]. injection E as E _. congruence.
  - inversion H' as [|y n2 [Hy _] Hn2]; subst; cbn in E.
    + destruct p'; [discriminate|]. injection E as E _. congruence.
    + injection E as -> E. apply IH in E as [-> ->]; auto.
Qed.

Lemma encode_rec_inj r r' x x' : krec_ok r -> krec_ok r' ->
  encode_rec r ++ x = encode_rec r' ++ x' -> r = r' /\ x = x'.
Proof.
  intros H H' E. unfold encode_rec in E. rewrite <- !app_assoc in E.
  apply app_inj_len in E as [E1 E]; [|now rewrite !le_bytes_len].
  apply app_inj_len in E as [E2 E]; [|now rewrite !le_bytes_len].
  apply app_inj_len in E as [E3 E]; [|now rewrite !le_bytes_len].
  apply app_inj_len in E as [E4 E]; [|now rewrite !le_bytes_len].
  destruct H as [Hwd Hc Hl Hn _ _]. destruct H' as [Hwd' Hc' Hl' Hn' _ _].
  apply le_bytes_inj in E4; [|assumption..].
  rewrite !app_assoc in E. apply app_inj_len in E as [E5 ->]; [|rewrite !app_length, !repeat_length; lia].
  apply name_pad_inj in E5 as [E5 E6]; [|assumption..].
  apply le_bytes_inj in E3; [|assumption..].
  assert (Hm : forall r, (k_mask r < 4294967296)%N).
  { intros q. unfold k_mask. destruct (k_kind q), (k_dir q); cbn; lia. }
  apply le_bytes_inj in E2; [|apply Hm..].
  apply le_bytes_inj in E1.
  2-3: unfold of_i32; match goal with |- context [(?z <? 0)%Z] => destruct (Z.ltb_spec z 0) end; change (2 ^ N.of_nat (8 * 4))%N with 4294967296%N; lia.
  split; [|reflexivity].
  assert (Ewd : k_wd r = k_wd r').
  { unfold of_i32 in E1. destruct (Z.ltb_spec (k_wd r) 0), (Z.ltb_spec (k_wd r') 0); lia. }
  assert (Ek : k_kind r = k_kind r' /\ k_dir r = k_dir r').
  { unfold k_mask in E2. destruct (k_kind r), (k_kind r'), (k_dir r), (k_dir r'); cbn in E2; try discriminate; auto. }
  destruct r, r'; cbn in *. destruct Ek. now subst.
Qed.

Lemma encode_inj rs : forall rs', Forall krec_ok rs -> Forall krec_ok rs' -> encode rs = encode rs' -> rs = rs'.
Proof.
  assert (Hne : forall r, encode_rec r <> []) by (intros r; unfold encode_rec; cbn; discriminate).
  induction rs as [|r rs IH]; intros [|r' rs'] H H' E; [reflexivity| | |].
  - cbn [encode flat_map] in E. symmetry in E. apply app_eq_nil in E as [E _]. now apply Hne in E.
  - cbn [encode flat_map] in E. apply app_eq_nil in E as [E _]. now apply Hne in E.
  - cbn [encode flat_map] in E. inversion H; subst. inversion H'; subst.
    apply encode_rec_inj in E as [-> E]; [|assumption..]. f_equal. now apply IH.
Qed.

Lemma gave_unique o rss rss' : gave o rss -> gave o rss' -> rss = rss'.
Proof.
  intros [E H] [E' H']. rewrite E in E'. clear E. revert rss' H' E'.
  induction H as [|rs rss Hrs _ IH]; intros [|rs' rss'] H' E; try discriminate; [reflexivity|].
  cbn in E. injection E as E1 E2. inversion H'; subst. f_equal; [|now apply IH].
  apply encode_inj; [apply Hrs|apply H1|exact E1].
Qed.

Section Whole.
  Variable s : os.
  Hypothesis Hu : forall t, os_geteuid s t <> 0%Z.

  Lemma start_positive a : positive (learn_all nowhere (items a)).
  Proof. apply learn_all_positive; [intros k d [=]|]. intros; eapply items_marked_pos; eassumption. Qed.

  Lemma linux_watch_no_overflow loose fuel path il tr rss e :
    inotify_kernel loose s ->
    gave (fst (linux_watch s fuel path il tr)) rss -> Forall overflow_nameless rss ->
    In (OCallback e) (fst (linux_watch s fuel path il tr)) -> ~ is_overflow_warning (shape_of e).
  Proof.
    intros HK Hg Hov Hin.
    destruct (linux_watch_session s loose fuel path il tr Hu HK) as (a & b & c & r & rss' & E & _ & Hma & Hra & Hb & Hrc & Hs & Hc & _).
    rewrite E in *. cbn [fst] in *.
    assert (Hov' : Forall overflow_nameless rss').
    { replace rss' with rss; [exact Hov|]. eapply gave_unique; [exact Hg|]. destruct Hb as [Hb1 Hb2]. split; [|exact Hb2]. rewrite !reads_app, Hra, Hrc, Hb1. cbn. apply app_nil_r. }
    rewrite !in_app_iff in Hin. destruct Hin as [Hin|[Hin|Hin]].
    - destruct (Hma e Hin) as [q ->]. unfold is_overflow_warning, warning. intros [d Hd]. discriminate.
    - eapply session_no_overflow; [exact Hs|apply start_positive|intros; eapply items_marked_pos; eassumption|exact Hov'|].
      apply shown_callback. eauto.
    - assert (Hi : In (Shown (shape_of e)) (items c)) by (apply shown_callback; eauto).
      destruct Hc as [[Hc _]|(e' & Hc & _ & [Hf _] & _)]; rewrite Hc in Hi; [destruct Hi|].
      destruct Hi as [[= Hi]|[]]. rewrite <- Hi. destruct Hf as (_ & _ & _ & rest & Hr).
      destruct e' as [p f t tm aa]. cbn in Hr |- *. intros [d Hd]. unfold warning in Hd. injection Hd as Hd _ _ _.
      rewrite Hr in Hd. discriminate.
  Qed.

  Lemma linux_watch_overflow_phantom loose fuel path il tr rss a rs b r :
    inotify_kernel loose s ->
    gave (fst (linux_watch s fuel path il tr)) rss -> rss = a ++ rs :: b -> In r rs -> k_wd r = (-1)%Z ->
    k_kind r = KOverflow ->
    exists e, In (OCallback e) (fst (linux_watch s fuel path il tr)) /\ shape_of e = warning "w/sys/phantom@" [].
  Proof.
    intros HK Hg Ers Hr Hwd Hk.
    destruct (linux_watch_session s loose fuel path il tr Hu HK) as (oa & ob & oc & res & rss' & E & _ & Hma & Hra & Hb & Hrc & Hs & Hc & _).
    rewrite E in *. cbn [fst] in *.
    assert (rss' = rss).
    { eapply gave_unique; [|exact Hg]. destruct Hb as [Hb1 Hb2]. split; [|exact Hb2]. rewrite !reads_app, Hra, Hrc, Hb1. cbn. apply app_nil_r. }
    subst rss'.
    destruct (session_at _ _ _ _ _ Hs (start_positive _) (fun wd d => items_marked_pos ob wd d) a rs b Ers)
      as (k1 & k2 & i1 & i2 & i3 & Ei & Hp & Hbat).
    apply in_split in Hr as (ra & rb & ->).
    destruct (batch_split _ _ _ _ _ _ Hbat ra (r :: rb) eq_refl) as (j1 & j2 & km & B1 & B2 & ->).
    { intros (n & l & [= <- <-] & Hn). congruence. }
    apply batch_overflow_phantom in B2 as (is' & -> & _).
    2:{ destruct (km (k_wd r)) eqn:Ek; [|reflexivity]. exfalso.
        assert (Hpm : positive km).
        { eapply batch_positive; [exact B1|exact Hp|]. intros wd d H. apply (items_marked_pos ob wd d). rewrite Ei.
          rewrite !in_app_iff. auto. }
        apply Hpm in Ek. lia. }
    assert (Hsh : In (Shown (warning "w/sys/phantom@" [])) (items ob)).
    { rewrite Ei, !in_app_iff. cbn. auto. }
    apply shown_callback in Hsh as (e & He & Es). exists e. split; [|exact Es]. rewrite !in_app_iff. auto.
  Qed.
End Whole.

(** ** A record in the middle of a run *)

(** The directory of descriptor [k] was deleted in one of the batches. *)
Definition deleted_in (k : Z) (rss : list (list krec)) : Prop :=
  exists rs r, In rs rss /\ In r rs /\ k_kind r = KDeleteSelf /\ k_wd r = k.

(** [known'] is [known] plus the directories marked in [is], minus those deleted in [rss]. *)
Definition tracks (known : dirs) (rss : list (list krec)) (is : list item) (known' : dirs) : Prop :=
  forall k,
    (forall d, known' k = Some d -> known k = Some d \/ In (Marked k d) is) /\
    (known' k = None -> (known k = None /\ forall d, ~ In (Marked k d) is) \/ deleted_in k rss).

Lemma learn_all_keeps is : forall known k d, known k = Some d -> learn_all known is k = Some d.
Proof.
  induction is as [|[x|wd e] is IH]; intros known k d H; cbn [learn_all]; auto.
  apply IH. unfold learn. now rewrite H.
Qed.
Lemma learn_all_has is : forall known k d, In (Marked k d) is -> learn_all known is k <> None.
Proof.
  induction is as [|[x|wd e] is IH]; intros known k d H; cbn [learn_all]; [destruct H| |].
  - destruct H as [[=]|H]. eauto.
  - destruct H as [[= -> ->]|H]; [|eauto].
    unfold learn at 1. intros Hn.
    destruct (known k) eqn:E.
    + rewrite (learn_all_keeps is _ k t) in Hn; [discriminate|]. now rewrite E.
    + rewrite (learn_all_keeps is _ k d) in Hn; [discriminate|]. now rewrite E, Z.eqb_refl.
Qed.
Lemma learn_all_from is : forall known k d, learn_all known is k = Some d -> known k = Some d \/ In (Marked k d) is.
Proof.
  induction is as [|[x|wd e] is IH]; intros known k d H; cbn [learn_all] in H; auto.
  - apply IH in H as [H|H]; [auto|right; now right].
  - apply IH in H as [H|H]; [|right; now right]. unfold learn in H. destruct (known k); [auto|].
    destruct (Z.eqb_spec k wd); [|discriminate]. injection H as ->. subst. right. now left.
Qed.

Lemma batch_tracks s loose known rs is known' : batch s loose known rs is known' -> tracks known [] is known'.
Proof.
  intros Hb k. split.
  - intros d H. rewrite (batch_learn _ _ _ _ _ _ Hb k) in H. now apply learn_all_from.
  - intros H. rewrite (batch_learn _ _ _ _ _ _ Hb k) in H. left. split.
    + destruct (known k) eqn:E; [|reflexivity]. rewrite (learn_all_keeps _ _ _ _ E) in H. discriminate.
    + intros d Hin. now apply (learn_all_has _ known) in Hin.
Qed.

Lemma tracks_trans a p1 i1 b p2 i2 c : tracks a p1 i1 b -> tracks b p2 i2 c -> tracks a (p1 ++ p2) (i1 ++ i2) c.
Proof.
  intros H1 H2 k. destruct (H1 k) as [A1 A2], (H2 k) as [B1 B2]. split.
  - intros d H. apply B1 in H as [H|H]; [|right; apply in_or_app; auto]. apply A1 in H as [H|H]; [auto|right; apply in_or_app; auto].
  - assert (Hd : forall p q, deleted_in k p \/ deleted_in k q -> deleted_in k (p ++ q)).
    { intros p q [(rs & r & H & R)|(rs & r & H & R)]; exists rs, r; (split; [apply in_or_app; auto|exact R]). }
    intros H. apply B2 in H as [[H Hn]|H]; [|right; apply Hd; auto].
    apply A2 in H as [[H Hn']|H]; [|right; apply Hd; auto]. left. split; [exact H|].
    intros d Hin. apply in_app_or in Hin as [Hin|Hin]; [eapply Hn', Hin|eapply Hn, Hin].
Qed.

Lemma forget_tracks rs known : tracks known [rs] [] (forget_deleted rs known).
Proof.
  intros k. unfold forget_deleted. destruct (existsb _ rs) eqn:E.
  - split; [discriminate|]. intros _. right. apply existsb_exists in E as (r & Hin & H). apply andb_prop in H as [H1 H2].
    exists rs, r. split; [now left|]. split; [exact Hin|]. destruct (k_kind r); try discriminate. split; [reflexivity|]. lia.
  - split; [auto|]. intros H. left. split; [exact H|]. intros d [].
Qed.

Lemma session_split s loose known rss is : session s loose known rss is ->
  forall p rs q, rss = p ++ rs :: q ->
  exists is1 is2 is3 known1 known2, is = is1 ++ is2 ++ is3 /\ tracks known p is1 known1 /\ batch s loose known1 rs is2 known2.
Proof.
  induction 1 as [|known rs0 rss is is' known' Hb Hs IH]; intros p rs q E; [destruct p; discriminate|].
  destruct p as [|x p]; injection E as -> E.
  - exists [], is, is', known, known'. split; [reflexivity|]. split; [|exact Hb].
    intros k. split; [auto|]. intros H. left. split; [exact H|]. intros d [].
  - destruct (IH p rs q E) as (i1 & i2 & i3 & k1 & k2 & -> & Ht & Hb').
    exists (is ++ i1), i2, i3, k1, k2. split; [now rewrite <- app_assoc|]. split; [|exact Hb'].
    change (x :: p) with ([x] ++ p). eapply tracks_trans; [|exact Ht].
    change [x] with ([] ++ [x]). rewrite <- (app_nil_r is). eapply tracks_trans; [eapply batch_tracks, Hb|apply forget_tracks].
Qed.

Section At.
  Variable s : os.
  Hypothesis Hu : forall t, os_geteuid s t <> 0%Z.

  (** Any place in any batch of a run that is not between the halves of a rename:
      what is shown for the rest of the batch follows [batch], from a knowledge
      that tracks everything before. *)
  Lemma linux_watch_at loose fuel path il tr rss p rs q a b :
    inotify_kernel loose s ->
    gave (fst (linux_watch s fuel path il tr)) rss -> rss = p ++ rs :: q -> rs = a ++ b -> ~ moved_to_head b ->
    exists is1 is2 is3 known known',
      items (fst (linux_watch s fuel path il tr)) = is1 ++ is2 ++ is3 /\
      tracks nowhere p is1 known /\ batch s loose known b is2 known'.
  Proof.
    intros HK Hg Ers Ers' Hto.
    destruct (linux_watch_session s loose fuel path il tr Hu HK) as (oa & ob & oc & res & rss' & E & _ & Hma & Hra & Hb & Hrc & Hs & Hc & _).
    rewrite E in *. cbn [fst] in *.
    assert (rss' = rss).
    { eapply gave_unique; [|exact Hg]. destruct Hb as [Hb1 Hb2]. split; [|exact Hb2]. rewrite !reads_app, Hra, Hrc, Hb1. cbn. apply app_nil_r. }
    subst rss'.
    destruct (session_split _ _ _ _ _ Hs p rs q Ers) as (i1 & i2 & i3 & k1 & k2 & Ei & Ht & Hbat).
    destruct (batch_split _ _ _ _ _ _ Hbat a b Ers' Hto) as (j1 & j2 & km & B1 & B2 & ->).
    exists (items oa ++ i1 ++ j1), j2, (i3 ++ items oc), km, k2.
    split; [rewrite !items_app, Ei, <- !app_assoc; reflexivity|]. split; [|exact B2].
    replace p with ([] ++ p ++ []) by apply app_nil_r.
    eapply tracks_trans; [|eapply tracks_trans; [exact Ht|eapply batch_tracks, B1]].
    intros k. split.
    - intros d H. now apply learn_all_from.
    - intros H. left. split; [reflexivity|]. intros d Hin. now apply (learn_all_has _ nowhere) in Hin.
  Qed.
End At.

Section Source.
  Variable s : os.
  Hypothesis Hu : forall t, os_geteuid s t <> 0%Z.

  Lemma marked_in_dir o d : marked_in (items o) d -> marked_dir o d.
  Proof. intros (w & Hw & Hin). destruct (items_marked _ _ _ Hin) as (fd & mask & Hin'). exists fd, mask, w. auto. Qed.
  Lemma marked_dir_app o o' d : marked_dir o d \/ marked_dir o' d -> marked_dir (o ++ o') d.
  Proof. intros [(f & m & w & H & Hw)|(f & m & w & H & Hw)]; exists f, m, w; (split; [apply in_or_app; auto|exact Hw]). Qed.

  Lemma linux_watch_source loose fuel path il tr o1 e o2 :
    inotify_kernel loose s ->
    fst (linux_watch s fuel path il tr) = o1 ++ OCallback e :: o2 -> ~ is_message e ->
    exists rss rs r d, gave (fst (linux_watch s fuel path il tr)) rss /\ In rs rss /\ In r rs /\
      reports d r (shape_of e) /\ marked_dir o1 d.
  Proof.
    intros HK E Hm.
    destruct (linux_watch_session s loose fuel path il tr Hu HK) as (a & b & c & r & rss & Er & _ & Hma & Hra & Hb & Hrc & Hs & Hc & _).
    rewrite Er in E. cbn [fst] in E.
    assert (Hg : gave (a ++ b ++ c) rss).
    { destruct Hb as [Hb1 Hb2]. split; [|exact Hb2]. rewrite !reads_app, Hra, Hrc, Hb1. cbn. apply app_nil_r. }
    rewrite Er. cbn [fst].
    assert (Hna : ~ In (OCallback e) a).
    { intros Hin. destruct (Hma e Hin) as [q Hq]. apply Hm. destruct e. cbn in Hq. now injection Hq. }
    assert (Hnc : ~ In (OCallback e) c).
    { intros Hin. assert (Hi : In (Shown (shape_of e)) (items c)) by (apply shown_callback; eauto).
      destruct Hc as [[Hc _]|(e' & Hc & _ & [[Hf _] _] & _)]; rewrite Hc in Hi; [destruct Hi|].
      destruct Hi as [[= Hi]|[]]. apply Hm. destruct e, e'. cbn in *. injection Hi as _ _ Hi _. unfold is_message in *. cbn in *. congruence. }
    assert (Hsp : exists l l', b = l ++ OCallback e :: l' /\ o1 = a ++ l).
    { apply app_eq_app in E as (l & [(E1 & E2)|(E1 & E2)]).
      - destruct l as [|x l]; cbn in E2.
        + rewrite app_nil_r in E1. subst o1. destruct b as [|y b]; cbn in E2.
          * exfalso. apply Hnc. rewrite <- E2. now left.
          * injection E2 as <- E2. exists [], b. split; [reflexivity|now rewrite app_nil_r].
        + injection E2 as <- E2. exfalso. apply Hna. rewrite E1. apply in_or_app. right. now left.
      - symmetry in E2. symmetry in E2. apply app_eq_app in E2 as (l' & [(E3 & E4)|(E3 & E4)]).
        + destruct l' as [|x l']; cbn in E4.
          * exfalso. apply Hnc. rewrite <- E4. now left.
          * injection E4 as <- E4. exists l, l'. auto.
        + exfalso. apply Hnc. rewrite E4. apply in_or_app. right. now left. }
    destruct Hsp as (l & l' & -> & ->).
    assert (Hpos : forall wd d, In (Marked wd d) (items (l ++ OCallback e :: l')) -> (0 < wd)%Z) by (intros; eapply items_marked_pos; eassumption).
    rewrite items_app in Hs, Hpos. cbn [items] in Hs, Hpos.
    destruct (session_sources _ _ _ _ _ Hs Hpos _ _ _ eq_refl) as (rs & r0 & d & H1 & H2 & H3 & H4).
    { apply is_fs_event. exact Hm. }
    exists rss, rs, r0, d. split; [exact Hg|]. split; [exact H1|]. split; [exact H2|]. split; [exact H3|].
    apply marked_dir_app. destruct H4 as [[k Hk]|H4]; [left|right; now apply marked_in_dir].
    apply marked_in_dir. apply session_start_known in Hk. exact Hk.
  Qed.
End Source.

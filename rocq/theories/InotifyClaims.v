(** Consequences of the batch and session relations (C19-C27), and
    termination of a receive on arbitrary bytes. *)
From Verif Require Import Base PathModel EventModel Sys SysFacts LinuxModel InotifyModel
  FanotifyModel LinuxWatch LinuxSpec LinuxFacts LinuxRun LinuxProps InotifySpec InotifyFacts InotifyRun.

(** ** Termination of a receive, whatever the bytes *)
Definition stops {A} (m : M A) : Prop := forall tr, snd (m tr) <> Fuel.

Lemma stops_bind {A B} (m : M A) (k : A -> M B) : stops m -> (forall a, stops (k a)) -> stops (bind m k).
Proof.
  intros Hm Hk tr. unfold bind. specialize (Hm tr). destruct (m tr) as [o [a|u| |]]; cbn in *; try congruence.
  specialize (Hk a (tr ++ o)). destruct (k a (tr ++ o)). exact Hk.
Qed.
Lemma stops_ret {A} (a : A) : stops (ret a).
Proof. intros tr. discriminate. Qed.
Lemma stops_undef {A} u : stops (@undef A u).
Proof. intros tr. discriminate. Qed.
Lemma stops_word n b o : stops (word_at n b o).
Proof. intros tr. unfold word_at. destruct (Nat.eqb _ _); discriminate. Qed.
Lemma stops_byte b o : stops (byte_at b o).
Proof. intros tr. unfold byte_at. destruct (nth_error _ _); discriminate. Qed.
Lemma stops_cstr b o : stops (c_string b o).
Proof. intros tr. unfold c_string. destruct (c_string_in _); discriminate. Qed.

Ltac stop :=
  repeat match goal with
  | |- stops (ret _) => apply stops_ret
  | |- stops (undef _) => apply stops_undef
  | |- stops (word_at _ _ _) => apply stops_word
  | |- stops (byte_at _ _) => apply stops_byte
  | |- stops (c_string _ _) => apply stops_cstr
  | |- stops (bind _ _) => apply stops_bind; [|intros]
  | |- stops (if ?c then _ else _) => destruct c
  | |- stops (match ?x with _ => _ end) => destruct x
  | |- stops (now _) => intros tr; discriminate
  | |- stops (callback _) => intros tr; discriminate
  | |- stops (realpath _ _) => intros tr; discriminate
  | |- stops (stat_dir _ _) => intros tr; discriminate
  | |- stops (inotify_add_watch _ _ _ _) => intros tr; discriminate
  | |- stops (fanotify_mark _ _ _ _) => intros tr; discriminate
  | |- stops (sys_read _ _ _) => intros tr; discriminate
  | |- stops (open_by_handle _ _) => intros tr; discriminate
  | |- stops (readlink _ _) => intros tr; discriminate
  | |- stops (sys_close _) => intros tr; discriminate
  | |- stops (send_msg _ _ _) => unfold send_msg, new_event
  | |- stops (new_event _ _ _ _) => unfold new_event
  | |- stops (new_pair _ _ _) => unfold new_pair
  | |- stops (in_wd _ _) => unfold in_wd
  | |- stops (in_mask _ _) => unfold in_mask
  | |- stops (in_len _ _) => unfold in_len
  | |- stops (in_cookie _ _) => unfold in_cookie
  | |- stops (in_name _ _) => unfold in_name
  | |- stops (in_peek _ _ _) => unfold in_peek
  | |- stops (in_mark _ _ _ _) => unfold in_mark
  | |- stops (fa_event_len _ _) => unfold fa_event_len
  | |- stops (fa_vers _ _) => unfold fa_vers
  | |- stops (fa_mask _ _) => unfold fa_mask
  | |- stops (fa_evfd _ _) => unfold fa_evfd
  | |- stops (fa_info_type _ _) => unfold fa_info_type
  | |- stops (fa_handle_bytes _ _) => unfold fa_handle_bytes
  | |- stops (fa_handle _ _) => unfold fa_handle
  | |- stops (fan_event_ok _ _ _) => unfold fan_event_ok
  | |- stops (fa_peek _ _ _) => unfold fa_peek
  | |- stops (fa_pathof _ _ _) => unfold fa_pathof
  | |- stops (fa_mark _ _ _) => unfold fa_mark
  | |- stops (fa_mark_if_newdir _ _ _) => unfold fa_mark_if_newdir
  | |- stops (let x := _ in _) => cbv zeta
  end.

Section Stops.
  Variable s : os.
  Lemma in_parse_stops d buf off tail : stops (in_parse s d buf off tail).
  Proof. unfold in_parse. stop. Qed.
  Lemma in_loop_stops fd buf tail : forall fuel in_ev c dm rm,
    (258 <= N.of_nat fuel + c)%N -> (0 < fuel)%nat -> stops (in_loop s fuel fd buf tail in_ev c dm rm).
  Proof.
    induction fuel as [|k IH]; intros in_ev c dm rm Hf Hp; [lia|]. cbn [in_loop].
    destruct in_ev as [off|]; [|stop]. destruct (negb (Z.of_N off <? tail)%Z); [stop|].
    apply stops_bind; [stop|]. intros next. apply stops_bind; [stop|]. intros msk.
    apply stops_bind; [stop|]. intros wd.
    destruct (N.ltb_spec in_c_ulim c); [stop|]. unfold in_c_ulim in *.
    destruct (is_parity_lost msk && _); [stop|].
    assert (Hk : forall in_ev dm rm, stops (in_loop s k fd buf tail in_ev (c + 1) dm rm)) by (intros; apply IH; lia).
    destruct (zfind wd dm) as [dir|]; [|apply stops_bind; [stop|intros; apply Hk]].
    destruct (flag msk IN_Q_OVERFLOW); [apply stops_bind; [stop|intros; apply Hk]|].
    destruct (is_real_event msk); [|apply Hk].
    apply stops_bind; [apply in_parse_stops|]. intros [ev nx].
    apply stops_bind; [stop|]. intros dm1. apply stops_bind; [stop|]. intros. apply Hk.
  Qed.
  Lemma in_recv_stops ke : stops (in_recv s ke).
  Proof.
    unfold in_recv. apply stops_bind; [stop|]. intros r. cbv zeta.
    destruct ((rd_len r <? 0)%Z && _); [stop|].
    apply stops_bind; [apply in_loop_stops; lia|]. intros [[res dm] rm]. stop.
  Qed.

  Lemma fa_parse_stops buf m len ec : stops (fa_parse s buf m len ec).
  Proof. unfold fa_parse. stop. Qed.
  Lemma fa_loop_stops fd buf : forall fuel mtd len c,
    (172 <= N.of_nat fuel + c)%N -> (0 < fuel)%nat -> stops (fa_loop s fuel fd buf mtd len c).
  Proof.
    induction fuel as [|k IH]; intros mtd len c Hf Hp; [lia|]. cbn [fa_loop].
    destruct mtd as [m|]; [|stop].
    apply stops_bind; [stop|]. intros ok. destruct (negb ok); [stop|].
    destruct (N.ltb_spec fa_c_ulim c); [stop|]. unfold fa_c_ulim in *.
    apply stops_bind; [stop|]. intros vers. destruct (negb _); [stop|].
    apply stops_bind; [stop|]. intros evfd. destruct (negb _); [stop|].
    apply stops_bind; [stop|]. intros mask. destruct (flag mask FAN_Q_OVERFLOW); [stop|].
    apply stops_bind; [stop|]. intros it. destruct (negb _); [stop|].
    apply stops_bind; [apply fa_parse_stops|]. intros [[[ev n] l] ec]. destruct (negb _); [stop|].
    apply stops_bind; [stop|]. intros. apply stops_bind; [stop|]. intros. apply IH; lia.
  Qed.
  Lemma fa_recv_stops ke : stops (fa_recv s ke).
  Proof.
    unfold fa_recv. apply stops_bind; [stop|]. intros r. cbv zeta.
    destruct ((rd_len r <=? 0)%Z && _); [stop|]. destruct (rd_len r <? 0)%Z; [stop|].
    apply stops_bind; [apply fa_loop_stops; lia|]. intros res. stop.
  Qed.
End Stops.

(** ** C19: a receive depends on the records only *)
Lemma in_recv_decodes s ke1 ke2 tr rs :
  kin_fd ke1 = kin_fd ke2 -> kin_dm ke1 = kin_dm ke2 ->
  Forall krec_ok rs -> (length (encode rs) <= N.to_nat 4096)%nat ->
  rd_len (os_read s tr (kin_fd ke1) 4096) = Z.of_nat (length (encode rs)) ->
  rd_bytes (os_read s tr (kin_fd ke1) 4096) = encode rs ->
  exists o ke1' ke2',
    in_recv s ke1 tr = (o, Ok (r_pending, ke1')) /\ in_recv s ke2 tr = (o, Ok (r_pending, ke2')) /\
    kin_dm ke1' = kin_dm ke2'.
Proof.
  intros Hfd Hdm Hok Hlen Hl Hb.
  assert (Hlen' : (N.of_nat (length (encode rs)) <= in_buf_len)%N) by (unfold in_buf_len; lia).
  destruct (in_recv_recs s ke1 tr rs Hok Hlen' (conj Hl Hb)) as (o1 & dm1 & E1 & R1).
  rewrite Hfd in Hl, Hb.
  destruct (in_recv_recs s ke2 tr rs Hok Hlen' (conj Hl Hb)) as (o2 & dm2 & E2 & R2).
  rewrite Hfd, Hdm, E2 in E1. injection E1 as -> ->.
  do 3 eexists. split; [exact R1|]. rewrite Hfd. split; [exact R2|]. reflexivity.
Qed.

(** ** Splitting a batch *)
Definition moved_to_head (rs : list krec) : Prop := exists n rs', rs = n :: rs' /\ k_kind n = KMovedTo.

Lemma batch_split s loose : forall known rs is known', batch s loose known rs is known' ->
  forall a b, rs = a ++ b -> ~ moved_to_head b ->
  exists is1 is2 km, batch s loose known a is1 km /\ batch s loose km b is2 known' /\ is = is1 ++ is2.
Proof.
  induction 1 as [|known r rs is known' Hw Hb IH|known d r rs is known' Hw Hk Hb IH|known d r rs is known' Hw He Ho Hb IH|known d d' r n rs is known' Hp Hw Hw' Hb IH|known d r rs ms is known1 known' Hw Hk Hd Hm Hb IH|known d f r rs is known' Hw He Hn Hp Hb IH]; intros a b E Hto.
  - symmetry in E. apply app_eq_nil in E as [-> ->]. exists [], [], known. repeat split; constructor.
  - destruct a as [|x a]; cbn in E.
    { subst b. exists [], (Shown (warning "w/sys/phantom@" []) :: is), known. repeat split; [constructor|now apply BPhantom]. }
    injection E as <- E. destruct (IH a b E Hto) as (is1 & is2 & km & H1 & H2 & ->).
    eexists (_ :: is1), is2, km. split; [apply BPhantom; eassumption|]. split; [exact H2|reflexivity].
  - destruct a as [|x a]; cbn in E.
    { subst b. eexists [], _, known. repeat split; [constructor|eapply BOverflow; eassumption]. }
    injection E as <- E. destruct (IH a b E Hto) as (is1 & is2 & km & H1 & H2 & ->).
    eexists (_ :: is1), is2, km. split; [eapply BOverflow; eassumption|]. split; [exact H2|reflexivity].
  - destruct a as [|x a]; cbn in E.
    { subst b. eexists [], _, known. repeat split; [constructor|eapply BSilent; eassumption]. }
    injection E as <- E. destruct (IH a b E Hto) as (is1 & is2 & km & H1 & H2 & ->).
    exists is1, is2, km. split; [eapply BSilent; eassumption|]. split; [exact H2|reflexivity].
  - destruct a as [|x [|y a]]; cbn in E.
    { subst b. eexists [], _, known. repeat split; [constructor|eapply BRename; eassumption]. }
    { injection E as <- E. exfalso. apply Hto. exists n, rs. split; [now symmetry|apply Hp]. }
    injection E as <- <- E. destruct (IH a b E Hto) as (is1 & is2 & km & H1 & H2 & ->).
    eexists (_ :: is1), is2, km. split; [eapply BRename; eassumption|]. split; [exact H2|reflexivity].
  - destruct a as [|x a]; cbn in E.
    { subst b. eexists [], _, known. repeat split; [constructor|eapply BNewDir; eassumption]. }
    injection E as <- E. destruct (IH a b E Hto) as (is1 & is2 & km & H1 & H2 & ->).
    exists (ms ++ Shown (Sh (entry d (k_name r)) EtCreate PtDir None) :: is1), is2, km.
    split; [eapply BNewDir; eassumption|]. split; [exact H2|now rewrite <- app_assoc].
  - destruct a as [|x a]; cbn in E.
    { subst b. eexists [], _, known. repeat split; [constructor|eapply BOne; eassumption]. }
    injection E as <- E. destruct (IH a b E Hto) as (is1 & is2 & km & H1 & H2 & ->).
    eexists (_ :: is1), is2, km. split; [|split; [exact H2|reflexivity]].
    apply BOne; try assumption. intros n rs' En. apply (Hp n (rs' ++ b)). rewrite E, En. reflexivity.
Qed.

Lemma batch_rename s loose km r n b is2 known' d :
  batch s loose km (r :: n :: b) is2 known' -> rename_pair r n -> km (k_wd r) = Some d ->
  exists d' is', is2 = Shown (Sh (entry d (k_name r)) EtRename (type_of r)
           (Some (Sh (entry d' (k_name n)) EtRename (type_of n) None))) :: is' /\
    (if loose then d' = d else km (k_wd n) = Some d').
Proof.
  intros H Hp Hk. inversion H; subst; try congruence.
  - destruct Hp as [Hp _]. rewrite Hp in *. discriminate.
  - destruct Hp as [Hp _]. rewrite Hp in *. discriminate.
  - replace d with d0 by congruence. exists d'. eexists. split; [reflexivity|].
    assert (d0 = d) by congruence. subst d0. assumption.
  - destruct Hp as [Hp _]. rewrite Hp in *. discriminate.
  - exfalso. match goal with H : forall n rs', _ -> ~ rename_pair r n |- _ => apply (H n b eq_refl Hp) end.
Qed.

(** ** Where filesystem events come from (C23, C27) *)
Definition is_fs (sh : shape) : Prop := match sh with Sh _ _ t _ => t <> PtWatcher end.

(** The event reports the record [r] of directory [d]. *)
Definition reports (d : text) (r : krec) (sh : shape) : Prop :=
  match sh with Sh p f t _ => effect_of (k_kind r) = Some f /\ p = entry d (k_name r) /\ t = type_of r end.

Lemma batch_sources s loose : forall known rs is known', batch s loose known rs is known' ->
  forall is1 sh is2, is = is1 ++ Shown sh :: is2 -> is_fs sh ->
  exists r d, In r rs /\ reports d r sh /\ learn_all known is1 (k_wd r) = Some d.
Proof.
  induction 1 as [|known r rs is known' Hw Hb IH|known d r rs is known' Hw Hk Hb IH|known d r rs is known' Hw He Ho Hb IH|known d d' r n rs is known' Hp Hw Hw' Hb IH|known d r rs ms is known1 known' Hw Hk Hd Hm Hb IH|known d f r rs is known' Hw He Hn Hp Hb IH]; intros is1 sh is2 E Hfs.
  - destruct is1; discriminate.
  - destruct is1 as [|x is1]; cbn in E; injection E as <- E; [now destruct Hfs|].
    destruct (IH _ _ _ E Hfs) as (r' & d & H1 & H2 & H3). exists r', d. split; [now right|auto].
  - destruct is1 as [|x is1]; cbn in E; injection E as <- E; [now destruct Hfs|].
    destruct (IH _ _ _ E Hfs) as (r' & d' & H1 & H2 & H3). exists r', d'. split; [now right|auto].
  - destruct (IH _ _ _ E Hfs) as (r' & d' & H1 & H2 & H3). exists r', d'. split; [now right|auto].
  - destruct is1 as [|x is1]; cbn in E; injection E as <- E.
    + exists r, d. split; [now left|]. split; [|exact Hw]. cbn. destruct Hp as [Hp _]. rewrite Hp. auto.
    + destruct (IH _ _ _ E Hfs) as (r' & d2 & H1 & H2 & H3). exists r', d2. split; [now right; right|auto].
  - apply app_eq_app in E as (l & [(E1 & E2)|(E1 & E2)]).
    + destruct l as [|x l]; cbn in E2.
      * rewrite app_nil_r in E1. subst is1. injection E2 as -> ->.
        exists r, d. split; [now left|]. split; [cbn; unfold type_of; rewrite Hk, Hd; auto|].
        inversion Hm; subst; cbn [learn_all]; [unfold learn; now rewrite Hw|exact Hw].
      * injection E2 as <- E2. exfalso. inversion Hm; subst; destruct is1 as [|? [|]]; try discriminate.
        -- cbn in *. match goal with H : [Shown _] = _ |- _ => injection H as <- end. now destruct Hfs.
    + destruct l as [|x l]; cbn in E2.
      * rewrite app_nil_r in E1. subst is1. injection E2 as <- <-.
        exists r, d. split; [now left|]. split; [cbn; unfold type_of; rewrite Hk, Hd; auto|].
        inversion Hm; subst; cbn [learn_all]; [unfold learn; now rewrite Hw|exact Hw].
      * injection E2 as <- E2. destruct (IH _ _ _ E2 Hfs) as (r' & d2 & H1 & H2 & H3).
        exists r', d2. split; [now right|]. split; [exact H2|]. rewrite E1, learn_all_app.
        cbn [learn_all]. inversion Hm; subst; cbn [learn_all]; exact H3.
  - destruct is1 as [|x is1]; cbn in E; injection E as <- E.
    + exists r, d. split; [now left|]. split; [cbn; auto|exact Hw].
    + destruct (IH _ _ _ E Hfs) as (r' & d2 & H1 & H2 & H3). exists r', d2. split; [now right|auto].
Qed.

Lemma batch_learn s loose known rs is known' : batch s loose known rs is known' -> same known' (learn_all known is).
Proof.
  induction 1 as [|known r rs is known' Hw Hb IH|known d r rs is known' Hw Hk Hb IH|known d r rs is known' Hw He Ho Hb IH|known d d' r n rs is known' Hp Hw Hw' Hb IH|known d r rs ms is known1 known' Hw Hk Hd Hm Hb IH|known d f r rs is known' Hw He Hn Hp Hb IH]; cbn [learn_all]; auto.
  - intros k. reflexivity.
  - rewrite learn_all_app. inversion Hm; subst; cbn [learn_all]; exact IH.
Qed.

(** What is known was marked. *)
Definition marked_in (is : list item) (d : text) : Prop := exists wd, (0 < wd)%Z /\ In (Marked wd d) is.

Lemma learn_all_marked is : forall known k d, (forall wd d, In (Marked wd d) is -> (0 < wd)%Z) ->
  learn_all known is k = Some d -> known k = Some d \/ marked_in is d.
Proof.
  induction is as [|[x|wd e] is IH]; intros known k d Hpos H; cbn [learn_all] in H; auto.
  - apply IH in H as [H|(w & Hw & Hin)]; [now left| |].
    + right. exists w. split; [exact Hw|now right].
    + intros w e Hin. apply (Hpos w e). now right.
  - apply IH in H as [H|(w & Hw & Hin)].
    + unfold learn in H. destruct (known k); [left; congruence|]. destruct (k =? wd)%Z; [|discriminate].
      injection H as ->. right. exists wd. split; [apply (Hpos wd d); now left|now left].
    + right. exists w. split; [exact Hw|now right].
    + intros w e' Hin. apply (Hpos w e'). now right.
Qed.

Lemma items_marked_pos o wd d : In (Marked wd d) (items o) -> (0 < wd)%Z.
Proof.
  induction o as [|x o IH]; [intros []|]. cbn [items]. destruct x; auto.
  - intros [[=]|H]; auto.
  - destruct (Z.ltb_spec 0 wd0); [|auto]. intros [[= <- <-]|H']; auto.
Qed.

Lemma session_sources s loose : forall known rss is, session s loose known rss is ->
  (forall wd d, In (Marked wd d) is -> (0 < wd)%Z) ->
  forall is1 sh is2, is = is1 ++ Shown sh :: is2 -> is_fs sh ->
  exists rs r d, In rs rss /\ In r rs /\ reports d r sh /\
    ((exists k, known k = Some d) \/ marked_in is1 d).
Proof.
  induction 1 as [|known rs rss is is' known' Hb Hs IH]; intros Hpos is1 sh is2 E Hfs.
  - destruct is1; discriminate.
  - apply app_eq_app in E as (l & [(E1 & E2)|(E1 & E2)]).
    + destruct l as [|x l]; cbn in E2.
      * rewrite app_nil_r in E1. subst is1. symmetry in E2. change (Shown sh :: is2) with ([] ++ Shown sh :: is2) in E2.
        destruct (IH) with (is1 := @nil item) (sh := sh) (is2 := is2) as (rs' & r & d & H1 & H2 & H3 & H4); auto.
        { intros wd d Hin. apply (Hpos wd d). apply in_or_app. now right. }
        exists rs', r, d. split; [now right|]. split; [exact H2|]. split; [exact H3|].
        destruct H4 as [[k Hk]|[w [_ []]]]. unfold forget_deleted in Hk. destruct (existsb _ rs); [discriminate|].
        rewrite (batch_learn _ _ _ _ _ _ Hb k) in Hk. apply learn_all_marked in Hk as [Hk|Hk]; [left; eauto|now right|].
        intros wd d' Hin. apply (Hpos wd d'). apply in_or_app. now left.
      * injection E2 as <- E2. destruct (batch_sources _ _ _ _ _ _ Hb _ _ _ E1 Hfs) as (r & d & H1 & H2 & H3).
        exists rs, r, d. split; [now left|]. split; [exact H1|]. split; [exact H2|].
        apply learn_all_marked in H3 as [H3|H3]; [left; eauto|now right|].
        intros wd d' Hin. apply (Hpos wd d'). apply in_or_app. left. rewrite E1. apply in_or_app. now left.
    + destruct (IH) with (is1 := l) (sh := sh) (is2 := is2) as (rs' & r & d & H1 & H2 & H3 & H4); auto.
      { intros wd d Hin. apply (Hpos wd d). apply in_or_app. now right. }
      exists rs', r, d. split; [now right|]. split; [exact H2|]. split; [exact H3|].
      destruct H4 as [[k Hk]|(w & Hw & Hin)].
      * unfold forget_deleted in Hk. destruct (existsb _ rs); [discriminate|].
        rewrite (batch_learn _ _ _ _ _ _ Hb k) in Hk. apply learn_all_marked in Hk as [Hk|(w & Hw & Hin)].
        -- left. eauto.
        -- right. exists w. split; [exact Hw|]. rewrite E1. apply in_or_app. now left.
        -- intros wd d' Hin. apply (Hpos wd d'). apply in_or_app. now left.
      * right. exists w. split; [exact Hw|]. rewrite E1. apply in_or_app. now right.
Qed.

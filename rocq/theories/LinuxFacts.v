(** One traversal of the Linux adapters' code for any property of traces that
    is closed under concatenation. *)
From Verif Require Import Base PathModel EventModel Sys SysFacts LinuxModel InotifyModel
  FanotifyModel LinuxWatch LinuxSpec.

Definition msg_ev (r : result) (p : text) (t : Z) : event := Ev (to_str r ++ p) EtOther PtWatcher t None.

(** Events the adapters make out of records. *)
Definition fs_ptype (t : path_type) : Prop := t = PtDir \/ t = PtFile.
Inductive fs_event : event -> Prop :=
| FsOne p f t n : fs_ptype t -> fs_event (Ev p f t n None)
| FsPair p q f t n n' : fs_ptype t -> f = EtRename -> fs_event (Ev p f t n (Some (Ev q f t n' None))).

(** Observations without a part in any of the properties below. *)
Definition quiet (x : obs) : Prop :=
  match x with
  | ONow _ | ORealpath _ _ | OStatDir _ _ | OAddWatch _ _ _ _ | OFanMark _ _ _ _
  | ORead _ _ | OReadlink _ _ => True
  | _ => False
  end.

Record closed (s : os) (P : trace -> Prop) : Prop := {
  c_nil : P [];
  c_app : forall a b, P a -> P b -> P (a ++ b);
  c_quiet : forall x, quiet x -> P [x];
  c_warn : forall r p t, In r [r_w_sys_not_watched; r_w_sys_phantom; r_w_sys_q_overflow] ->
             P [OCallback (msg_ev r p t)];
  c_event : forall e, fs_event e -> ~ is_new_dir e -> P [OCallback e];
  c_newdir : forall e m, fs_event e -> is_new_dir e -> mark_attempt (ev_path e) m -> P m -> P (m ++ [OCallback e]);
  c_nohandle : forall h fd err, (fd <= 0)%Z -> (exists tr, fst (os_open_handle s tr h) = fd) -> P [OOpenHandle h fd err];
  c_handle : forall h fd err l, (0 < fd)%Z -> P [OOpenHandle h fd err; OReadlink fd l; OClose fd];
}.

Section Traverse.
  Variable s : os.
  Variable P : trace -> Prop.
  Hypothesis HP : closed s P.

  Let Pnil := c_nil _ _ HP.
  Let Papp := c_app _ _ HP.

  Lemma Pcons x o : P [x] -> P o -> P (x :: o).
  Proof. intros H1 H2. apply (Papp [x] o H1 H2). Qed.

  Lemma ev_bind {A B} (m : M A) (k : A -> M B) :
    every P m -> (forall a, every P (k a)) -> every P (bind m k).
  Proof. apply every_bind, Papp. Qed.
  Lemma ev_ret {A} (a : A) : every P (ret a).
  Proof. now apply every_ret. Qed.
  Lemma ev_undef {A} u : every P (@undef A u).
  Proof. now apply every_undef. Qed.
  Lemma ev_fuel {A} : every P (@no_fuel A).
  Proof. now apply every_fuel. Qed.

  (** Binding with knowledge of what the first part did. *)
  Lemma ev_bind_post {A B} (m : M A) (k : A -> M B) (Q : trace -> A -> Prop) :
    (forall tr, match snd (m tr) with Ok a => Q (fst (m tr)) a | _ => P (fst (m tr)) end) ->
    (forall o a, Q o a -> every (fun o2 => P (o ++ o2)) (k a)) ->
    every P (bind m k).
  Proof.
    intros Hm Hk tr. unfold bind. specialize (Hm tr). destruct (m tr) as [o1 [a|u| |]]; cbn in *; try exact Hm.
    specialize (Hk o1 a Hm (tr ++ o1)). destruct (k a (tr ++ o1)) as [o2 r2]. exact Hk.
  Qed.

  (** Computations that add nothing at all. *)
  Definition silent {A} (m : M A) : Prop := forall tr, fst (m tr) = [].
  Lemma silent_every {A} (m : M A) : silent m -> every P m.
  Proof. intros H tr. rewrite (H tr). exact Pnil. Qed.
  Lemma silent_bind {A B} (m : M A) (k : A -> M B) : silent m -> (forall a, silent (k a)) -> silent (bind m k).
  Proof.
    intros Hm Hk tr. unfold bind. specialize (Hm tr). destruct (m tr) as [o1 [a|u| |]]; cbn in *; try exact Hm.
    specialize (Hk a (tr ++ o1)). destruct (k a (tr ++ o1)) as [o2 r2]. cbn in *. now rewrite Hm, Hk.
  Qed.
  Lemma silent_ret {A} (a : A) : silent (ret a).
  Proof. intros tr. reflexivity. Qed.
  Lemma silent_word n b o : silent (word_at n b o).
  Proof. intros tr. unfold word_at. destruct (Nat.eqb _ _); reflexivity. Qed.
  Lemma silent_byte b o : silent (byte_at b o).
  Proof. intros tr. unfold byte_at. destruct (nth_error _ _); reflexivity. Qed.
  Lemma silent_cstr b o : silent (c_string b o).
  Proof. intros tr. unfold c_string. destruct (c_string_in _); reflexivity. Qed.

  Lemma silent_in_wd b o : silent (in_wd b o).
  Proof. apply silent_bind; [apply silent_word|intros; apply silent_ret]. Qed.
  Lemma silent_in_peek b o t : silent (in_peek b o t).
  Proof. apply silent_bind; [apply silent_word|intros; apply silent_ret]. Qed.

  Lemma ev_quiet1 {A} (f : trace -> obs) (g : trace -> A) :
    (forall tr, quiet (f tr)) -> every P (fun tr => ([f tr], Ok (g tr))).
  Proof. intros H tr. apply (c_quiet _ _ HP), H. Qed.
  Lemma ev_now : every P (now s).
  Proof. apply (ev_quiet1 (fun tr => ONow (os_now s tr)) (fun tr => os_now s tr)). intros; exact I. Qed.

  Lemma ev_new_event p f t : every P (new_event s p f t).
  Proof. apply ev_bind; [apply ev_now|intros; apply ev_ret]. Qed.
  Lemma ev_new_pair a b : every P (new_pair s a b).
  Proof. apply ev_bind; [apply ev_now|intros; apply ev_ret]. Qed.

  Lemma ev_warn r p : In r [r_w_sys_not_watched; r_w_sys_phantom; r_w_sys_q_overflow] ->
    every P (send_msg s r p).
  Proof.
    intros Hr tr. unfold send_msg, new_event, bind, now, ret, callback. cbn [fst snd app].
    apply Pcons; [now apply (c_quiet _ _ HP)|]. now apply (c_warn _ _ HP r p).
  Qed.

  (** [yields m Q]: every trace of [m] has [P], and a normal result has [Q]. *)
  Definition yields {A} (m : M A) (Q : A -> Prop) : Prop :=
    forall tr, P (fst (m tr)) /\ (forall a, snd (m tr) = Ok a -> Q a).

  Lemma y_bind {A B} (m : M A) (k : A -> M B) (Q1 : A -> Prop) (Q : B -> Prop) :
    yields m Q1 -> (forall a, Q1 a -> yields (k a) Q) -> yields (bind m k) Q.
  Proof.
    intros Hm Hk tr. unfold bind. destruct (Hm tr) as [Hp Hq].
    destruct (m tr) as [o1 [a|u| |]]; cbn in *; try (split; [exact Hp|discriminate]).
    specialize (Hk a (Hq a eq_refl) (tr ++ o1)).
    destruct (k a (tr ++ o1)) as [o2 r2]. cbn in *. destruct Hk. split; auto.
  Qed.
  Lemma y_ret {A} (a : A) (Q : A -> Prop) : Q a -> yields (ret a) Q.
  Proof. intros H tr. split; [exact Pnil|]. intros b [= <-]. exact H. Qed.
  Lemma y_every {A} (m : M A) : every P m -> yields m (fun _ => True).
  Proof. intros H tr. split; [apply H|auto]. Qed.
  Lemma every_y {A} (m : M A) Q : yields m Q -> every P m.
  Proof. intros H tr. apply H. Qed.
  Lemma y_new_event p f t : yields (new_event s p f t) (fun e => exists n, e = Ev p f t n None).
  Proof.
    intros tr. split; [apply ev_new_event|]. cbn. intros a [= <-]. eexists. reflexivity.
  Qed.
  Lemma y_new_pair a b : yields (new_pair s a b) (fun e => exists n, e = ev_pair n a b).
  Proof.
    intros tr. split; [apply ev_new_pair|]. cbn. intros x [= <-]. eexists. reflexivity.
  Qed.
  Lemma y_silent {A} (m : M A) (Q : A -> Prop) :
    silent m -> (forall tr a, snd (m tr) = Ok a -> Q a) -> yields m Q.
  Proof. intros H1 H2 tr. split; [rewrite (H1 tr); exact Pnil|apply H2]. Qed.

  (** A marking attempt, then the announcement. *)
  Lemma ev_announce {A B} (mk : M A) (k : A -> M B) (e : event) :
    every P mk -> (forall tr, exists a, snd (mk tr) = Ok a) ->
    (is_new_dir e -> forall tr, mark_attempt (ev_path e) (fst (mk tr))) -> fs_event e ->
    (forall a, every P (k a)) ->
    every P (x <- mk ;; callback e ;;; k x).
  Proof.
    intros Hmk Hok Hatt Hfs Hk tr. unfold bind at 1.
    specialize (Hmk tr). specialize (Hok tr) as [a Ha].
    assert (Hatt' : is_new_dir e -> mark_attempt (ev_path e) (fst (mk tr))) by auto. clear Hatt.
    destruct (mk tr) as [o1 r1]. cbn [fst snd] in *. subst r1.
    unfold bind at 1, callback. cbn [app].
    specialize (Hk a ((tr ++ o1) ++ [OCallback e])).
    destruct (k a ((tr ++ o1) ++ [OCallback e])) as [o2 r2]. cbn [fst snd app] in *.
    change (OCallback e :: o2) with ([OCallback e] ++ o2). rewrite app_assoc. apply Papp; [|exact Hk].
    assert (Hdec : {is_new_dir e} + {~ is_new_dir e}).
    { unfold is_new_dir. destruct (ev_effect e), (ev_ptype e);
        ((left; split; reflexivity) || (right; intros [? ?]; discriminate)). }
    destruct Hdec as [Hn|Hn].
    - apply (c_newdir _ _ HP); auto.
    - apply Papp; [exact Hmk|]. now apply (c_event _ _ HP).
  Qed.

  (** ** inotify *)
  Lemma in_mark_attempt p fd dm tr :
    (exists a, snd (in_mark s p fd dm tr) = Ok a) /\ mark_attempt p (fst (in_mark s p fd dm tr)).
  Proof.
    unfold in_mark, bind, realpath, stat_dir, inotify_add_watch, send_msg, new_event, now, callback, ret.
    destruct (os_realpath s tr p) as [real|]; cbn.
    - destruct (os_is_dir s _ real); cbn.
      + match goal with |- context [(0 <? ?wd)%Z] => destruct (Z.ltb_spec 0 wd) end; cbn.
        * split; [eauto|]. apply MaInotify; [assumption|]. repeat constructor.
        * split; [eauto|]. eapply (MaWarned p [_; _; _]).
      + split; [eauto|]. eapply (MaWarned p [_; _]).
    - split; [eauto|]. eapply (MaWarned p [_]).
  Qed.

  Lemma ev_in_mark p fd dm : every P (in_mark s p fd dm).
  Proof.
    unfold in_mark. apply ev_bind.
    { intros tr. now apply (c_quiet _ _ HP). }
    intros [real|].
    - apply ev_bind; [intros tr; now apply (c_quiet _ _ HP)|]. intros d.
      apply ev_bind; [destruct d; [intros tr; now apply (c_quiet _ _ HP)|apply ev_ret]|]. intros wd.
      destruct (0 <? wd)%Z; [apply ev_ret|].
      apply ev_bind; [apply ev_warn; cbn; auto|intros; apply ev_ret].
    - apply ev_bind; [apply ev_warn; cbn; auto|intros; apply ev_ret].
  Qed.

  (** Events made by parsing. *)
  Definition in_effect (mask : N) : effect_type :=
    if flag mask IN_CREATE then EtCreate else if flag mask IN_DELETE then EtDestroy
    else if flag mask IN_MOVE then EtRename else if flag mask IN_MODIFY then EtModify else EtOther.
  Definition in_ptype (mask : N) : path_type := if flag mask IN_ISDIR then PtDir else PtFile.

  Lemma fs_in_ptype mask : fs_ptype (in_ptype mask).
  Proof. unfold in_ptype, fs_ptype. destruct (flag mask IN_ISDIR); auto. Qed.

  (** The mask at an offset, as a value. *)
  Definition mask_is (buf : text) (off : N) (m : N) : Prop := forall tr, in_mask buf off tr = ([], Ok m).
  Lemma y_mask buf off : yields (in_mask buf off) (mask_is buf off).
  Proof.
    apply y_silent; [apply silent_word|]. intros tr a. unfold in_mask, word_at, mask_is.
    destruct (Nat.eqb _ _) eqn:E; cbn; intros H; inversion H; subst.
    intros tr'. unfold in_mask, word_at. rewrite E. reflexivity.
  Qed.
  Lemma mask_is_fun buf off m m' : mask_is buf off m -> mask_is buf off m' -> m = m'.
  Proof. intros H1 H2. specialize (H1 []). specialize (H2 []). rewrite H1 in H2. congruence. Qed.

  Lemma y_in_parse d buf off tail :
    yields (in_parse s d buf off tail) (fun x => fs_event (fst x) /\
        exists mask, mask_is buf off mask /\ ev_effect (fst x) = in_effect mask /\ ev_ptype (fst x) = in_ptype mask).
  Proof.
    unfold in_parse. eapply y_bind; [apply y_mask|]. intros mask Hm.
    set (et := if flag mask IN_CREATE then EtCreate else _).
    change et with (in_effect mask). clear et. fold (in_ptype mask).
    assert (Hmk : forall o, yields (nm <- in_name buf o ;; new_event s (path_append d nm) (in_effect mask) (in_ptype mask))
      (fun e => exists p n, e = Ev p (in_effect mask) (in_ptype mask) n None)).
    { intros o. eapply y_bind; [apply y_every, silent_every, silent_cstr|]. intros nm _.
      eapply y_bind; [apply y_every, ev_now|]. intros n _. apply y_ret. eexists _, _. reflexivity. }
    assert (Hone : forall nx : option N, yields
      (ev <- (nm <- in_name buf off ;; new_event s (path_append d nm) (in_effect mask) (in_ptype mask)) ;; ret (ev, nx))
      (fun x => fs_event (fst x) /\
        exists mask, mask_is buf off mask /\ ev_effect (fst x) = in_effect mask /\ ev_ptype (fst x) = in_ptype mask)).
    { intros nx. eapply y_bind; [apply Hmk|]. intros e (p & n & ->). apply y_ret. cbn.
      split; [constructor; apply fs_in_ptype|eauto]. }
    eapply y_bind; [apply y_every, silent_every, silent_in_peek|]. intros [n|] _; [|apply Hone].
    eapply y_bind; [apply y_every, silent_every, silent_word|]. intros cn _.
    eapply y_bind; [apply y_every, silent_every, silent_word|]. intros ci _.
    destruct (negb (negb (cn =? 0)%N && (cn =? ci)%N && match in_effect mask with EtRename => true | _ => false end)) eqn:Ec;
      [apply Hone|].
    assert (Hren : in_effect mask = EtRename).
    { destruct (in_effect mask); try reflexivity; rewrite ?andb_false_r in Ec; discriminate. }
    eapply y_bind; [apply y_every, silent_every, silent_word|]. intros mn _.
    assert (Hassoc : forall a b, yields
      (ea <- (nm <- in_name buf a ;; new_event s (path_append d nm) (in_effect mask) (in_ptype mask)) ;;
       eb <- (nm <- in_name buf b ;; new_event s (path_append d nm) (in_effect mask) (in_ptype mask)) ;;
       ev <- new_pair s ea eb ;; nn <- in_peek buf b tail ;; ret (ev, nn))
      (fun x => fs_event (fst x) /\
        exists mask, mask_is buf off mask /\ ev_effect (fst x) = in_effect mask /\ ev_ptype (fst x) = in_ptype mask)).
    { intros a b. eapply y_bind; [apply Hmk|]. intros ea (pa & na & ->).
      eapply y_bind; [apply Hmk|]. intros eb (pb & nb & ->).
      eapply y_bind; [apply y_new_pair|]. intros ev (n' & ->).
      eapply y_bind; [apply y_every, silent_every, silent_in_peek|]. intros nn _. apply y_ret.
      cbn. split; [constructor; [apply fs_in_ptype|exact Hren]|eauto]. }
    destruct (flag mask IN_MOVED_FROM && flag mn IN_MOVED_TO); [apply Hassoc|].
    destruct (flag mn IN_MOVED_FROM && flag mask IN_MOVED_TO); [apply Hassoc|apply Hone].
  Qed.

  Lemma ev_in_loop fuel fd buf tail : forall in_ev c dm rm,
    every P (in_loop s fuel fd buf tail in_ev c dm rm).
  Proof.
    induction fuel as [|k IH]; intros in_ev c dm rm; cbn [in_loop]; [apply ev_fuel|].
    destruct in_ev as [off|]; [|apply ev_ret].
    destruct (negb (Z.of_N off <? tail)%Z); [apply ev_ret|].
    apply ev_bind; [apply silent_every, silent_in_peek|]. intros next.
    eapply every_y. eapply y_bind; [apply y_mask|]. intros msk Hmsk.
    eapply y_bind; [apply y_every, silent_every, silent_in_wd|]. intros wd _.
    apply y_every.
    destruct (in_c_ulim <? c)%N; [apply ev_ret|].
    destruct (is_parity_lost msk && _); [apply ev_ret|].
    destruct (zfind wd dm) as [dir|].
    2:{ apply ev_bind; [apply ev_warn; cbn; auto|intros _; apply IH]. }
    destruct (flag msk IN_Q_OVERFLOW).
    { apply ev_bind; [apply ev_warn; cbn; auto|intros _; apply IH]. }
    destruct (is_real_event msk); [|apply IH].
    eapply every_y. eapply y_bind; [apply y_in_parse|].
    intros [ev nx] (Hfs & mask & Hm & He & Ht). cbn [fst] in *.
    rewrite (mask_is_fun _ _ _ _ Hm Hmsk) in *. clear Hm mask.
    apply y_every. apply (ev_announce _ (fun dm1 => in_loop s k fd buf tail nx (c + 1) dm1 _) ev).
    - destruct (flag msk IN_ISDIR && flag msk IN_CREATE); [|apply ev_ret].
      apply ev_bind; [apply ev_in_mark|intros; apply ev_ret].
    - intros tr. destruct (flag msk IN_ISDIR && flag msk IN_CREATE); [|eexists; reflexivity].
      destruct (in_mark_attempt (ev_path ev) fd dm tr) as [[a Ha] _].
      unfold bind. destruct (in_mark s (ev_path ev) fd dm tr) as [o1 r1]. cbn [snd] in Ha. subst r1.
      eexists. reflexivity.
    - intros [Hce Hdir] tr. rewrite He in Hce. rewrite Ht in Hdir.
      assert (Hb : flag msk IN_ISDIR && flag msk IN_CREATE = true).
      { unfold in_effect in Hce. unfold in_ptype in Hdir.
        destruct (flag msk IN_CREATE); [|destruct (flag msk IN_DELETE), (flag msk IN_MOVE), (flag msk IN_MODIFY); discriminate].
        destruct (flag msk IN_ISDIR); [reflexivity|discriminate]. }
      rewrite Hb. destruct (in_mark_attempt (ev_path ev) fd dm tr) as [[a Ha] Hatt].
      unfold bind. destruct (in_mark s (ev_path ev) fd dm tr) as [o1 r1]. cbn [fst snd] in *. subst r1.
      cbn. now rewrite app_nil_r.
    - exact Hfs.
    - intros dm1. apply IH.
  Qed.

  Lemma ev_in_recv ke : every P (in_recv s ke).
  Proof.
    unfold in_recv. apply ev_bind; [intros tr; now apply (c_quiet _ _ HP)|]. intros r.
    destruct ((rd_len r <? 0)%Z && negb (rd_errno r =? 11)%Z); [apply ev_ret|].
    apply ev_bind; [apply ev_in_loop|]. intros [[res dm] rm]. apply ev_ret.
  Qed.

  (** ** fanotify *)
  Lemma fa_mark_attempt p fd tr :
    (exists a, snd (fa_mark s p fd tr) = Ok a) /\ mark_attempt p (fst (fa_mark s p fd tr)).
  Proof.
    unfold fa_mark, bind, realpath, stat_dir, fanotify_mark, send_msg, new_event, now, callback, ret.
    destruct (os_realpath s tr p) as [real|]; cbn.
    - destruct (os_is_dir s _ real); cbn.
      + match goal with |- context [(?rc =? 0)%Z] => destruct (Z.eqb_spec rc 0) as [E|E] end; cbn.
        * split; [eauto|]. rewrite E. apply MaFanotify. repeat constructor.
        * split; [eauto|]. eapply (MaWarned p [_; _; _]).
      + split; [eauto|]. eapply (MaWarned p [_; _]).
    - split; [eauto|]. eapply (MaWarned p [_]).
  Qed.

  Lemma ev_fa_mark p fd : every P (fa_mark s p fd).
  Proof.
    unfold fa_mark. apply ev_bind.
    { intros tr. now apply (c_quiet _ _ HP). }
    intros [real|].
    - apply ev_bind; [intros tr; now apply (c_quiet _ _ HP)|]. intros d.
      apply ev_bind; [destruct d; [intros tr; now apply (c_quiet _ _ HP)|apply ev_ret]|]. intros rc.
      destruct (rc =? 0)%Z; [apply ev_ret|].
      apply ev_bind; [apply ev_warn; cbn; auto|intros; apply ev_ret].
    - apply ev_bind; [apply ev_warn; cbn; auto|intros; apply ev_ret].
  Qed.

  Lemma silent_fa_handle b m : silent (fa_handle b m).
  Proof.
    apply silent_bind; [apply silent_word|]. intros hb tr. cbv zeta.
    match goal with |- context [if ?c then _ else _] => destruct c end; reflexivity.
  Qed.
  Lemma silent_ok b m l : silent (fan_event_ok b m l).
  Proof.
    unfold fan_event_ok. destruct (l <? 24)%Z; [apply silent_ret|].
    apply silent_bind; [apply silent_word|intros; apply silent_ret].
  Qed.
  Lemma silent_fa_peek b m l : silent (fa_peek b m l).
  Proof.
    apply silent_bind; [apply silent_word|]. intros el.
    apply silent_bind; [apply silent_ok|intros; apply silent_ret].
  Qed.

  Lemma ev_pathof buf m : every P (fa_pathof s buf m).
  Proof.
    unfold fa_pathof. apply ev_bind; [apply silent_every, silent_fa_handle|]. intros h tr.
    unfold bind at 1, open_by_handle.
    destruct (os_open_handle s tr h) as [fd err] eqn:Eo. cbn [fst snd].
    destruct (Z.leb_spec fd 0) as [Hle|Hgt].
    - cbn. apply (c_nohandle _ _ HP); [lia|]. exists tr. now rewrite Eo.
    - unfold bind at 1, readlink. cbn [app fst snd].
      unfold bind at 1, sys_close. cbn [app fst snd].
      match goal with |- P (fst (let (_, _) := let (_, _) := let (_, _) := ?m ?t in _ in _ in _)) =>
        assert (Hm : every P m) end.
      { destruct (os_readlink s _ fd) as [d0|]; [|apply ev_undef].
        destruct (firstn path_ulim d0); [apply ev_ret|].
        apply ev_bind; [apply silent_every, silent_word|]. intros hb.
        apply ev_bind; [apply silent_every, silent_cstr|]. intros nm.
        destruct (text_eqb nm (lit ".")); apply ev_ret. }
      match goal with |- context [?m ?t] =>
        lazymatch type of Hm with every P m => specialize (Hm t); destruct (m t) as [o2 r2] end end.
      cbn [fst snd app] in *.
      match goal with |- P (?a :: ?b :: ?c :: o2) => apply (Papp [a; b; c] o2); [|exact Hm] end.
      now apply (c_handle _ _ HP).
  Qed.

  Definition fa_effect (mask : N) : effect_type :=
    if flag mask FAN_CREATE then EtCreate else if flag mask FAN_DELETE then EtDestroy
    else if flag mask FAN_MODIFY then EtModify else if flag mask FAN_MOVE then EtRename else EtOther.
  Definition fa_ptype (mask : N) : path_type := if flag mask FAN_ONDIR then PtDir else PtFile.
  Lemma fs_fa_ptype mask : fs_ptype (fa_ptype mask).
  Proof. unfold fa_ptype, fs_ptype. destruct (flag mask FAN_ONDIR); auto. Qed.

  Lemma y_fa_parse buf m len ec :
    yields (fa_parse s buf m len ec) (fun x => fs_event (fst (fst (fst x)))).
  Proof.
    unfold fa_parse.
    eapply y_bind; [apply y_every, silent_every, silent_fa_peek|]. intros n _.
    eapply y_bind; [apply y_every, silent_every, silent_word|]. intros mask _.
    set (et := if flag mask FAN_CREATE then EtCreate else _).
    change et with (fa_effect mask). clear et. fold (fa_ptype mask).
    assert (Hone : yields
      ('(p, x) <- fa_pathof s buf m ;; ev <- new_event s p (fa_effect mask) (fa_ptype mask) ;;
       el <- fa_event_len buf m ;; ret (ev, n, Z.of_N el, set_ec ec x))
      (fun x => fs_event (fst (fst (fst x))))).
    { eapply y_bind; [apply y_every, ev_pathof|]. intros [p x] _.
      eapply y_bind; [apply y_new_event|]. intros e (t & ->).
      eapply y_bind; [apply y_every, silent_every, silent_word|]. intros el _.
      apply y_ret. cbn. constructor. apply fs_fa_ptype. }
    destruct n as [nx|]; [|apply Hone].
    eapply y_bind; [apply y_every, silent_every, silent_word|]. intros mn _.
    assert (Hassoc : forall a b, fa_effect mask = EtRename -> yields
     (nn <- fa_peek buf b len ;; la <- fa_event_len buf a ;; lb <- fa_event_len buf b ;;
      '(pa, xa) <- fa_pathof s buf a ;; ea <- new_event s pa (fa_effect mask) (fa_ptype mask) ;;
      '(pb, xb) <- fa_pathof s buf b ;; eb <- new_event s pb (fa_effect mask) (fa_ptype mask) ;;
      ev <- new_pair s ea eb ;;
      ret (ev, nn, (Z.of_N la + Z.of_N lb)%Z, set_ec (set_ec ec xa) xb))
      (fun x => fs_event (fst (fst (fst x))))).
    { intros a b Hren.
      eapply y_bind; [apply y_every, silent_every, silent_fa_peek|]. intros nn _.
      eapply y_bind; [apply y_every, silent_every, silent_word|]. intros la _.
      eapply y_bind; [apply y_every, silent_every, silent_word|]. intros lb _.
      eapply y_bind; [apply y_every, ev_pathof|]. intros [pa xa] _.
      eapply y_bind; [apply y_new_event|]. intros ea (ta & ->).
      eapply y_bind; [apply y_every, ev_pathof|]. intros [pb xb] _.
      eapply y_bind; [apply y_new_event|]. intros eb (tb & ->).
      eapply y_bind; [apply y_new_pair|]. intros e (t & ->).
      apply y_ret. cbn. constructor; [apply fs_fa_ptype|exact Hren]. }
    destruct (match fa_effect mask with EtRename => true | _ => false end) eqn:Er; cbn [andb]; [|apply Hone].
    assert (Hren : fa_effect mask = EtRename) by (destruct (fa_effect mask); congruence).
    destruct (flag mask FAN_MOVED_FROM && flag mn FAN_MOVED_TO); [now apply Hassoc|].
    destruct (flag mn FAN_MOVED_FROM && flag mask FAN_MOVED_TO); [now apply Hassoc|apply Hone].
  Qed.

  Lemma ev_fa_loop fuel fd buf : forall mtd len c, every P (fa_loop s fuel fd buf mtd len c).
  Proof.
    induction fuel as [|k IH]; intros mtd len c; cbn [fa_loop]; [apply ev_fuel|].
    destruct mtd as [m|]; [|apply ev_ret].
    apply ev_bind; [apply silent_every, silent_ok|]. intros ok.
    destruct (negb ok); [apply ev_ret|].
    destruct (fa_c_ulim <? c)%N; [apply ev_ret|].
    apply ev_bind; [apply silent_every, silent_byte|]. intros vers.
    destruct (negb _); [apply ev_ret|].
    apply ev_bind; [apply silent_every, silent_bind; [apply silent_word|intros; apply silent_ret]|]. intros evfd.
    destruct (negb _); [apply ev_ret|].
    apply ev_bind; [apply silent_every, silent_word|]. intros mask.
    destruct (flag mask FAN_Q_OVERFLOW); [apply ev_ret|].
    apply ev_bind; [apply silent_every, silent_byte|]. intros it.
    destruct (negb _); [apply ev_ret|].
    eapply every_y. eapply y_bind; [apply y_fa_parse|].
    intros [[[ev n] l] ec] Hfs. cbn [fst] in Hfs. apply y_every.
    destruct (negb (ec =? 0)%Z); [apply ev_ret|].
    apply (ev_announce (fa_mark_if_newdir s ev fd) (fun _ => fa_loop s k fd buf n (len - l) (c + 1)) ev).
    - unfold fa_mark_if_newdir. destruct (ev_effect ev), (ev_ptype ev); try apply ev_ret. apply ev_fa_mark.
    - intros tr. unfold fa_mark_if_newdir. destruct (ev_effect ev), (ev_ptype ev); try (eexists; reflexivity).
      apply fa_mark_attempt.
    - intros [H1 H2] tr. unfold fa_mark_if_newdir. rewrite H1, H2. apply fa_mark_attempt.
    - exact Hfs.
    - intros _. apply IH.
  Qed.

  Lemma ev_fa_recv ke : every P (fa_recv s ke).
  Proof.
    unfold fa_recv. apply ev_bind; [intros tr; now apply (c_quiet _ _ HP)|]. intros r.
    destruct ((rd_len r <=? 0)%Z && negb (rd_errno r =? 11)%Z); [apply ev_ret|].
    destruct (rd_len r <? 0)%Z; [apply ev_ret|].
    apply ev_bind; [apply ev_fa_loop|]. intros res. apply ev_ret.
  Qed.
End Traverse.

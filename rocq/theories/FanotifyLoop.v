(** The fanotify adapter's loop on encoded records does what [fbatch] says. *)
From Verif Require Import Base PathModel EventModel Sys SysFacts LinuxModel FanotifyModel InotifySpec InotifyRun FanotifySpec FanotifyFacts.

Local Arguments N.add : simpl never.
Local Arguments Z.of_N : simpl never.
Local Arguments N.of_nat : simpl never.

Definition result_of (e : fend) : result :=
  match e with FAll => r_pending | FOverflow => r_w_sys_q_overflow | FBadHandle => r_w_sys_bad_fd end.

Lemma shown_app a b : shown (a ++ b) = shown a ++ shown b.
Proof. unfold shown. now rewrite callbacks_app, map_app. Qed.

Section Loop.
  Variable s : os.
  Hypothesis Hs : handles_ok s.
  Variable fd : Z.

  Lemma mark_newdir ev p f t tr : shape_of ev = Sh p f t None ->
    exists o r, fa_mark_if_newdir s ev fd tr = (o, Ok r) /\ Forall no_read o /\
      (if match f, t with EtCreate, PtDir => true | _, _ => false end then only_unwatched p (shown o) else shown o = []).
  Proof.
    destruct ev as [p' f' t' n a]. cbn [shape_of]. intros [= <- <- <- _]. unfold fa_mark_if_newdir. cbn [ev_effect ev_ptype ev_path].
    assert (Hm : exists o r, fa_mark s p' fd tr = (o, Ok r) /\ Forall no_read o /\ only_unwatched p' (shown o)).
    { unfold fa_mark, bind, realpath, stat_dir, fanotify_mark, send_msg, new_event, bind, now, callback, ret.
      destruct (os_realpath s tr p') as [real|]; cbn; [destruct (os_is_dir s _ real); cbn|].
      - destruct (_ =? 0)%Z; do 2 eexists; (split; [reflexivity|]); (split; [repeat constructor|]); [left|right]; reflexivity.
      - do 2 eexists; (split; [reflexivity|]); (split; [repeat constructor|]); right; reflexivity.
      - do 2 eexists; (split; [reflexivity|]); (split; [repeat constructor|]); right; reflexivity. }
    destruct f'; try (exists [], r_complete; repeat split; constructor).
    destruct t'; try (exists [], r_complete; repeat split; constructor). exact Hm.
  Qed.

  Lemma lookup_named lk (p : text) : forall h fd err d, lk = [OOpenHandle h fd err; OReadlink fd (Some d); OClose fd] -> shown lk = [] /\ Forall no_read lk.
  Proof. intros h fd' err d ->. split; [reflexivity|repeat constructor]. Qed.

  (** A record that stands alone. *)
  Lemma parse_one r rest m rlen tr pre post :
    frec_ok r -> Forall fan_ok rest ->
    rlen = (Z.of_nat (length (fencode (Chg r :: rest))) - Z.of_nat m)%Z ->
    ~ pairs r rest m ->
    fa_parse s (pre ++ fencode (Chg r :: rest) ++ post) (N.of_nat (length pre)) rlen 0 tr =
    ('(p, x) <- fa_pathof s (pre ++ fencode (Chg r :: rest) ++ post) (N.of_nat (length pre)) ;;
     ev <- new_event s p (f_effect r) (f_ptype r) ;;
     ret (ev, fpos (N.of_nat (length (pre ++ fencode_rec (Chg r)))) m rest, Z.of_nat (flen (Chg r)), set_ec 0 x)) tr.
  Proof.
    intros Hr Hrest El Hp. unfold fa_parse.
    assert (Hall : Forall fan_ok (Chg r :: rest)) by (constructor; assumption).
    erewrite bind_silent; [|apply (peek_ok pre (Chg r) rest post m _ _ Hall El)].
    set (n := fpos _ m rest).
    assert (Hbuf : pre ++ fencode (Chg r :: rest) ++ post = pre ++ fencode_rec (Chg r) ++ (fencode rest ++ post))
      by (rewrite fencode_cons, <- app_assoc; reflexivity).
    erewrite bind_silent; [|rewrite Hbuf; apply read_fmask].
    cbn [x_mask]. rewrite f_mask_dir, (f_mask_effect r (fo_kinds r Hr)). change (if f_dir r then PtDir else PtFile) with (f_ptype r).
    change (match f_effect r with EtRename => true | _ => false end) with (f_moves r).
    set (one := bind (fa_pathof s _ _) _).
    assert (E : one tr = ('(p, x) <- fa_pathof s (pre ++ fencode (Chg r :: rest) ++ post) (N.of_nat (length pre)) ;;
     ev <- new_event s p (f_effect r) (f_ptype r) ;;
     ret (ev, n, Z.of_nat (flen (Chg r)), set_ec 0 x)) tr).
    { unfold one. apply bind_ext. intros [p x] o _. apply bind_ext. intros ev o1 _.
      erewrite bind_silent; [|rewrite Hbuf; apply read_event_len; exact Hr]. unfold ret. repeat f_equal; try lia. }
    unfold n, fpos in *. destruct (fits_dec m rest) as [Hf|Hf]; [|exact E].
    destruct rest as [|y rest']; [destruct Hf|].
    erewrite bind_silent.
    2:{ rewrite Hbuf, app_assoc, fencode_cons, <- (app_assoc (fencode_rec y)). apply read_fmask. }
    change FAN_MOVED_FROM with (fkind_bit FFrom). change FAN_MOVED_TO with (fkind_bit FTo).
    rewrite !f_mask_kind. destruct y as [y|].
    - cbn [x_mask]. rewrite !f_mask_kind. destruct (f_moves r) eqn:Hm; cbn [andb]; [|exact E].
      destruct (has FFrom r && has FTo y) eqn:E1.
      { exfalso. apply Hp. apply andb_prop in E1 as [E1 E2]. exists y, rest'. auto 10. }
      destruct (has FFrom y && has FTo r) eqn:E2.
      { exfalso. apply Hp. apply andb_prop in E2 as [E2 E3]. exists y, rest'. auto 10. }
      exact E.
    - change (flag (x_mask Ovf) (fkind_bit FTo)) with false. change (flag (x_mask Ovf) (fkind_bit FFrom)) with false.
      rewrite !andb_false_r. cbn [andb]. exact E.
  Qed.

  (** Two records taken together, in order or swapped. *)
  Lemma parse_two r n rest m rlen tr pre post :
    frec_ok r -> frec_ok n -> Forall fan_ok rest ->
    rlen = (Z.of_nat (length (fencode (Chg r :: Chg n :: rest))) - Z.of_nat m)%Z ->
    fits m (Chg n :: rest) -> f_moves r = true -> (4 <= length post)%nat ->
    let buf := pre ++ fencode (Chg r :: Chg n :: rest) ++ post in
    let a := N.of_nat (length pre) in
    let b := N.of_nat (length (pre ++ fencode_rec (Chg r))) in
    (has FFrom r = true -> has FTo n = true ->
     exists nn, (nn = Some (N.of_nat (length ((pre ++ fencode_rec (Chg r)) ++ fencode_rec (Chg n)))) \/ nn = None /\ ~ fits m rest) /\
     fa_parse s buf a rlen 0 tr =
     ('(p, x) <- fa_pathof s buf a ;; ea <- new_event s p EtRename (f_ptype r) ;;
      '(q, y) <- fa_pathof s buf b ;; eb <- new_event s q EtRename (f_ptype r) ;;
      ev <- new_pair s ea eb ;;
      ret (ev, nn, (Z.of_nat (flen (Chg r)) + Z.of_nat (flen (Chg n)))%Z, set_ec (set_ec 0 x) y)) tr) /\
    (has FFrom r && has FTo n = false -> has FTo r = true -> has FFrom n = true ->
     fa_parse s buf a rlen 0 tr =
     ('(p, x) <- fa_pathof s buf b ;; ea <- new_event s p EtRename (f_ptype r) ;;
      '(q, y) <- fa_pathof s buf a ;; eb <- new_event s q EtRename (f_ptype r) ;;
      ev <- new_pair s ea eb ;;
      ret (ev, Some b, (Z.of_nat (flen (Chg n)) + Z.of_nat (flen (Chg r)))%Z, set_ec (set_ec 0 x) y)) tr).
  Proof.
    intros Hr Hn Hrest El Hf Hm Hpost buf a b.
    assert (Hall : Forall fan_ok (Chg r :: Chg n :: rest)) by (constructor; [exact Hr|constructor; [exact Hn|exact Hrest]]).
    assert (Hall2 : Forall fan_ok (Chg n :: rest)) by (constructor; assumption).
    assert (Hbuf : buf = pre ++ fencode_rec (Chg r) ++ (fencode (Chg n :: rest) ++ post))
      by (unfold buf; rewrite fencode_cons, <- app_assoc; reflexivity).
    assert (Hbuf2 : buf = (pre ++ fencode_rec (Chg r)) ++ fencode_rec (Chg n) ++ (fencode rest ++ post))
      by (rewrite Hbuf, fencode_cons, <- !app_assoc; reflexivity).
    assert (Heff : f_effect r = EtRename) by (unfold f_moves in Hm; destruct (f_effect r); try discriminate; reflexivity).
    assert (Hpk : forall t, fa_peek buf a rlen t = ([], Ok (Some b))).
    { intros t. unfold buf, a. rewrite (peek_ok pre (Chg r) (Chg n :: rest) post m rlen t Hall El).
      unfold fpos. destruct (fits_dec m (Chg n :: rest)); [reflexivity|contradiction]. }
    assert (Hla : forall t, fa_event_len buf a t = ([], Ok (N.of_nat (flen (Chg r))))) by (intros t; rewrite Hbuf; now apply read_event_len).
    assert (Hlb : forall t, fa_event_len buf b t = ([], Ok (N.of_nat (flen (Chg n))))) by (intros t; rewrite Hbuf2; now apply read_event_len).
    assert (Hma : forall t, fa_mask buf a t = ([], Ok (f_mask r))) by (intros t; rewrite Hbuf; apply read_fmask).
    assert (Hmb : forall t, fa_mask buf b t = ([], Ok (f_mask n))) by (intros t; rewrite Hbuf2; apply read_fmask).
    split.
    - intros H1 H2.
      destruct (peek_pair (pre ++ fencode_rec (Chg r)) (Chg n) rest post m (flen (Chg r)) rlen tr Hall2 ltac:(rewrite El, fencode_len; lia) ltac:(intros _; exact Hpost)) as (nn & Enn & Hnn).
      exists nn. split; [exact Hnn|].
      unfold fa_parse. rewrite (bind_silent _ _ _ _ (Hpk tr)), (bind_silent _ _ _ _ (Hma tr)).
      rewrite f_mask_dir, (f_mask_effect r (fo_kinds r Hr)), Heff. change (if f_dir r then PtDir else PtFile) with (f_ptype r).
      rewrite (bind_silent _ _ _ _ (Hmb tr)).
      change FAN_MOVED_FROM with (fkind_bit FFrom). change FAN_MOVED_TO with (fkind_bit FTo). rewrite !f_mask_kind, H1, H2. cbn [andb].
      assert (Enn' : fa_peek buf b rlen tr = ([], Ok nn)).
      { rewrite <- Enn. unfold buf, b. rewrite fencode_cons, <- !app_assoc. reflexivity. }
      rewrite (bind_silent _ _ _ _ Enn'), (bind_silent _ _ _ _ (Hla tr)), (bind_silent _ _ _ _ (Hlb tr)).
      apply bind_ext. intros [p x] o _. apply bind_ext. intros ea o1 _. apply bind_ext. intros [q y] o2 _. apply bind_ext. intros eb o3 _.
      apply bind_ext. intros ev o4 _. unfold ret. repeat f_equal; try lia.
    - intros H0 H1 H2.
      unfold fa_parse. rewrite (bind_silent _ _ _ _ (Hpk tr)), (bind_silent _ _ _ _ (Hma tr)).
      rewrite f_mask_dir, (f_mask_effect r (fo_kinds r Hr)), Heff. change (if f_dir r then PtDir else PtFile) with (f_ptype r).
      rewrite (bind_silent _ _ _ _ (Hmb tr)).
      change FAN_MOVED_FROM with (fkind_bit FFrom). change FAN_MOVED_TO with (fkind_bit FTo). rewrite !f_mask_kind. cbn [andb]. rewrite H0, H1, H2. cbn [andb].
      rewrite (bind_silent _ _ _ _ (Hpk tr)), (bind_silent _ _ _ _ (Hlb tr)), (bind_silent _ _ _ _ (Hla tr)).
      apply bind_ext. intros [p x] o _. apply bind_ext. intros ea o1 _. apply bind_ext. intros [q y] o2 _. apply bind_ext. intros eb o3 _.
      apply bind_ext. intros ev o4 _. unfold ret. repeat f_equal; try lia.
  Qed.

  Lemma loop_head k r rest m rlen c tr pre post :
    frec_ok r -> Forall fan_ok rest ->
    rlen = (Z.of_nat (length (fencode (Chg r :: rest))) - Z.of_nat m)%Z -> fits m (Chg r :: rest) -> (c <= 170)%N ->
    let buf := pre ++ fencode (Chg r :: rest) ++ post in
    let a := N.of_nat (length pre) in
    fa_loop s (S k) fd buf (Some a) rlen c tr =
    ('(ev, n, l, ec) <- fa_parse s buf a rlen 0 ;;
     if negb (ec =? 0)%Z then ret r_w_sys_bad_fd
     else fa_mark_if_newdir s ev fd ;;; callback ev ;;; fa_loop s k fd buf n (rlen - l) (c + 1)) tr.
  Proof.
    intros Hr Hrest El Hf Hc buf a. cbn [fa_loop].
    assert (Hall : Forall fan_ok (Chg r :: rest)) by (constructor; assumption).
    assert (Hbuf : buf = pre ++ fencode_rec (Chg r) ++ (fencode rest ++ post))
      by (unfold buf; rewrite fencode_cons, <- app_assoc; reflexivity).
    erewrite bind_silent; [|apply (ok_rec pre (Chg r :: rest) post m rlen tr Hall El)].
    destruct (fits_dec m (Chg r :: rest)) as [_|?]; [|contradiction]. cbn [negb].
    destruct (N.ltb_spec fa_c_ulim c) as [H|_]; [unfold fa_c_ulim in H; lia|].
    erewrite bind_silent; [|rewrite Hbuf; apply read_vers]. change (negb (3 =? FANOTIFY_METADATA_VERSION)%N) with false. cbv iota.
    erewrite bind_silent; [|rewrite Hbuf; apply read_evfd]. change (negb (-1 =? FAN_NOFD)%Z) with false. cbv iota.
    erewrite bind_silent; [|rewrite Hbuf; apply read_fmask]. cbn [x_mask]. rewrite f_mask_ovf.
    erewrite bind_silent; [|rewrite Hbuf; apply read_info_type; exact Hr]. change (negb (2 =? FAN_EVENT_INFO_TYPE_DFID_NAME)%N) with false. cbv iota.
    reflexivity.
  Qed.

  Lemma loop_ovf k rest m rlen c tr pre post :
    Forall fan_ok rest ->
    rlen = (Z.of_nat (length (fencode (Ovf :: rest))) - Z.of_nat m)%Z -> fits m (Ovf :: rest) -> (c <= 170)%N ->
    fa_loop s (S k) fd (pre ++ fencode (Ovf :: rest) ++ post) (Some (N.of_nat (length pre))) rlen c tr = ([], Ok r_w_sys_q_overflow).
  Proof.
    intros Hrest El Hf Hc. cbn [fa_loop]. set (buf := pre ++ _).
    assert (Hall : Forall fan_ok (Ovf :: rest)) by (constructor; [exact I|assumption]).
    assert (Hbuf : buf = pre ++ fencode_rec Ovf ++ (fencode rest ++ post))
      by (unfold buf; rewrite fencode_cons, <- app_assoc; reflexivity).
    erewrite bind_silent; [|apply (ok_rec pre (Ovf :: rest) post m rlen tr Hall El)].
    destruct (fits_dec m (Ovf :: rest)) as [_|?]; [|contradiction]. cbn [negb].
    destruct (N.ltb_spec fa_c_ulim c) as [H|_]; [unfold fa_c_ulim in H; lia|].
    erewrite bind_silent; [|rewrite Hbuf; apply read_vers]. change (negb (3 =? FANOTIFY_METADATA_VERSION)%N) with false. cbv iota.
    erewrite bind_silent; [|rewrite Hbuf; apply read_evfd]. change (negb (-1 =? FAN_NOFD)%Z) with false. cbv iota.
    erewrite bind_silent; [|rewrite Hbuf; apply read_fmask]. reflexivity.
  Qed.

  (** What the loop does from here on: the same for every place in the buffer,
      every rest of the buffer. *)
  Definition goes (m : nat) (rs : list fan) (tr : trace) (o : trace) (res : result) : Prop :=
    forall fuel c pre post mtd rlen,
      (length rs < fuel)%nat -> (c + N.of_nat (length rs) <= 170)%N -> (4 <= length post)%nat ->
      rlen = (Z.of_nat (length (fencode rs)) - Z.of_nat m)%Z ->
      mtd = Some (N.of_nat (length pre)) \/ mtd = None /\ ~ fits m rs ->
      fa_loop s fuel fd (pre ++ fencode rs ++ post) mtd rlen c tr = (o, Ok res).

  Lemma goes_stop m rs tr : Forall fan_ok rs -> ~ fits m rs -> goes m rs tr [] r_pending.
  Proof.
    intros Hok Hf fuel c pre post mtd rlen Hfu Hc Hp El [->|[-> _]]; (destruct fuel as [|k]; [lia|]); cbn [fa_loop]; [|reflexivity].
    erewrite bind_silent; [|apply (ok_rec pre rs post m rlen tr Hok El)]. destruct (fits_dec m rs); [contradiction|]. reflexivity.
  Qed.

  Lemma goes_ovf m rs tr : Forall fan_ok rs -> fits m (Ovf :: rs) -> goes m (Ovf :: rs) tr [] r_w_sys_q_overflow.
  Proof.
    intros Hok Hf fuel c pre post mtd rlen Hfu Hc Hp El [->|[-> Hn]]; [|contradiction]. destruct fuel as [|k]; [lia|].
    apply (loop_ovf k rs m); auto. cbn [length] in Hc. lia.
  Qed.

  Lemma fpos_mtd off m rs : fpos off m rs = Some off \/ fpos off m rs = None /\ ~ fits m rs.
  Proof. unfold fpos. destruct (fits_dec m rs); auto. Qed.

  Lemma goes_one_bad m r rest tr lk err :
    frec_ok r -> Forall fan_ok rest -> fits m (Chg r :: rest) -> ~ pairs r rest m -> err <> 0%Z ->
    (forall pre more, fa_pathof s (pre ++ fencode_rec (Chg r) ++ more) (N.of_nat (length pre)) tr = (lk, Ok ([], Some err))) ->
    exists t, goes m (Chg r :: rest) tr (lk ++ [ONow t]) r_w_sys_bad_fd.
  Proof.
    intros Hr Hrest Hf Hnp He Hpath. exists (os_now s (tr ++ lk)).
    intros fuel c pre post mtd rlen Hfu Hc Hp El [->|[-> Hn]]; [|contradiction]. destruct fuel as [|k]; [lia|].
    rewrite (loop_head k r rest m) by (auto; cbn [length] in Hc; lia).
    assert (Hbuf : pre ++ fencode (Chg r :: rest) ++ post = pre ++ fencode_rec (Chg r) ++ (fencode rest ++ post))
      by (rewrite fencode_cons, <- app_assoc; reflexivity).
    rewrite <- (app_nil_r (lk ++ _)). eapply bind_ok_eq.
    { rewrite (parse_one r rest m) by auto. eapply bind_ok_eq with (o2 := [ONow _]); [rewrite Hbuf; apply Hpath|]. reflexivity. }
    cbn [set_ec]. cbv beta iota. destruct (Z.eqb_spec err 0); [contradiction|]. reflexivity.
  Qed.

  Lemma goes_one m r rest tr lk p :
    frec_ok r -> Forall fan_ok rest -> fits m (Chg r :: rest) -> ~ pairs r rest m ->
    (forall pre more, fa_pathof s (pre ++ fencode_rec (Chg r) ++ more) (N.of_nat (length pre)) tr = (lk, Ok (p, None))) ->
    exists t om, Forall no_read om /\
      (if match f_effect r, f_ptype r with EtCreate, PtDir => true | _, _ => false end then only_unwatched p (shown om) else shown om = []) /\
      forall o res, goes m rest (tr ++ lk ++ [ONow t] ++ om ++ [OCallback (Ev p (f_effect r) (f_ptype r) t None)]) o res ->
        goes m (Chg r :: rest) tr (lk ++ [ONow t] ++ om ++ [OCallback (Ev p (f_effect r) (f_ptype r) t None)] ++ o) res.
  Proof.
    intros Hr Hrest Hf Hnp Hpath. set (t := os_now s (tr ++ lk)). exists t.
    destruct (mark_newdir (Ev p (f_effect r) (f_ptype r) t None) p (f_effect r) (f_ptype r) (tr ++ lk ++ [ONow t]) eq_refl) as (om & rm & Em & Hnr & Hsh).
    exists om. split; [exact Hnr|]. split; [exact Hsh|].
    intros o res IH fuel c pre post mtd rlen Hfu Hc Hp El [->|[-> Hn]]; [|contradiction]. destruct fuel as [|k]; [lia|]. cbn [length] in Hfu, Hc.
    rewrite (loop_head k r rest m) by (auto; lia).
    assert (Hbuf : pre ++ fencode (Chg r :: rest) ++ post = pre ++ fencode_rec (Chg r) ++ (fencode rest ++ post))
      by (rewrite fencode_cons, <- app_assoc; reflexivity).
    replace (lk ++ [ONow t] ++ om ++ [OCallback (Ev p (f_effect r) (f_ptype r) t None)] ++ o)
      with ((lk ++ [ONow t]) ++ om ++ [OCallback (Ev p (f_effect r) (f_ptype r) t None)] ++ o) by (rewrite <- app_assoc; reflexivity).
    eapply bind_ok_eq.
    { rewrite (parse_one r rest m) by auto. eapply bind_ok_eq with (o2 := [ONow t]); [rewrite Hbuf; apply Hpath|]. reflexivity. }
    cbn [set_ec]. cbn [Z.eqb negb]. eapply bind_ok_eq.
    { rewrite <- Em. f_equal. }
    eapply bind_ok_eq; [reflexivity|].
    rewrite Hbuf, app_assoc.
    replace (((tr ++ lk ++ [ONow t]) ++ om) ++ [OCallback (Ev p (f_effect r) (f_ptype r) t None)])
      with (tr ++ lk ++ [ONow t] ++ om ++ [OCallback (Ev p (f_effect r) (f_ptype r) t None)]) by (rewrite <- !app_assoc; reflexivity).
    apply IH; try lia.
    - rewrite El, fencode_len. lia.
    - rewrite app_length. apply fpos_mtd.
  Qed.

  (** Two records looked up one after the other, [x] first. *)
  Definition look2 (x y : frec) (tr : trace) (o : trace) (p q : text) (err : Z) : Prop :=
    exists o1 o2 x1 x2 t1, o = o1 ++ [ONow t1] ++ o2 /\ t1 = os_now s (tr ++ o1) /\ err = set_ec (set_ec 0 x1) x2 /\
      (forall pre more, fa_pathof s (pre ++ fencode_rec (Chg x) ++ more) (N.of_nat (length pre)) tr = (o1, Ok (p, x1))) /\
      (forall pre more, fa_pathof s (pre ++ fencode_rec (Chg y) ++ more) (N.of_nat (length pre)) (tr ++ o1 ++ [ONow t1]) = (o2, Ok (q, x2))).

  Lemma look2_run x y tr : frec_ok x -> frec_ok y ->
    exists o p q err, look2 x y tr o p q err /\ shown o = [] /\ Forall no_read o /\
      (err = 0%Z /\ named s x p /\ named s y q \/ err <> 0%Z /\ (unnamed s x \/ unnamed s y)).
  Proof.
    intros Hx Hy. destruct (pathof_rec s x tr Hs Hx) as [(fd1 & e1 & _ & He1 & Hu1 & E1)|(fd1 & e1 & d1 & p1 & Hn1 & E1)].
    - set (o1 := [OOpenHandle (handle_of x) fd1 e1]) in *. set (t1 := os_now s (tr ++ o1)).
      destruct (pathof_rec s y (tr ++ o1 ++ [ONow t1]) Hs Hy) as [(fd2 & e2 & _ & He2 & Hu2 & E2)|(fd2 & e2 & d2 & p2 & Hn2 & E2)].
      + do 4 eexists. split; [exists o1; do 4 eexists; split; [reflexivity|]; split; [reflexivity|]; split; [reflexivity|]; split; [exact E1|exact E2]|].
        split; [reflexivity|]. split; [repeat constructor|]. right. split; [exact He2|auto].
      + do 4 eexists. split; [exists o1; do 4 eexists; split; [reflexivity|]; split; [reflexivity|]; split; [reflexivity|]; split; [exact E1|exact E2]|].
        split; [reflexivity|]. split; [repeat constructor|]. right. split; [exact He1|auto].
    - set (o1 := [OOpenHandle (handle_of x) fd1 e1; OReadlink fd1 (Some d1); OClose fd1]) in *. set (t1 := os_now s (tr ++ o1)).
      destruct (pathof_rec s y (tr ++ o1 ++ [ONow t1]) Hs Hy) as [(fd2 & e2 & _ & He2 & Hu2 & E2)|(fd2 & e2 & d2 & p2 & Hn2 & E2)].
      + do 4 eexists. split; [exists o1; do 4 eexists; split; [reflexivity|]; split; [reflexivity|]; split; [reflexivity|]; split; [exact E1|exact E2]|].
        split; [reflexivity|]. split; [repeat constructor|]. right. split; [exact He2|auto].
      + do 4 eexists. split; [exists o1; do 4 eexists; split; [reflexivity|]; split; [reflexivity|]; split; [reflexivity|]; split; [exact E1|exact E2]|].
        split; [reflexivity|]. split; [repeat constructor|]. left. cbn [set_ec]. auto.
  Qed.

  Lemma goes_pair m r n rest tr lk p q err :
    frec_ok r -> frec_ok n -> Forall fan_ok rest -> fits m (Chg r :: Chg n :: rest) -> fits m (Chg n :: rest) ->
    f_moves r = true ->
    has FFrom r = true -> has FTo n = true -> look2 r n tr lk p q err ->
    exists t2 t3, let ev := Ev p EtRename (f_ptype r) t3 (Some (Ev q EtRename (f_ptype r) t2 None)) in
      (err <> 0%Z -> goes m (Chg r :: Chg n :: rest) tr (lk ++ [ONow t2; ONow t3]) r_w_sys_bad_fd) /\
      (err = 0%Z -> forall o res, goes m rest (tr ++ lk ++ [ONow t2; ONow t3; OCallback ev]) o res ->
        goes m (Chg r :: Chg n :: rest) tr (lk ++ [ONow t2; ONow t3; OCallback ev] ++ o) res).
  Proof.
    intros Hr Hn Hrest Hf Hf2 Hm H1 H2 (o1 & o2 & x1 & x2 & t1 & -> & Ht1 & Eerr & E1 & E2).
    set (t2 := os_now s ((tr ++ o1 ++ [ONow t1]) ++ o2)). set (t3 := os_now s (((tr ++ o1 ++ [ONow t1]) ++ o2) ++ [ONow t2])).
    exists t2, t3. cbv zeta.
    set (ev := Ev p EtRename (f_ptype r) t3 (Some (Ev q EtRename (f_ptype r) t2 None))).
    assert (Hparse : forall pre post rlen, (4 <= length post)%nat ->
      rlen = (Z.of_nat (length (fencode (Chg r :: Chg n :: rest))) - Z.of_nat m)%Z ->
      exists nn, (nn = Some (N.of_nat (length ((pre ++ fencode_rec (Chg r)) ++ fencode_rec (Chg n)))) \/ nn = None /\ ~ fits m rest) /\
      fa_parse s (pre ++ fencode (Chg r :: Chg n :: rest) ++ post) (N.of_nat (length pre)) rlen 0 tr =
      ((o1 ++ [ONow t1] ++ o2) ++ [ONow t2; ONow t3], Ok (ev, nn, (Z.of_nat (flen (Chg r)) + Z.of_nat (flen (Chg n)))%Z, err))).
    { intros pre post rlen Hp El.
      destruct (parse_two r n rest m rlen tr pre post Hr Hn Hrest El Hf2 Hm Hp) as [Hpar _].
      destruct (Hpar H1 H2) as (nn & Hnn & Epar). exists nn. split; [exact Hnn|]. rewrite Epar.
      assert (Hbuf : pre ++ fencode (Chg r :: Chg n :: rest) ++ post = pre ++ fencode_rec (Chg r) ++ (fencode (Chg n :: rest) ++ post))
        by (rewrite fencode_cons, <- app_assoc; reflexivity).
      assert (Hbuf2 : pre ++ fencode (Chg r :: Chg n :: rest) ++ post = (pre ++ fencode_rec (Chg r)) ++ fencode_rec (Chg n) ++ (fencode rest ++ post))
        by (rewrite Hbuf, fencode_cons, <- !app_assoc; reflexivity).
      replace ((o1 ++ [ONow t1] ++ o2) ++ [ONow t2; ONow t3]) with (o1 ++ [ONow t1] ++ o2 ++ [ONow t2] ++ [ONow t3]) by (rewrite <- !app_assoc; reflexivity).
      eapply bind_ok_eq; [rewrite Hbuf; apply E1|].
      eapply bind_ok_eq; [unfold new_event; rewrite Ht1; reflexivity|]. rewrite <- Ht1, <- (app_assoc tr).
      eapply bind_ok_eq; [rewrite Hbuf2; apply E2|].
      eapply bind_ok_eq; [reflexivity|]. change [ONow t3] with ([ONow t3] ++ []). eapply bind_ok_eq; [reflexivity|].
      unfold ret. rewrite Eerr. reflexivity. }
    split.
    - intros He fuel c pre post mtd rlen Hfu Hc Hp El [->|[-> ?]]; [|contradiction]. destruct fuel as [|k]; [lia|]. cbn [length] in Hfu, Hc.
      rewrite (loop_head k r (Chg n :: rest) m) by (auto; lia || (constructor; assumption)).
      destruct (Hparse pre post rlen Hp El) as (nn & _ & Epar).
      rewrite <- (app_nil_r (_ ++ [ONow t2; ONow t3])). eapply bind_ok_eq; [exact Epar|].
      cbv beta iota. destruct (Z.eqb_spec err 0); [contradiction|]. reflexivity.
    - intros He o res IH fuel c pre post mtd rlen Hfu Hc Hp El [->|[-> ?]]; [|contradiction]. destruct fuel as [|k]; [lia|]. cbn [length] in Hfu, Hc.
      rewrite (loop_head k r (Chg n :: rest) m) by (auto; lia || (constructor; assumption)).
      destruct (Hparse pre post rlen Hp El) as (nn & Hnn & Epar).
      replace ((o1 ++ [ONow t1] ++ o2) ++ [ONow t2; ONow t3; OCallback ev] ++ o)
        with (((o1 ++ [ONow t1] ++ o2) ++ [ONow t2; ONow t3]) ++ [] ++ [OCallback ev] ++ o) by (rewrite <- !app_assoc; reflexivity).
      eapply bind_ok_eq; [exact Epar|]. cbv beta iota. destruct (Z.eqb_spec err 0); [|contradiction]. cbn [negb].
      eapply bind_ok_eq; [reflexivity|]. eapply bind_ok_eq; [reflexivity|].
      rewrite app_nil_r.
      replace ((tr ++ (o1 ++ [ONow t1] ++ o2) ++ [ONow t2; ONow t3]) ++ [OCallback ev])
        with (tr ++ (o1 ++ [ONow t1] ++ o2) ++ [ONow t2; ONow t3; OCallback ev]) by (rewrite <- !app_assoc; reflexivity).
      replace (pre ++ fencode (Chg r :: Chg n :: rest) ++ post) with (((pre ++ fencode_rec (Chg r)) ++ fencode_rec (Chg n)) ++ fencode rest ++ post)
        by (rewrite !fencode_cons, <- !app_assoc; reflexivity).
      apply IH; try lia; [|exact Hnn]. rewrite El, !fencode_len. lia.
  Qed.

  Lemma goes_swap m r n rest tr lk p q err :
    frec_ok r -> frec_ok n -> Forall fan_ok rest -> fits m (Chg r :: Chg n :: rest) -> fits m (Chg n :: rest) ->
    f_moves r = true ->
    has FFrom r && has FTo n = false -> has FTo r = true -> has FFrom n = true -> look2 n r tr lk p q err ->
    exists t2 t3, let ev := Ev p EtRename (f_ptype r) t3 (Some (Ev q EtRename (f_ptype r) t2 None)) in
      (err <> 0%Z -> goes m (Chg r :: Chg n :: rest) tr (lk ++ [ONow t2; ONow t3]) r_w_sys_bad_fd) /\
      (err = 0%Z -> forall o res, goes (m + length (fencode_rec (Chg n))) (Chg n :: rest) (tr ++ lk ++ [ONow t2; ONow t3; OCallback ev]) o res ->
        goes m (Chg r :: Chg n :: rest) tr (lk ++ [ONow t2; ONow t3; OCallback ev] ++ o) res).
  Proof.
    intros Hr Hn Hrest Hf Hf2 Hm H0 H1 H2 (o1 & o2 & x1 & x2 & t1 & -> & Ht1 & Eerr & E1 & E2).
    set (t2 := os_now s ((tr ++ o1 ++ [ONow t1]) ++ o2)). set (t3 := os_now s (((tr ++ o1 ++ [ONow t1]) ++ o2) ++ [ONow t2])).
    exists t2, t3. cbv zeta.
    set (ev := Ev p EtRename (f_ptype r) t3 (Some (Ev q EtRename (f_ptype r) t2 None))).
    assert (Hparse : forall pre post rlen, (4 <= length post)%nat ->
      rlen = (Z.of_nat (length (fencode (Chg r :: Chg n :: rest))) - Z.of_nat m)%Z ->
      fa_parse s (pre ++ fencode (Chg r :: Chg n :: rest) ++ post) (N.of_nat (length pre)) rlen 0 tr =
      ((o1 ++ [ONow t1] ++ o2) ++ [ONow t2; ONow t3], Ok (ev, Some (N.of_nat (length (pre ++ fencode_rec (Chg r)))), (Z.of_nat (flen (Chg n)) + Z.of_nat (flen (Chg r)))%Z, err))).
    { intros pre post rlen Hp El.
      destruct (parse_two r n rest m rlen tr pre post Hr Hn Hrest El Hf2 Hm Hp) as [_ Hpar].
      rewrite (Hpar H0 H1 H2).
      assert (Hbuf : pre ++ fencode (Chg r :: Chg n :: rest) ++ post = pre ++ fencode_rec (Chg r) ++ (fencode (Chg n :: rest) ++ post))
        by (rewrite fencode_cons, <- app_assoc; reflexivity).
      assert (Hbuf2 : pre ++ fencode (Chg r :: Chg n :: rest) ++ post = (pre ++ fencode_rec (Chg r)) ++ fencode_rec (Chg n) ++ (fencode rest ++ post))
        by (rewrite Hbuf, fencode_cons, <- !app_assoc; reflexivity).
      replace ((o1 ++ [ONow t1] ++ o2) ++ [ONow t2; ONow t3]) with (o1 ++ [ONow t1] ++ o2 ++ [ONow t2] ++ [ONow t3]) by (rewrite <- !app_assoc; reflexivity).
      eapply bind_ok_eq; [rewrite Hbuf2; apply E1|].
      eapply bind_ok_eq; [unfold new_event; rewrite Ht1; reflexivity|]. rewrite <- Ht1, <- (app_assoc tr).
      eapply bind_ok_eq; [rewrite Hbuf; apply E2|].
      eapply bind_ok_eq; [reflexivity|]. change [ONow t3] with ([ONow t3] ++ []). eapply bind_ok_eq; [reflexivity|].
      unfold ret. rewrite Eerr. reflexivity. }
    split.
    - intros He fuel c pre post mtd rlen Hfu Hc Hp El [->|[-> ?]]; [|contradiction]. destruct fuel as [|k]; [lia|]. cbn [length] in Hfu, Hc.
      rewrite (loop_head k r (Chg n :: rest) m) by (auto; lia || (constructor; assumption)).
      rewrite <- (app_nil_r (_ ++ [ONow t2; ONow t3])). eapply bind_ok_eq; [exact (Hparse pre post rlen Hp El)|].
      cbv beta iota. destruct (Z.eqb_spec err 0); [contradiction|]. reflexivity.
    - intros He o res IH fuel c pre post mtd rlen Hfu Hc Hp El [->|[-> ?]]; [|contradiction]. destruct fuel as [|k]; [lia|]. cbn [length] in Hfu, Hc.
      rewrite (loop_head k r (Chg n :: rest) m) by (auto; lia || (constructor; assumption)).
      replace ((o1 ++ [ONow t1] ++ o2) ++ [ONow t2; ONow t3; OCallback ev] ++ o)
        with (((o1 ++ [ONow t1] ++ o2) ++ [ONow t2; ONow t3]) ++ [] ++ [OCallback ev] ++ o) by (rewrite <- !app_assoc; reflexivity).
      eapply bind_ok_eq; [exact (Hparse pre post rlen Hp El)|]. cbv beta iota. destruct (Z.eqb_spec err 0); [|contradiction]. cbn [negb].
      eapply bind_ok_eq; [reflexivity|]. eapply bind_ok_eq; [reflexivity|].
      rewrite app_nil_r.
      replace ((tr ++ (o1 ++ [ONow t1] ++ o2) ++ [ONow t2; ONow t3]) ++ [OCallback ev])
        with (tr ++ (o1 ++ [ONow t1] ++ o2) ++ [ONow t2; ONow t3; OCallback ev]) by (rewrite <- !app_assoc; reflexivity).
      replace (pre ++ fencode (Chg r :: Chg n :: rest) ++ post) with ((pre ++ fencode_rec (Chg r)) ++ fencode (Chg n :: rest) ++ post)
        by (rewrite !fencode_cons, <- !app_assoc; reflexivity).
      apply IH; try lia; [cbn [length]; lia|cbn [length]; lia| |auto]. rewrite El, !fencode_len. fold (flen (Chg n)). lia.
  Qed.

  Lemma shown_lookup1 h a e : shown [OOpenHandle h a e] = [].
  Proof. reflexivity. Qed.

  Lemma pairs_dec r rest m : {pairs r rest m} + {~ pairs r rest m}.
  Proof.
    destruct rest as [|[n|] rest]; [right; intros (n & rs & [=] & _)| |right; intros (n & rs & [=] & _)].
    destruct (fits_dec m (Chg n :: rest)) as [Hf|Hf]; [|right; intros (n' & rs & [= <- <-] & H & _); contradiction].
    destruct (f_moves r) eqn:Hm; [|right; intros (n' & rs & _ & _ & H & _); congruence].
    destruct (has FFrom r && has FTo n) eqn:E1.
    { left. apply andb_prop in E1 as [? ?]. exists n, rest. auto 10. }
    destruct (has FTo r && has FFrom n) eqn:E2.
    { left. apply andb_prop in E2 as [? ?]. exists n, rest. auto 10. }
    right. intros (n' & rs & [= <- <-] & _ & _ & [[H1 H2]|[H1 H2]]); [rewrite H1, H2 in E1|rewrite H1, H2 in E2]; discriminate.
  Qed.

  Lemma loop_batch : forall rs m tr, Forall fan_ok rs ->
    exists o e, fbatch s m rs (shown o) e /\ Forall no_read o /\ goes m rs tr o (result_of e).
  Proof.
    intros rs. remember (length rs) as len eqn:El. revert rs El.
    induction len as [len IH] using lt_wf_ind. intros rs El m tr Hok. subst len.
    destruct (fits_dec m rs) as [Hf|Hf].
    2:{ exists [], FAll. split; [now apply FStop|]. split; [constructor|]. now apply goes_stop. }
    destruct rs as [|[r|] rest]; [destruct Hf| |].
    2:{ exists [], FOverflow. split; [now apply FOvf|]. split; [constructor|]. apply goes_ovf; [inversion Hok; auto|exact Hf]. }
    assert (Hr : frec_ok r) by (inversion Hok; auto). assert (Hrest : Forall fan_ok rest) by (inversion Hok; auto).
    destruct (pairs_dec r rest m) as [Hp|Hp].
    - pose proof Hp as (n & rest' & -> & Hf2 & Hm & Hft).
      assert (Hn : frec_ok n) by (inversion Hrest; auto). assert (Hrest' : Forall fan_ok rest') by (inversion Hrest; auto).
      destruct (has FFrom r && has FTo n) eqn:Eft.
      + apply andb_prop in Eft as [H1 H2].
        destruct (look2_run r n tr Hr Hn) as (lk & p & q & err & Hl & Hsh & Hnr & He).
        destruct (goes_pair m r n rest' tr lk p q err Hr Hn Hrest' Hf Hf2 Hm H1 H2 Hl) as (t2 & t3 & Hbad & Hgood). cbv zeta in *.
        destruct He as [(-> & Np & Nq)|(He & Hun)].
        * set (ev := Ev p EtRename (f_ptype r) t3 (Some (Ev q EtRename (f_ptype r) t2 None))) in *.
          destruct (IH (length rest') ltac:(cbn; lia) rest' eq_refl m (tr ++ lk ++ [ONow t2; ONow t3; OCallback ev]) Hrest') as (o & e & Hb & Ho & Hg).
          exists (lk ++ [ONow t2; ONow t3; OCallback ev] ++ o), e. split; [|split].
          -- rewrite !shown_app, Hsh. change (shown [ONow t2; ONow t3; OCallback ev]) with [shape_of ev]. unfold ev. cbn [shape_of app].
             apply FPair; auto.
          -- apply Forall_app. split; [exact Hnr|]. apply Forall_app. split; [repeat constructor|exact Ho].
          -- apply Hgood; auto.
        * exists (lk ++ [ONow t2; ONow t3]), FBadHandle. split; [|split].
          -- rewrite shown_app, Hsh. cbn. destruct Hun as [Hun|Hun]; [now apply FUnnamed|now apply FUnnamed2].
          -- apply Forall_app. split; [exact Hnr|repeat constructor].
          -- apply Hbad. exact He.
      + assert (Hft' : has FTo r = true /\ has FFrom n = true).
        { destruct Hft as [[H1 H2]|H]; [rewrite H1, H2 in Eft; discriminate|exact H]. }
        destruct Hft' as [H1 H2].
        destruct (look2_run n r tr Hn Hr) as (lk & p & q & err & Hl & Hsh & Hnr & He).
        destruct (goes_swap m r n rest' tr lk p q err Hr Hn Hrest' Hf Hf2 Hm Eft H1 H2 Hl) as (t2 & t3 & Hbad & Hgood). cbv zeta in *.
        destruct He as [(-> & Np & Nq)|(He & Hun)].
        * set (ev := Ev p EtRename (f_ptype r) t3 (Some (Ev q EtRename (f_ptype r) t2 None))) in *.
          destruct (IH (length (Chg n :: rest')) ltac:(cbn; lia) (Chg n :: rest') eq_refl (m + length (fencode_rec (Chg n)))%nat
            (tr ++ lk ++ [ONow t2; ONow t3; OCallback ev]) Hrest) as (o & e & Hb & Ho & Hg).
          exists (lk ++ [ONow t2; ONow t3; OCallback ev] ++ o), e. split; [|split].
          -- rewrite !shown_app, Hsh. change (shown [ONow t2; ONow t3; OCallback ev]) with [shape_of ev]. unfold ev. cbn [shape_of app].
             apply FSwap; auto. intros [H3 H4]. rewrite H3, H4 in Eft. discriminate.
          -- apply Forall_app. split; [exact Hnr|]. apply Forall_app. split; [repeat constructor|exact Ho].
          -- apply Hgood; auto.
        * exists (lk ++ [ONow t2; ONow t3]), FBadHandle. split; [|split].
          -- rewrite shown_app, Hsh. cbn. destruct Hun as [Hun|Hun]; [now apply FUnnamed2|now apply FUnnamed].
          -- apply Forall_app. split; [exact Hnr|repeat constructor].
          -- apply Hbad. exact He.
    - destruct (pathof_rec s r tr Hs Hr) as [(fd1 & e1 & _ & He1 & Hu1 & E1)|(fd1 & e1 & d1 & p & Hn1 & E1)].
      + destruct (goes_one_bad m r rest tr _ e1 Hr Hrest Hf Hp He1 E1) as (t & Hg).
        eexists _, FBadHandle. split; [|split; [|exact Hg]]; [|repeat constructor].
        now apply FUnnamed.
      + set (lk := [OOpenHandle (handle_of r) fd1 e1; OReadlink fd1 (Some d1); OClose fd1]) in *.
        destruct (goes_one m r rest tr lk p Hr Hrest Hf Hp E1) as (t & om & Hnr & Hsh & Hg).
        set (ev := Ev p (f_effect r) (f_ptype r) t None) in *.
        destruct (IH (length rest) ltac:(cbn; lia) rest eq_refl m (tr ++ lk ++ [ONow t] ++ om ++ [OCallback ev]) Hrest) as (o & e & Hb & Ho & Hg').
        exists (lk ++ [ONow t] ++ om ++ [OCallback ev] ++ o), e. split; [|split].
        * rewrite !shown_app. change (shown lk) with (@nil shape). change (shown [ONow t]) with (@nil shape).
          change (shown [OCallback ev]) with [Sh p (f_effect r) (f_ptype r) None]. cbn [app].
          apply FOne; auto.
        * unfold lk. repeat (constructor; [exact I|]). apply Forall_app. split; [exact Hnr|]. constructor; [exact I|exact Ho].
        * apply Hg. exact Hg'.
  Qed.
End Loop.

(** One receive: any rest of earlier batches in the buffer. *)
Lemma fa_recv_batch s ke tr rs : handles_ok s -> fbatch_ok rs -> rs <> [] ->
  rd_len (os_read s tr (kfa_fd ke) 4096) = Z.of_nat (length (fencode rs)) ->
  rd_bytes (os_read s tr (kfa_fd ke) 4096) = fencode rs ->
  length (kfa_buf ke) = N.to_nat 4096 ->
  exists o e, fbatch s 0 rs (shown o) e /\ Forall no_read o /\
    forall buf, length buf = N.to_nat 4096 ->
    exists buf', fa_recv s {| kfa_fd := kfa_fd ke; kfa_buf := buf |} tr =
      (ORead (kfa_fd ke) (os_read s tr (kfa_fd ke) 4096) :: o, Ok (result_of e, {| kfa_fd := kfa_fd ke; kfa_buf := buf' |})) /\
      length buf' = N.to_nat 4096.
Proof.
  intros Hs [Hok Hsz] Hne Hl Hb Hbuf.
  set (rd := os_read s tr (kfa_fd ke) 4096) in *. set (tr1 := tr ++ [ORead (kfa_fd ke) rd]).
  destruct (loop_batch s Hs (kfa_fd ke) rs 0 tr1 Hok) as (o & e & Hfb & Hnr & Hg).
  exists o, e. split; [exact Hfb|]. split; [exact Hnr|]. intros buf Hlb.
  assert (Hpos : (24 <= length (fencode rs))%nat).
  { destruct rs as [|x rs]; [contradiction|]. inversion Hok; subst. pose proof (flen_ge x H1). rewrite fencode_len. lia. }
  assert (Eov : overwrite buf (firstn (Z.to_nat (rd_len rd)) (rd_bytes rd)) = fencode rs ++ skipn (length (fencode rs)) buf).
  { rewrite Hl, Hb, Nat2Z.id, firstn_all. reflexivity. }
  exists (fencode rs ++ skipn (length (fencode rs)) buf). split.
  - unfold fa_recv. change fa_buf_len with 4096%N. cbn [kfa_fd kfa_buf].
    change (ORead (kfa_fd ke) rd :: o) with ([ORead (kfa_fd ke) rd] ++ o).
    eapply bind_ok_eq; [reflexivity|]. cbv zeta. fold rd. rewrite Eov.
    destruct (Z.leb_spec (rd_len rd) 0); [lia|]. cbn [andb]. destruct (Z.ltb_spec (rd_len rd) 0); [lia|].
    rewrite <- (app_nil_r o). eapply bind_ok_eq; [|reflexivity].
    change (fencode rs ++ skipn (length (fencode rs)) buf) with ([] ++ fencode rs ++ skipn (length (fencode rs)) buf).
    pose proof (fencode_count rs Hok) as Hcnt.
    apply (Hg (N.to_nat 180) 0%N [] (skipn (length (fencode rs)) buf) (Some 0%N) (rd_len rd)).
    + lia.
    + lia.
    + rewrite skipn_length, Hlb. destruct (fencode_align rs Hok) as (k & Hk). lia.
    + lia.
    + left. reflexivity.
  - rewrite app_length, skipn_length, Hlb. lia.
Qed.

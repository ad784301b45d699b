(** Proofs about the inotify adapter: the byte-level loop against the list of
    kernel records, and that list against the specification. *)
From Verif Require Import Base PathModel EventModel Sys SysFacts LinuxModel InotifyModel InotifySpec.

Local Arguments N.add : simpl never.
Local Arguments N.mul : simpl never.
Local Arguments Z.of_N : simpl never.

Definition map_out {A B} (f : A -> B) (r : out A) : out B :=
  match r with Ok a => Ok (f a) | Undef u => Undef u | Crash => Crash | Fuel => Fuel end.

Definition is_overflow (k : kind) : bool := match k with KOverflow => true | _ => false end.
Definition is_del_self (k : kind) : bool := match k with KDeleteSelf => true | _ => false end.
Definition deleted (rs : list krec) : list Z :=
  map k_wd (filter (fun r => is_del_self (k_kind r)) rs).

Definition is_from (k : kind) : bool := match k with KMovedFrom => true | _ => false end.
Definition is_to (k : kind) : bool := match k with KMovedTo => true | _ => false end.
Definition pairb (r n : krec) : bool :=
  is_from (k_kind r) && is_to (k_kind n) && (k_cookie n =? k_cookie r)%N && negb (k_cookie r =? 0)%N.

Lemma pairb_spec r n : pairb r n = true <-> rename_pair r n.
Proof.
  unfold pairb, rename_pair. destruct (k_kind r), (k_kind n); cbn; split; intros H;
    try discriminate; try (destruct H as (? & ? & _); discriminate).
  - apply andb_prop in H as [H1 H2]. apply N.eqb_eq in H1.
    destruct (N.eqb_spec (k_cookie r) 0); [discriminate|]. auto.
  - destruct H as (_ & _ & H1 & H2). rewrite H1, N.eqb_refl.
    destruct (N.eqb_spec (k_cookie r) 0); [contradiction|reflexivity].
Qed.

(** ** Flags of a kernel mask *)
Ltac by_kind r := destruct r as [?wd kd dr ?ck ?nm ?pd]; cbn [k_wd k_kind k_dir k_cookie k_name k_pad];
                  destruct kd, dr; vm_compute; try reflexivity.

Lemma mask_isdir r : flag (k_mask r) IN_ISDIR = k_dir r.
Proof. unfold k_mask. by_kind r. Qed.
Lemma mask_create r : flag (k_mask r) IN_CREATE = match k_kind r with KCreate => true | _ => false end.
Proof. unfold k_mask. by_kind r. Qed.
Lemma mask_from r : flag (k_mask r) IN_MOVED_FROM = is_from (k_kind r).
Proof. unfold k_mask. by_kind r. Qed.
Lemma mask_to r : flag (k_mask r) IN_MOVED_TO = is_to (k_kind r).
Proof. unfold k_mask. by_kind r. Qed.
Lemma mask_overflow r : flag (k_mask r) IN_Q_OVERFLOW = is_overflow (k_kind r).
Proof. unfold k_mask. by_kind r. Qed.
Lemma mask_lost r : is_parity_lost (k_mask r) = is_del_self (k_kind r).
Proof. unfold k_mask. by_kind r. Qed.
Lemma mask_real r : is_real_event (k_mask r) = match effect_of (k_kind r) with Some _ => true | None => false end.
Proof. unfold k_mask. by_kind r. Qed.
Lemma mask_effect r f : effect_of (k_kind r) = Some f ->
  (if flag (k_mask r) IN_CREATE then EtCreate
   else if flag (k_mask r) IN_DELETE then EtDestroy
   else if flag (k_mask r) IN_MOVE then EtRename
   else if flag (k_mask r) IN_MODIFY then EtModify else EtOther) = f.
Proof. unfold k_mask. destruct r as [? kd dr ? ? ?]; cbn; destruct kd, dr; cbn; intros H; try discriminate;
  injection H as <-; reflexivity. Qed.
Lemma mask_bound r : (k_mask r < 256 ^ N.of_nat 4)%N.
Proof. unfold k_mask. by_kind r. Qed.

(** ** Reading one encoded record *)
Section Reading.
  Variables (pre post : text) (r : krec) (more : text).
  Hypothesis Hok : krec_ok r.
  Let buf := pre ++ encode_rec r ++ more.
  Let off := N.of_nat (length pre).

  Lemma enc_len : length (encode_rec r) = (16 + length (k_name r) + k_pad r)%nat.
  Proof. unfold encode_rec. rewrite !app_length, repeat_length, !le_bytes_len. lia. Qed.

  Lemma read_wd tr : in_wd buf off tr = ([], Ok (k_wd r)).
  Proof.
    unfold in_wd, buf, encode_rec. rewrite <- !app_assoc.
    erewrite bind_silent; [|apply word_at_mid; [apply le_bytes_len|unfold off; lia]].
    rewrite le_word_bytes by (apply of_i32_bound, Hok). rewrite to_of_i32 by apply Hok. reflexivity.
  Qed.

  Lemma read_mask tr : in_mask buf off tr = ([], Ok (k_mask r)).
  Proof.
    unfold in_mask, buf, encode_rec. rewrite <- !app_assoc.
    rewrite (app_assoc pre). erewrite word_at_mid.
    - rewrite le_word_bytes by apply mask_bound. reflexivity.
    - apply le_bytes_len.
    - rewrite app_length, le_bytes_len. unfold off. lia.
  Qed.

  Lemma read_cookie tr : in_cookie buf off tr = ([], Ok (k_cookie r)).
  Proof.
    unfold in_cookie, buf, encode_rec. rewrite <- !app_assoc.
    rewrite (app_assoc pre), (app_assoc (pre ++ _)). erewrite word_at_mid.
    - rewrite le_word_bytes; [reflexivity|]. destruct Hok.
      change (256 ^ N.of_nat 4)%N with 4294967296%N. lia.
    - apply le_bytes_len.
    - rewrite !app_length, !le_bytes_len. unfold off. lia.
  Qed.

  Lemma read_len tr : in_len buf off tr = ([], Ok (N.of_nat (length (k_name r) + k_pad r))).
  Proof.
    unfold in_len, buf, encode_rec. rewrite <- !app_assoc.
    rewrite (app_assoc pre), (app_assoc (pre ++ _)), (app_assoc ((pre ++ _) ++ _)). erewrite word_at_mid.
    - rewrite le_word_bytes; [reflexivity|]. destruct Hok.
      change (256 ^ N.of_nat 4)%N with 4294967296%N. lia.
    - apply le_bytes_len.
    - rewrite !app_length, !le_bytes_len. unfold off. lia.
  Qed.

  Lemma read_name tr : k_name r <> [] -> in_name buf off tr = ([], Ok (k_name r)).
  Proof.
    intros Hn. unfold in_name, buf, encode_rec. rewrite <- !app_assoc.
    destruct Hok as [_ _ _ Hnm Hpd _]. specialize (Hpd Hn).
    destruct (k_pad r) as [|pd]; [lia|]. cbn [repeat app].
    rewrite (app_assoc pre), (app_assoc (pre ++ _)), (app_assoc ((pre ++ _) ++ _)),
      (app_assoc (((pre ++ _) ++ _) ++ _)).
    apply c_string_mid.
    - revert Hnm. apply Forall_impl. cbv beta. tauto.
    - rewrite !app_length, !le_bytes_len. unfold off. lia.
  Qed.

  Lemma read_peek tail tr :
    in_peek buf off tail tr =
    ([], Ok (let next := (off + N.of_nat (length (encode_rec r)))%N in
             if (Z.of_N next <? tail)%Z then Some next else None)).
  Proof.
    unfold in_peek. erewrite bind_silent; [|apply read_len].
    rewrite enc_len.
    replace (off + N.of_nat (16 + length (k_name r) + k_pad r))%N
      with (off + 16 + N.of_nat (length (k_name r) + k_pad r))%N by lia. reflexivity.
  Qed.
End Reading.

Lemma encode_cons r rs : encode (r :: rs) = encode_rec r ++ encode rs.
Proof. reflexivity. Qed.

Lemma encode_rec_pos r : (16 <= length (encode_rec r))%nat.
Proof. unfold encode_rec. rewrite !app_length, !le_bytes_len. lia. Qed.

Lemma encode_len_ge rs : (16 * length rs <= length (encode rs))%nat.
Proof.
  induction rs as [|r rs IH]; [cbn; lia|]. rewrite encode_cons, app_length.
  pose proof (encode_rec_pos r). cbn [length]. lia.
Qed.

(** The next position as the code sees it. *)
Definition pos (off : N) (rs : list krec) : option N := match rs with [] => None | _ => Some off end.

Lemma peek_rec pre r rs post tail tr :
  krec_ok r ->
  tail = Z.of_nat (length pre + length (encode (r :: rs))) ->
  in_peek (pre ++ encode (r :: rs) ++ post) (N.of_nat (length pre)) tail tr =
  ([], Ok (pos (N.of_nat (length (pre ++ encode_rec r))) rs)).
Proof.
  intros Hok ->. rewrite encode_cons, <- app_assoc, read_peek by exact Hok. cbn zeta.
  rewrite app_length, app_length. do 2 f_equal.
  destruct rs as [|r2 rs]; cbn [pos].
  - cbn [encode flat_map length]. destruct (Z.ltb_spec (Z.of_N (N.of_nat (length pre) + N.of_nat (length (encode_rec r))))
      (Z.of_nat (length pre + (length (encode_rec r) + 0)))); [lia|reflexivity].
  - rewrite encode_cons, app_length. pose proof (encode_rec_pos r2).
    match goal with |- (if ?b then _ else _) = _ => destruct b eqn:Eb end; [f_equal; lia|lia].
Qed.

(** ** The loop on a list of records *)
Section Run.
  Variable s : os.

  Definition mk_event (d : text) (r : krec) (f : effect_type) (t : path_type) : M event :=
    new_event s (path_append d (k_name r)) f t.

  Definition show_pair (d : text) (a b : krec) (f : effect_type) (t : path_type) : M event :=
    ea <- mk_event d a f t ;; eb <- mk_event d b f t ;; new_pair s ea eb.

  (** The code's treatment of a record list (bytes, counters and the deferred
      removal taken away). *)
  Fixpoint recs_run (fd : Z) (dm : zmap text) (rs : list krec) : M (zmap text) :=
    match rs with
    | [] => ret dm
    | r :: rest =>
        match zfind (k_wd r) dm with
        | None => send_msg s r_w_sys_phantom [] ;;; recs_run fd dm rest
        | Some d =>
            if is_overflow (k_kind r)
            then send_msg s r_w_sys_q_overflow d ;;; recs_run fd dm rest
            else
              match effect_of (k_kind r) with
              | None => recs_run fd dm rest
              | Some f =>
                  let single :=
                    ev <- mk_event d r f (type_of r) ;;
                    dm1 <- (if k_dir r && match k_kind r with KCreate => true | _ => false end
                            then p <- in_mark s (ev_path ev) fd dm ;; ret (fst p)
                            else ret dm) ;;
                    callback ev ;;;
                    recs_run fd dm1 rest in
                  match rest with
                  | [] => single
                  | n :: rest' =>
                      if pairb r n
                      then ev <- show_pair d r n f (type_of r) ;; callback ev ;;; recs_run fd dm rest'
                      else if pairb n r
                      then ev <- show_pair d n r f (type_of r) ;; callback ev ;;; recs_run fd dm rest
                      else single
                  end
              end
        end
    end.

  (** [same m1 m2 f]: same observations, result mapped by [f]. *)
  Definition sim {A B} (f : A -> B) (m1 : M A) (m2 : M B) : Prop :=
    forall tr, m2 tr = (fst (m1 tr), map_out f (snd (m1 tr))).

  Lemma sim_bind {A B C D} (f : C -> D) (g : A -> B) (m1 : M A) (m2 : M B) (k1 : A -> M C) (k2 : B -> M D) :
    sim g m1 m2 -> (forall a, sim f (k1 a) (k2 (g a))) -> sim f (bind m1 k1) (bind m2 k2).
  Proof.
    intros Hm Hk tr. unfold bind. rewrite (Hm tr). destruct (m1 tr) as [o1 [a|u| |]]; cbn; try reflexivity.
    rewrite (Hk a (tr ++ o1)). destruct (k1 a (tr ++ o1)) as [o2 [c|u| |]]; reflexivity.
  Qed.

  Lemma sim_refl {A} (m : M A) : sim (fun x => x) m m.
  Proof. intros tr. destruct (m tr) as [o [a|u| |]]; reflexivity. Qed.

  Lemma sim_bind_same {A C D} (f : C -> D) (m : M A) (k1 : A -> M C) (k2 : A -> M D) :
    (forall a, sim f (k1 a) (k2 a)) -> sim f (bind m k1) (bind m k2).
  Proof. intros H. apply (sim_bind f (fun x => x)); [apply sim_refl|exact H]. Qed.

  Lemma sim_ret {A B} (f : A -> B) a : sim f (ret a) (ret (f a)).
  Proof. intros tr. reflexivity. Qed.

  (** A silent read in front does not matter. *)
  Lemma sim_pre {A B C} (f : A -> B) (m1 : M A) (rd : M C) (k : C -> M B) c :
    (forall tr, rd tr = ([], Ok c)) -> sim f m1 (k c) -> sim f m1 (bind rd k).
  Proof.
    intros Hr Hk tr. unfold bind. rewrite (Hr tr), app_nil_r, (Hk tr). reflexivity.
  Qed.
End Run.

Lemma path_append_entry d r : krec_ok r -> k_name r <> [] ->
  path_append d (k_name r) = entry d (k_name r).
Proof.
  intros Hok Hn. unfold path_append, entry.
  assert (is_absolute (k_name r) = false) as ->.
  { destruct Hok as [_ _ _ Hf _ _]. destruct (k_name r) as [|c nm]; [contradiction|].
    inversion Hf as [|? ? [_ Hc] _]; subst. cbn. unfold slash. now apply N.eqb_neq. }
  unfold has_filename. destruct d as [|c d]; [reflexivity|].
  unfold slash. destruct (last (c :: d) 0 =? 47)%N; reflexivity.
Qed.

Section Loop.
  Variable s : os.

  (** in_parse on an encoded record. *)
  Definition parse_list (d : text) (r : krec) (rest : list krec) (f : effect_type) (off : N)
      : M (event * option N) :=
    let after := (off + N.of_nat (length (encode_rec r)))%N in
    let single := ev <- mk_event s d r f (type_of r) ;; ret (ev, pos after rest) in
    match rest with
    | [] => single
    | n :: rest' =>
        if pairb r n
        then ev <- show_pair s d r n f (type_of r) ;;
             ret (ev, pos (after + N.of_nat (length (encode_rec n)))%N rest')
        else if pairb n r
        then ev <- show_pair s d n r f (type_of r) ;; ret (ev, pos after rest)
        else single
    end.

  Lemma effect_named r f : effect_of (k_kind r) = Some f -> names_entry (k_kind r) = true.
  Proof. destruct (k_kind r); cbn; congruence. Qed.

  Lemma in_parse_list d pre r rest post f tail tr :
    krec_ok r -> Forall krec_ok rest -> effect_of (k_kind r) = Some f ->
    tail = Z.of_nat (length pre + length (encode (r :: rest))) ->
    in_parse s d (pre ++ encode (r :: rest) ++ post) (N.of_nat (length pre)) tail tr =
    parse_list d r rest f (N.of_nat (length pre)) tr.
  Proof.
    intros Hr Hrest Hf Ht. unfold in_parse.
    assert (Hnr : k_name r <> []) by (apply Hr, (effect_named r f Hf)).
    assert (Henc : pre ++ encode (r :: rest) ++ post = pre ++ encode_rec r ++ (encode rest ++ post))
      by (rewrite encode_cons, <- app_assoc; reflexivity).
    erewrite bind_silent; [|rewrite Henc; apply read_mask; exact Hr].
    erewrite bind_silent; [|apply peek_rec; [exact Hr|exact Ht]].
    rewrite (mask_effect r f Hf), mask_isdir, !mask_from, !mask_to.
    change (if k_dir r then PtDir else PtFile) with (type_of r).
    assert (Hname : forall t, in_name (pre ++ encode (r :: rest) ++ post) (N.of_nat (length pre)) t = ([], Ok (k_name r))).
    { intros t. rewrite Henc. now apply read_name. }
    assert (Hsingle : forall (nx : option N) (t : trace),
      (ev <- (nm <- in_name (pre ++ encode (r :: rest) ++ post) (N.of_nat (length pre)) ;;
              new_event s (path_append d nm) f (type_of r)) ;; ret (ev, nx)) t =
      (ev <- mk_event s d r f (type_of r) ;; ret (ev, nx)) t).
    { intros nx t. rewrite bind_assoc. rewrite (bind_silent _ _ _ _ (Hname t)). reflexivity. }
    destruct rest as [|n rest']; cbn [pos].
    - unfold parse_list. apply Hsingle.
    - assert (Hn : krec_ok n) by (inversion Hrest; auto).
      set (buf := pre ++ encode (r :: n :: rest') ++ post) in *.
      assert (Hbuf2 : buf = (pre ++ encode_rec r) ++ encode_rec n ++ (encode rest' ++ post)).
      { unfold buf. rewrite !encode_cons, <- !app_assoc. reflexivity. }
      erewrite bind_silent; [|rewrite Hbuf2; apply read_cookie; exact Hn].
      erewrite bind_silent; [|rewrite Henc; apply read_cookie; exact Hr].
      assert (Hlen : N.of_nat (length (pre ++ encode_rec r)) = (N.of_nat (length pre) + N.of_nat (length (encode_rec r)))%N)
        by (rewrite app_length; lia).
      unfold parse_list. rewrite <- Hlen.
      destruct (negb (k_cookie n =? 0)%N && (k_cookie n =? k_cookie r)%N && match f with EtRename => true | _ => false end) eqn:Ec;
        cbn [negb].
      + apply andb_prop in Ec as [Ec Hren]. apply andb_prop in Ec as [Ec0 Ec1].
        apply N.eqb_eq in Ec1.
        assert (Ecr : (k_cookie r =? 0)%N = false).
        { rewrite <- Ec1. now destruct (k_cookie n =? 0)%N. }
        assert (Ecn : (k_cookie n =? 0)%N = false) by (rewrite Ec1; exact Ecr).
        erewrite bind_silent; [|rewrite Hbuf2; apply read_mask; exact Hn].
        rewrite mask_from, mask_to.
        assert (P1 : pairb r n = is_from (k_kind r) && is_to (k_kind n)).
        { unfold pairb. rewrite Ec1, N.eqb_refl, Ecr. cbn. now rewrite !andb_true_r. }
        assert (P2 : pairb n r = is_from (k_kind n) && is_to (k_kind r)).
        { unfold pairb. rewrite <- Ec1, N.eqb_refl, Ecn. cbn. now rewrite !andb_true_r. }
        rewrite P1, P2.
        destruct (is_from (k_kind r) && is_to (k_kind n)) eqn:E1.
        { assert (Hnn : k_name n <> []).
          { apply Hn. apply andb_prop in E1 as [_ E1]. destruct (k_kind n); cbn in E1; try discriminate. reflexivity. }
          unfold show_pair. rewrite !bind_assoc. rewrite (bind_silent _ _ _ _ (Hname tr)).
          apply bind_ext. intros ea oa _. rewrite !bind_assoc.
          erewrite bind_silent; [|rewrite Hbuf2; apply read_name; [exact Hn|exact Hnn]].
          apply bind_ext. intros eb ob _.
          apply bind_ext. intros ev oe _.
          assert (Hpk : forall t, in_peek buf (N.of_nat (length (pre ++ encode_rec r))) tail t
            = ([], Ok (pos (N.of_nat (length ((pre ++ encode_rec r) ++ encode_rec n))) rest'))).
          { intros t. replace buf with ((pre ++ encode_rec r) ++ encode (n :: rest') ++ post).
            - apply peek_rec; [exact Hn|]. rewrite Ht, (encode_cons r), !app_length. lia.
            - rewrite Hbuf2, encode_cons, <- !app_assoc. reflexivity. }
          rewrite (bind_silent _ _ _ _ (Hpk _)).
          rewrite !app_length. unfold ret. do 5 f_equal. lia. }
        destruct (is_from (k_kind n) && is_to (k_kind r)) eqn:E2.
        { assert (Hnn : k_name n <> []).
          { apply Hn. apply andb_prop in E2 as [E2 _]. destruct (k_kind n); cbn in E2; try discriminate. reflexivity. }
          unfold show_pair. rewrite !bind_assoc.
          erewrite bind_silent; [|rewrite Hbuf2; apply read_name; [exact Hn|exact Hnn]].
          apply bind_ext. intros ea oa _. rewrite !bind_assoc.
          rewrite (bind_silent _ _ _ _ (Hname _)).
          apply bind_ext. intros eb ob _.
          apply bind_ext. intros ev oe _.
          erewrite bind_silent; [|apply peek_rec; [exact Hr|exact Ht]].
          cbn [pos]. reflexivity. }
        apply Hsingle.
      + assert (P : pairb r n = false /\ pairb n r = false).
        { unfold pairb. destruct (N.eqb_spec (k_cookie n) 0) as [E0|E0]; cbn in Ec.
          - rewrite E0. split.
            + destruct (N.eqb_spec 0 (k_cookie r)) as [<-|]; cbn; rewrite ?andb_false_r; reflexivity.
            + cbn. now rewrite andb_false_r.
          - destruct (N.eqb_spec (k_cookie n) (k_cookie r)) as [E1|E1]; cbn in Ec.
            + destruct (k_kind r); cbn in Hf; inversion Hf; subst f; try discriminate;
                cbn; rewrite ?andb_false_r; split; reflexivity.
            + destruct (N.eqb_spec (k_cookie r) (k_cookie n)); [congruence|].
              rewrite ?andb_false_r; cbn; rewrite ?andb_false_r; split; reflexivity. }
        destruct P as [-> ->]. apply Hsingle.
  Qed.

  Lemma lost_not_to r n : pairb r n = true -> is_del_self (k_kind n) = false /\ is_del_self (k_kind r) = false.
  Proof. unfold pairb. destruct (k_kind r), (k_kind n); cbn; try discriminate; auto. Qed.

  (** The byte-level loop does exactly what [recs_run] does, and collects the
      self-deleted descriptors. *)
  Lemma in_loop_recs fd : forall rs fuel pre post tail c dm rm,
    Forall krec_ok rs ->
    (length rs < fuel)%nat ->
    (c + N.of_nat (length rs) <= in_c_ulim + 1)%N ->
    (N.of_nat (length rm + length rs) <= in_buf_len)%N ->
    tail = Z.of_nat (length pre + length (encode rs)) ->
    sim (fun dm' => (r_pending, dm', rm ++ deleted rs))
      (recs_run s fd dm rs)
      (in_loop s fuel fd (pre ++ encode rs ++ post) tail (pos (N.of_nat (length pre)) rs) c dm rm).
  Proof.
    intros rs. remember (length rs) as len eqn:El. revert rs El.
    induction len as [len IH] using lt_wf_ind. intros rs El fuel pre post tail c dm rm Hok Hfuel Hc Hrm Ht.
    subst len. destruct fuel as [|k]; [lia|].
    destruct rs as [|r rest].
    { intros tr. cbn [recs_run pos in_loop ret fst snd map_out]. unfold deleted. cbn [filter map].
      rewrite (app_nil_r rm). reflexivity. }
    assert (Hr : krec_ok r) by (inversion Hok; auto).
    assert (Hrest : Forall krec_ok rest) by (inversion Hok; auto).
    set (buf := pre ++ encode (r :: rest) ++ post).
    assert (Hbuf1 : buf = pre ++ encode_rec r ++ (encode rest ++ post))
      by (unfold buf; rewrite encode_cons, <- app_assoc; reflexivity).
    assert (Hbuf2 : buf = (pre ++ encode_rec r) ++ encode rest ++ post)
      by (rewrite Hbuf1, <- app_assoc; reflexivity).
    assert (Hlt : (Z.of_N (N.of_nat (length pre)) <? tail)%Z = true).
    { rewrite Ht, encode_cons, app_length. pose proof (encode_rec_pos r). lia. }
    cbn [pos in_loop]. rewrite Hlt. cbn [negb].
    eapply sim_pre; [intros tr; apply peek_rec; [exact Hr|exact Ht]|].
    eapply sim_pre; [intros tr; fold buf; rewrite Hbuf1; apply read_mask; exact Hr|].
    eapply sim_pre; [intros tr; fold buf; rewrite Hbuf1; apply read_wd; exact Hr|].
    fold buf.
    cbn [length] in Hc, Hrm, Hfuel.
    destruct (N.ltb_spec in_c_ulim c) as [Hbad|_]; [lia|].
    rewrite mask_lost, mask_overflow, mask_real, mask_isdir, mask_create.
    destruct (N.ltb_spec (N.of_nat (length rm)) in_buf_len) as [_|Hbad]; [|lia].
    cbn [negb]. rewrite andb_false_r.
    set (rm1 := if is_del_self (k_kind r) then rm ++ [k_wd r] else rm).
    assert (Hdel : forall l, rm1 ++ deleted l = rm ++ deleted (r :: l)).
    { intros l. unfold rm1, deleted. cbn [filter map]. destruct (is_del_self (k_kind r)); cbn [map].
      - rewrite <- app_assoc. reflexivity.
      - reflexivity. }
    assert (Hrm1 : (length rm1 <= S (length rm))%nat).
    { unfold rm1. destruct (is_del_self (k_kind r)); rewrite ?app_length; cbn; lia. }
    (* going on with the rest *)
    assert (Hgo : forall dm', sim (fun dm'' => (r_pending, dm'', rm ++ deleted (r :: rest)))
              (recs_run s fd dm' rest)
              (in_loop s k fd buf tail (pos (N.of_nat (length (pre ++ encode_rec r))) rest) (c + 1) dm' rm1)).
    { intros dm'. rewrite <- Hdel. rewrite Hbuf2.
      apply (IH (length rest)); cbn [length]; try lia; auto.
      rewrite Ht, encode_cons, !app_length. lia. }
    cbn [recs_run].
    destruct (zfind (k_wd r) dm) as [d|] eqn:Ewd.
    2:{ apply sim_bind_same. intros _. apply Hgo. }
    destruct (is_overflow (k_kind r)) eqn:Eov.
    { apply sim_bind_same. intros _. apply Hgo. }
    destruct (effect_of (k_kind r)) as [f|] eqn:Ef; [|apply Hgo].
    (* a real event *)
    assert (Hparse : forall (A : Type) (K : event * option N -> M A) tr,
      bind (in_parse s d buf (N.of_nat (length pre)) tail) K tr =
      bind (parse_list d r rest f (N.of_nat (length pre))) K tr).
    { intros A K tr. unfold bind, buf. now rewrite (in_parse_list d pre r rest post f tail tr Hr Hrest Ef Ht). }
    assert (Hoff : (N.of_nat (length pre) + N.of_nat (length (encode_rec r)))%N = N.of_nat (length (pre ++ encode_rec r)))
      by (rewrite app_length; lia).
    assert (Hext : forall (A B : Type) (g : A -> B) (m1 : M A) (m2 m2' : M B),
      (forall tr, m2 tr = m2' tr) -> sim g m1 m2' -> sim g m1 m2).
    { intros A B g m1 m2 m2' He Hs tr. rewrite He. apply Hs. }
    eapply Hext; [intros tr; apply Hparse|].
    unfold parse_list. rewrite Hoff.
    set (isnew := k_dir r && match k_kind r with KCreate => true | _ => false end).
    set (cont := fun x : event * option N => match x with (ev, nx) =>
        bind (if isnew then bind (in_mark s (ev_path ev) fd dm) (fun p => ret (fst p)) else ret dm)
          (fun dm1 => bind (callback ev) (fun _ => in_loop s k fd buf tail nx (c + 1) dm1 rm1)) end).
    assert (Hsingle :
      sim (fun dm'' => (r_pending, dm'', rm ++ deleted (r :: rest)))
        (ev <- mk_event s d r f (type_of r) ;;
         dm1 <- (if isnew then p <- in_mark s (ev_path ev) fd dm ;; ret (fst p) else ret dm) ;;
         callback ev ;;; recs_run s fd dm1 rest)
        (bind (ev <- mk_event s d r f (type_of r) ;; ret (ev, pos (N.of_nat (length (pre ++ encode_rec r))) rest)) cont)).
    { eapply Hext; [intros tr; apply bind_assoc|].
      apply sim_bind_same. intros ev.
      eapply Hext; [intros tr; apply bind_ret|]. unfold cont.
      apply sim_bind_same. intros dm1. apply sim_bind_same. intros _. apply Hgo. }
    destruct rest as [|n rest'].
    { exact Hsingle. }
    assert (Hn : krec_ok n) by (inversion Hrest; auto).
    assert (Hrest' : Forall krec_ok rest') by (inversion Hrest; auto).
    destruct (pairb r n) eqn:Epair.
    { assert (Hnew : isnew = false).
      { unfold isnew, pairb in *. destruct (k_kind r); cbn in Epair; try discriminate. apply andb_false_r. }
      eapply Hext; [intros tr; apply bind_assoc|].
      apply sim_bind_same. intros ev.
      eapply Hext; [intros tr; apply bind_ret|]. unfold cont. rewrite Hnew.
      eapply Hext; [intros tr; apply bind_ret|].
      apply sim_bind_same. intros _.
      assert (Hd2 : rm ++ deleted (r :: n :: rest') = rm1 ++ deleted rest').
      { destruct (lost_not_to r n Epair) as [H1 H2]. unfold rm1, deleted. cbn [filter]. rewrite H1, H2. reflexivity. }
      rewrite Hd2.
      replace buf with (((pre ++ encode_rec r) ++ encode_rec n) ++ encode rest' ++ post)
        by (rewrite Hbuf2, encode_cons, <- !app_assoc; reflexivity).
      replace (N.of_nat (length (pre ++ encode_rec r)) + N.of_nat (length (encode_rec n)))%N
        with (N.of_nat (length ((pre ++ encode_rec r) ++ encode_rec n))) by (rewrite !app_length; lia).
      cbn [length] in *.
      apply (IH (length rest')); auto; try lia.
      rewrite Ht, !encode_cons, !app_length. lia. }
    destruct (pairb n r) eqn:Epair2.
    { assert (Hnew : isnew = false).
      { unfold isnew, pairb in *. destruct (k_kind r); rewrite ?andb_false_r in *; cbn in *;
          rewrite ?andb_false_r in *; try discriminate; reflexivity. }
      eapply Hext; [intros tr; apply bind_assoc|].
      apply sim_bind_same. intros ev.
      eapply Hext; [intros tr; apply bind_ret|]. unfold cont. rewrite Hnew.
      eapply Hext; [intros tr; apply bind_ret|].
      apply sim_bind_same. intros _. apply Hgo. }
    exact Hsingle.
  Qed.
End Loop.

(** ** The list of records against the specification *)
Lemma items_app a b : items (a ++ b) = items a ++ items b.
Proof.
  induction a as [|x a IH]; [reflexivity|]. cbn [app items].
  destruct x; rewrite ?IH; try reflexivity.
  destruct (0 <? wd)%Z; rewrite ?IH; reflexivity.
Qed.

Section Batch.
  Variable s : os.

  Lemma new_event_run p f t tr :
    exists n, new_event s p f t tr = ([ONow n], Ok (Ev p f t n None)).
  Proof. eexists. reflexivity. Qed.

  Lemma show_pair_run d a b f t tr :
    exists o n1 n2, show_pair s d a b f t tr =
      (o, Ok (Ev (path_append d (k_name a)) f t n2 (Some (Ev (path_append d (k_name b)) f t n1 None))))
      /\ items o = [].
  Proof. do 3 eexists. split; reflexivity. Qed.

  Lemma send_msg_run r p tr :
    exists o, send_msg s r p tr = (o, Ok tt) /\ items o = [Shown (Sh (to_str r ++ p) EtOther PtWatcher None)].
  Proof. eexists. split; reflexivity. Qed.

  Lemma in_mark_run p fd dm tr :
    exists o dm' r, in_mark s p fd dm tr = (o, Ok (dm', r)) /\
      forall known, (forall k, known k = zfind k dm) ->
      exists known', marks s known p (items o) known' /\ forall k, known' k = zfind k dm'.
  Proof.
    unfold in_mark, bind at 1. unfold realpath.
    destruct (os_realpath s tr p) as [real|] eqn:Ereal.
    2:{ destruct (send_msg_run r_w_sys_not_watched p (tr ++ [ORealpath p None])) as (o & E & Hi).
        rewrite (bind_ok_eq _ _ _ _ _ _ _ E eq_refl). do 3 eexists. split; [reflexivity|].
        intros known Hk. exists known. split; [|exact Hk].
        rewrite !items_app, Hi. apply MarkFailed. }
    unfold bind at 1, stat_dir.
    set (tr1 := tr ++ [ORealpath p (Some real)]).
    destruct (os_is_dir s tr1 real).
    - unfold bind at 1, inotify_add_watch. cbn [app].
      set (tr2 := tr1 ++ [OStatDir real true]).
      set (wd := os_add_watch s tr2 fd real in_recv_mask).
      destruct (Z.ltb_spec 0 wd) as [Hwd|Hwd].
      + do 3 eexists. split; [reflexivity|]. intros known Hk. cbn [app items].
        destruct (Z.ltb_spec 0 wd); [|lia].
        exists (learn known wd real). split; [apply MarkDone; [assumption|exists tr; exact Ereal]|].
        intros k. unfold learn. rewrite zfind_zemplace, Hk. reflexivity.
      + destruct (send_msg_run r_w_sys_not_watched p (tr2 ++ [OAddWatch fd real in_recv_mask wd])) as (o & E & Hi).
        rewrite (bind_ok_eq _ _ _ _ _ _ _ E eq_refl). do 3 eexists. split; [reflexivity|].
        intros known Hk. exists known. split; [|exact Hk]. cbn [app items].
        destruct (Z.ltb_spec 0 wd); [lia|]. rewrite items_app, Hi. apply MarkFailed.
    - rewrite bind_ret. cbn [Z.ltb Z.compare].
      destruct (send_msg_run r_w_sys_not_watched p (tr1 ++ [OStatDir real false])) as (o & E & Hi).
      rewrite (bind_ok_eq _ _ _ _ _ _ _ E eq_refl). do 3 eexists. split; [reflexivity|].
      intros known Hk. exists known. split; [|exact Hk]. cbn [app items].
      rewrite items_app, Hi. apply MarkFailed.
  Qed.

  Lemma renames_tail {P : list krec -> Prop} r rs :
    renames_ordered (r :: rs) -> renames_ordered rs.
  Proof. intros H a x n b E. apply (H (r :: a) x n b). now rewrite E. Qed.
  Lemma renames_local_tail r rs : renames_local (r :: rs) -> renames_local rs.
  Proof. intros H a x n b E. apply (H (r :: a) x n b). now rewrite E. Qed.

  Lemma recs_run_batch loose fd : forall rs dm known tr,
    Forall krec_ok rs -> renames_ordered rs -> (loose = false -> renames_local rs) ->
    (forall k, known k = zfind k dm) ->
    exists o dm' known', recs_run s fd dm rs tr = (o, Ok dm') /\
      batch s loose known rs (items o) known' /\ (forall k, known' k = zfind k dm').
  Proof.
    intros rs. remember (length rs) as len eqn:El. revert rs El.
    induction len as [len IH] using lt_wf_ind. intros rs El dm known tr Hok Hord Hloc Hk. subst len.
    destruct rs as [|r rest].
    { do 3 eexists. split; [reflexivity|]. split; [constructor|exact Hk]. }
    assert (Hr : krec_ok r) by (inversion Hok; auto).
    assert (Hrest : Forall krec_ok rest) by (inversion Hok; auto).
    assert (Hord' : renames_ordered rest) by (eapply (@renames_tail (fun _ => True)); eauto).
    assert (Hloc' : loose = false -> renames_local rest) by (intros Hl; eapply renames_local_tail, Hloc, Hl).
    assert (Hgo : forall dm1 known1 tr1, (forall k, known1 k = zfind k dm1) ->
      exists o dm' known', recs_run s fd dm1 rest tr1 = (o, Ok dm') /\
        batch s loose known1 rest (items o) known' /\ (forall k, known' k = zfind k dm')).
    { intros. apply (IH (length rest)); auto. }
    cbn [recs_run]. rewrite <- Hk.
    destruct (known (k_wd r)) as [d|] eqn:Ewd.
    2:{ destruct (send_msg_run r_w_sys_phantom [] tr) as (o1 & E1 & Hi1).
        destruct (Hgo dm known (tr ++ o1) Hk) as (o2 & dm2 & k2 & E2 & Hb & Hk2).
        exists (o1 ++ o2), dm2, k2. split; [exact (bind_ok_eq _ _ _ _ _ _ _ E1 E2)|].
        split; [|exact Hk2]. rewrite items_app, Hi1. now apply BPhantom. }
    destruct (is_overflow (k_kind r)) eqn:Eov.
    { destruct (send_msg_run r_w_sys_q_overflow d tr) as (o1 & E1 & Hi1).
      destruct (Hgo dm known (tr ++ o1) Hk) as (o2 & dm2 & k2 & E2 & Hb & Hk2).
      exists (o1 ++ o2), dm2, k2. split; [exact (bind_ok_eq _ _ _ _ _ _ _ E1 E2)|].
      split; [|exact Hk2]. rewrite items_app, Hi1. eapply BOverflow; eauto.
      destruct (k_kind r); cbn in Eov; congruence. }
    destruct (effect_of (k_kind r)) as [f|] eqn:Ef.
    2:{ destruct (Hgo dm known tr Hk) as (o2 & dm2 & k2 & E2 & Hb & Hk2).
        exists o2, dm2, k2. split; [exact E2|]. split; [|exact Hk2].
        eapply BSilent; eauto. destruct (k_kind r); cbn in Eov; congruence. }
    assert (Hnr : k_name r <> []) by (apply Hr, (effect_named r f Ef)).
    set (isnew := k_dir r && match k_kind r with KCreate => true | _ => false end).
    assert (Hsingle : (forall n rs', rest = n :: rs' -> ~ rename_pair r n) ->
      exists o dm' known',
        (ev <- mk_event s d r f (type_of r) ;;
         dm1 <- (if isnew then p <- in_mark s (ev_path ev) fd dm ;; ret (fst p) else ret dm) ;;
         callback ev ;;; recs_run s fd dm1 rest) tr = (o, Ok dm') /\
        batch s loose known (r :: rest) (items o) known' /\ (forall k, known' k = zfind k dm')).
    { intros Hnp. unfold mk_event.
      destruct (new_event_run (path_append d (k_name r)) f (type_of r) tr) as (n & En).
      rewrite (bind_ok _ _ _ _ _ En). cbn [ev_path].
      rewrite (path_append_entry d r Hr Hnr) in *.
      set (tr1 := tr ++ [ONow n]).
      destruct isnew eqn:Enew.
      - unfold isnew in Enew. apply andb_prop in Enew as [Hd Hc].
        assert (Hkind : k_kind r = KCreate) by (destruct (k_kind r); congruence).
        assert (Hf : f = EtCreate) by (rewrite Hkind in Ef; cbn in Ef; congruence).
        rewrite bind_assoc.
        destruct (in_mark_run (entry d (k_name r)) fd dm tr1) as (om & dm1 & res & Em & Hm).
        destruct (Hm known Hk) as (known1 & Hmarks & Hk1).
        rewrite (bind_ok _ _ _ _ _ Em). rewrite bind_ret. cbn [fst].
        unfold bind at 1, callback.
        match goal with |- context [recs_run s fd dm1 rest ?t] =>
          destruct (Hgo dm1 known1 t Hk1) as (o2 & dm2 & k2 & E2 & Hb & Hk2) end.
        rewrite E2. do 3 eexists. split; [reflexivity|]. split; [|exact Hk2].
        cbn [app items]. rewrite items_app. cbn [items shape_of].
        subst f. unfold type_of. rewrite Hd.
        eapply BNewDir; eauto.
      - rewrite bind_ret. unfold bind at 1, callback.
        match goal with |- context [recs_run s fd dm rest ?t] =>
          destruct (Hgo dm known t Hk) as (o2 & dm2 & k2 & E2 & Hb & Hk2) end.
        rewrite E2. do 3 eexists. split; [reflexivity|]. split; [|exact Hk2].
        cbn [app items shape_of].
        eapply BOne; eauto. intros [Hkind Hd]. unfold isnew in Enew. rewrite Hd, Hkind in Enew. discriminate. }
    destruct rest as [|n rest'].
    { apply Hsingle. intros n rs' [=]. }
    destruct (Hord [] r n rest' eq_refl) as [Hnorev Hdirs].
    destruct (pairb r n) eqn:Epair.
    { apply pairb_spec in Epair. specialize (Hdirs Epair).
      assert (Hn : krec_ok n) by (inversion Hrest; auto).
      assert (Hnn : k_name n <> []) by (apply Hn; destruct Epair as (_ & -> & _); reflexivity).
      destruct (show_pair_run d r n f (type_of r) tr) as (o1 & n1 & n2 & E1 & Hi1).
      rewrite (bind_ok _ _ _ _ _ E1). unfold bind at 1, callback.
      match goal with |- context [recs_run s fd dm rest' ?t] =>
        destruct (IH (length rest')) with (rs := rest') (dm := dm) (known := known) (tr := t)
          as (o2 & dm2 & k2 & E2 & Hb & Hk2); auto end.
      - cbn; lia.
      - inversion Hrest; auto.
      - eapply (@renames_tail (fun _ => True)); eauto.
      - intros Hl. eapply renames_local_tail; eauto.
      - rewrite E2. do 3 eexists. split; [reflexivity|]. split; [|exact Hk2].
        rewrite items_app, Hi1. cbn [app items shape_of].
        rewrite (path_append_entry d r Hr Hnr), (path_append_entry d n Hn Hnn).
        assert (f = EtRename) as ->.
        { destruct Epair as (Hkr & _). rewrite Hkr in Ef. cbn in Ef. congruence. }
        replace (type_of r) with (type_of n) at 2 by (unfold type_of; now rewrite Hdirs).
        eapply BRename; eauto. destruct loose; [reflexivity|]. now rewrite (Hloc eq_refl [] r n rest' eq_refl Epair). }
    destruct (pairb n r) eqn:Epair2.
    { apply pairb_spec in Epair2. contradiction. }
    apply Hsingle. intros n' rs' [= <- <-] Hp. apply pairb_spec in Hp. congruence.
  Qed.

  (** Without any hypothesis on renames the run still ends normally. *)
  Lemma recs_run_ok fd : forall rs dm tr, exists o dm', recs_run s fd dm rs tr = (o, Ok dm').
  Proof.
    intros rs. remember (length rs) as len eqn:El. revert rs El.
    induction len as [len IH] using lt_wf_ind. intros rs El dm tr. subst len.
    destruct rs as [|r rest]; [do 2 eexists; reflexivity|].
    assert (Hgo : forall dm1 tr1, exists o dm', recs_run s fd dm1 rest tr1 = (o, Ok dm'))
      by (intros; apply (IH (length rest)); auto).
    cbn [recs_run]. destruct (zfind (k_wd r) dm) as [d|].
    2:{ destruct (send_msg_run r_w_sys_phantom [] tr) as (o1 & E1 & _).
        destruct (Hgo dm (tr ++ o1)) as (o2 & dm2 & E2).
        do 2 eexists. exact (bind_ok_eq _ _ _ _ _ _ _ E1 E2). }
    destruct (is_overflow (k_kind r)).
    { destruct (send_msg_run r_w_sys_q_overflow d tr) as (o1 & E1 & _).
      destruct (Hgo dm (tr ++ o1)) as (o2 & dm2 & E2).
      do 2 eexists. exact (bind_ok_eq _ _ _ _ _ _ _ E1 E2). }
    destruct (effect_of (k_kind r)) as [f|]; [|apply Hgo].
    set (isnew := k_dir r && match k_kind r with KCreate => true | _ => false end).
    assert (Hsingle : exists o dm',
        (ev <- mk_event s d r f (type_of r) ;;
         dm1 <- (if isnew then p <- in_mark s (ev_path ev) fd dm ;; ret (fst p) else ret dm) ;;
         callback ev ;;; recs_run s fd dm1 rest) tr = (o, Ok dm')).
    { unfold mk_event. destruct (new_event_run (path_append d (k_name r)) f (type_of r) tr) as (n & En).
      rewrite (bind_ok _ _ _ _ _ En). cbn [ev_path]. destruct isnew.
      - rewrite bind_assoc.
        destruct (in_mark_run (path_append d (k_name r)) fd dm (tr ++ [ONow n])) as (om & dm1 & res & Em & _).
        rewrite (bind_ok _ _ _ _ _ Em). rewrite bind_ret. cbn [fst]. unfold bind at 1, callback.
        match goal with |- context [recs_run s fd dm1 rest ?t] => destruct (Hgo dm1 t) as (o2 & dm2 & E2) end.
        rewrite E2. do 2 eexists. reflexivity.
      - rewrite bind_ret. unfold bind at 1, callback.
        match goal with |- context [recs_run s fd dm rest ?t] => destruct (Hgo dm t) as (o2 & dm2 & E2) end.
        rewrite E2. do 2 eexists. reflexivity. }
    assert (Hpair : forall a b rs', (length rs' <= length rest)%nat ->
       exists o dm', (ev <- show_pair s d a b f (type_of r) ;; callback ev ;;; recs_run s fd dm rs') tr = (o, Ok dm')).
    { intros a b rs' Hl. destruct (show_pair_run d a b f (type_of r) tr) as (o1 & n1 & n2 & E1 & _).
      rewrite (bind_ok _ _ _ _ _ E1). unfold bind at 1, callback.
      match goal with |- context [recs_run s fd dm rs' ?t] =>
        destruct (IH (length rs')) with (rs := rs') (dm := dm) (tr := t) as (o2 & dm2 & E2) end;
        [cbn; lia|reflexivity|].
      rewrite E2. do 2 eexists. reflexivity. }
    destruct rest as [|n rest']; [exact Hsingle|].
    destruct (pairb r n); [apply Hpair; cbn; lia|].
    destruct (pairb n r); [apply Hpair; cbn; lia|exact Hsingle].
  Qed.

  (** ** Whole receive *)
  Definition read_gives (ke : kin) (tr : trace) (rs : list krec) : Prop :=
    let r := os_read s tr (kin_fd ke) in_buf_len in
    rd_len r = Z.of_nat (length (encode rs)) /\ rd_bytes r = encode rs.

  Lemma in_recv_recs ke tr rs :
    Forall krec_ok rs -> (N.of_nat (length (encode rs)) <= in_buf_len)%N -> read_gives ke tr rs ->
    exists o dm',
      recs_run s (kin_fd ke) (kin_dm ke) rs (tr ++ [ORead (kin_fd ke) (os_read s tr (kin_fd ke) in_buf_len)]) = (o, Ok dm') /\
      in_recv s ke tr =
      (ORead (kin_fd ke) (os_read s tr (kin_fd ke) in_buf_len) :: o,
       Ok (r_pending, {| kin_fd := kin_fd ke;
                         kin_dm := fold_left (fun m wd => zerase wd m) (deleted rs) dm';
                         kin_buf := overwrite (kin_buf ke) (encode rs) |})).
  Proof.
    intros Hok Hlen [Hl Hb].
    set (rr := os_read s tr (kin_fd ke) in_buf_len) in *.
    destruct (recs_run_ok (kin_fd ke) rs (kin_dm ke) (tr ++ [ORead (kin_fd ke) rr])) as (o & dm' & E).
    exists o, dm'. split; [exact E|].
    unfold in_recv. unfold bind at 1, sys_read. fold rr.
    assert (Hneg : (rd_len rr <? 0)%Z = false) by lia. rewrite Hneg. cbn [andb].
    replace (firstn (Z.to_nat (rd_len rr)) (rd_bytes rr)) with (encode rs)
      by (rewrite Hl, Hb, Nat2Z.id; symmetry; apply firstn_all).
    assert (Hcount : (length rs <= 256)%nat).
    { pose proof (encode_len_ge rs). unfold in_buf_len in Hlen. lia. }
    assert (Hloop : in_loop s (N.to_nat 260) (kin_fd ke) (overwrite (kin_buf ke) (encode rs)) (rd_len rr)
        (Some 0%N) 0 (kin_dm ke) [] (tr ++ [ORead (kin_fd ke) rr]) = (o, Ok (r_pending, dm', deleted rs))).
    { unfold overwrite. destruct rs as [|r rest].
      - cbn in E. injection E as <- <-. rewrite Hl. reflexivity.
      - pose proof (in_loop_recs s (kin_fd ke) (r :: rest) (N.to_nat 260) []
          (skipn (length (encode (r :: rest))) (kin_buf ke)) (rd_len rr) 0 (kin_dm ke) []) as HL.
        cbn [app length] in HL. unfold sim in HL.
        change (N.of_nat 0) with 0%N in HL. cbn [pos] in HL.
        rewrite HL.
        + rewrite E. reflexivity.
        + exact Hok.
        + cbn [length] in Hcount. lia.
        + unfold in_c_ulim. cbn [length] in Hcount. lia.
        + unfold in_buf_len. cbn [length] in Hcount. lia.
        + rewrite Hl. f_equal. }
    rewrite (bind_ok _ _ _ _ _ Hloop). unfold ret. rewrite app_nil_r. reflexivity.
  Qed.

  Lemma fold_erase_find l : forall (dm : zmap text) k,
    zfind k (fold_left (fun m wd => zerase wd m) l dm) = if existsb (Z.eqb k) l then None else zfind k dm.
  Proof.
    induction l as [|x l IH]; intros dm k; [reflexivity|]. cbn [fold_left existsb].
    rewrite IH, zfind_zerase. destruct (k =? x)%Z; cbn [orb]; [now destruct (existsb (Z.eqb k) l)|reflexivity].
  Qed.

  Lemma deleted_exists k rs :
    existsb (Z.eqb k) (deleted rs) =
    existsb (fun r => (k_wd r =? k)%Z && match k_kind r with KDeleteSelf => true | _ => false end) rs.
  Proof.
    unfold deleted. induction rs as [|r rs IH]; [reflexivity|]. cbn [filter existsb].
    destruct (k_kind r); cbn [is_del_self]; rewrite ?andb_false_r; cbn [orb map existsb]; try exact IH.
    rewrite IH, andb_true_r, (Z.eqb_sym k). reflexivity.
  Qed.

  Lemma in_recv_batch loose ke tr rs :
    Forall krec_ok rs -> (N.of_nat (length (encode rs)) <= in_buf_len)%N -> read_gives ke tr rs ->
    renames_ordered rs -> (loose = false -> renames_local rs) ->
    exists o ke' known',
      in_recv s ke tr = (o, Ok (r_pending, ke')) /\
      batch s loose (fun k => zfind k (kin_dm ke)) rs (items o) known' /\
      (forall k, zfind k (kin_dm ke') = forget_deleted rs known' k).
  Proof.
    intros Hok Hlen Hrd Hord Hloc.
    destruct (in_recv_recs ke tr rs Hok Hlen Hrd) as (o & dm' & E & ER).
    destruct (recs_run_batch loose (kin_fd ke) rs (kin_dm ke) (fun k => zfind k (kin_dm ke))
                (tr ++ [ORead (kin_fd ke) (os_read s tr (kin_fd ke) in_buf_len)]) Hok Hord Hloc (fun k => eq_refl))
      as (o2 & dm2 & known' & E2 & Hb & Hk).
    rewrite E in E2. injection E2 as <- <-.
    do 3 eexists. split; [exact ER|]. split; [exact Hb|].
    intros k. cbn [kin_dm]. rewrite fold_erase_find, deleted_exists. unfold forget_deleted.
    now rewrite Hk.
  Qed.
End Batch.

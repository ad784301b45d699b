(** Proofs about the fanotify adapter: the byte-level loop against the list of
    kernel records. *)
From Verif Require Import Base PathModel EventModel Sys SysFacts LinuxModel FanotifyModel InotifySpec FanotifySpec.

Local Arguments N.add : simpl never.
Local Arguments N.mul : simpl never.
Local Arguments N.lor : simpl never.
Local Arguments Z.of_N : simpl never.

(** ** Flags of a kernel mask *)
Lemma flag_lor a b m : flag (N.lor a b) m = flag a m || flag b m.
Proof.
  unfold flag. rewrite N.land_lor_distr_l.
  destruct (N.eqb_spec (N.lor (N.land a m) (N.land b m)) 0) as [E|E].
  - apply N.lor_eq_0_iff in E as [-> ->]. reflexivity.
  - destruct (N.eqb_spec (N.land a m) 0) as [Ea|Ea], (N.eqb_spec (N.land b m) 0) as [Eb|Eb]; auto.
    rewrite Ea, Eb in E. now destruct E.
Qed.

Definition like (k j : fkind) : bool :=
  match k, j with
  | FCreate, FCreate | FDelete, FDelete | FModify, FModify | FFrom, FFrom | FTo, FTo => true
  | _, _ => false
  end.
Lemma has_like k r : has k r = existsb (like k) (f_kinds r).
Proof. reflexivity. Qed.

Lemma f_bits_flag k ks : flag (f_bits ks) (fkind_bit k) = existsb (like k) ks.
Proof.
  induction ks as [|j ks IH]; cbn [f_bits existsb]; [destruct k; reflexivity|].
  rewrite flag_lor, IH. f_equal. destruct k, j; reflexivity.
Qed.
Lemma f_bits_dir ks : flag (f_bits ks) FAN_ONDIR = false.
Proof. induction ks as [|j ks IH]; cbn [f_bits]; [reflexivity|]. rewrite flag_lor, IH. now destruct j. Qed.
Lemma f_bits_ovf ks : flag (f_bits ks) FAN_Q_OVERFLOW = false.
Proof. induction ks as [|j ks IH]; cbn [f_bits]; [reflexivity|]. rewrite flag_lor, IH. now destruct j. Qed.

Lemma f_mask_kind k r : flag (f_mask r) (fkind_bit k) = has k r.
Proof. unfold f_mask. rewrite flag_lor, f_bits_flag, has_like. destruct (f_dir r), k; cbn; now rewrite orb_false_r. Qed.
Lemma f_mask_dir r : flag (f_mask r) FAN_ONDIR = f_dir r.
Proof. unfold f_mask. rewrite flag_lor, f_bits_dir. now destruct (f_dir r). Qed.
Lemma f_mask_ovf r : flag (f_mask r) FAN_Q_OVERFLOW = false.
Proof. unfold f_mask. rewrite flag_lor, f_bits_ovf. now destruct (f_dir r). Qed.
Lemma f_mask_move r : flag (f_mask r) FAN_MOVE = has FFrom r || has FTo r.
Proof.
  rewrite <- !f_mask_kind. unfold flag. change FAN_MOVE with (N.lor (fkind_bit FFrom) (fkind_bit FTo)).
  rewrite N.land_lor_distr_r.
  destruct (N.eqb_spec (N.lor (N.land (f_mask r) (fkind_bit FFrom)) (N.land (f_mask r) (fkind_bit FTo))) 0) as [E|E].
  - apply N.lor_eq_0_iff in E as [-> ->]. reflexivity.
  - destruct (N.eqb_spec (N.land (f_mask r) (fkind_bit FFrom)) 0) as [Ea|Ea], (N.eqb_spec (N.land (f_mask r) (fkind_bit FTo)) 0) as [Eb|Eb]; auto.
    rewrite Ea, Eb in E. now destruct E.
Qed.

Lemma f_mask_effect r : f_kinds r <> [] ->
  (if flag (f_mask r) FAN_CREATE then EtCreate
   else if flag (f_mask r) FAN_DELETE then EtDestroy
   else if flag (f_mask r) FAN_MODIFY then EtModify
   else if flag (f_mask r) FAN_MOVE then EtRename else EtOther) = f_effect r.
Proof.
  intros Hk. change FAN_CREATE with (fkind_bit FCreate). change FAN_DELETE with (fkind_bit FDelete).
  change FAN_MODIFY with (fkind_bit FModify). rewrite !f_mask_kind, f_mask_move. unfold f_effect.
  destruct (has FCreate r) eqn:E1, (has FDelete r) eqn:E2, (has FModify r) eqn:E3; auto.
  destruct (has FFrom r) eqn:E4, (has FTo r) eqn:E5; auto. exfalso.
  rewrite has_like in *. destruct (f_kinds r) as [|[] ks]; cbn in *; try discriminate. now apply Hk.
Qed.

Lemma lor_bound a b n : (a < 2 ^ n)%N -> (b < 2 ^ n)%N -> (N.lor a b < 2 ^ n)%N.
Proof.
  intros Ha Hb. destruct (N.eq_dec (N.lor a b) 0) as [->|E]; [lia|].
  apply N.log2_lt_pow2; [lia|]. rewrite N.log2_lor.
  destruct (N.eq_dec a 0) as [->|]; destruct (N.eq_dec b 0) as [->|]; rewrite ?N.lor_0_l, ?N.lor_0_r in E; try lia;
    apply N.max_lub_lt; try (apply N.log2_lt_pow2; lia).
  - change (N.log2 0) with 0%N. destruct n; [cbn in Hb|]; lia.
  - change (N.log2 0) with 0%N. destruct n; [cbn in Ha|]; lia.
Qed.
Lemma f_mask_bound r : (f_mask r < 256 ^ N.of_nat 8)%N.
Proof.
  change (256 ^ N.of_nat 8)%N with (2 ^ 64)%N. unfold f_mask. apply lor_bound.
  - induction (f_kinds r) as [|k ks IH]; cbn [f_bits]; [reflexivity|]. apply lor_bound; [destruct k; reflexivity|exact IH].
  - destruct (f_dir r); reflexivity.
Qed.

(** ** Reading one encoded record *)
Definition flen (x : fan) : nat := length (fencode_rec x).
Lemma flen_chg r : frec_ok r -> flen (Chg r) = f_len r.
Proof.
  intros H. unfold flen, f_len. cbn [fencode_rec]. unfold handle_of. rewrite !app_length, repeat_length, !le_bytes_len.
  cbn [length]. rewrite (fo_fsid r H). lia.
Qed.
Lemma flen_ge x : fan_ok x -> (24 <= flen x)%nat.
Proof. destruct x as [r|]; intros H; [rewrite flen_chg by exact H; unfold f_len; lia|]. unfold flen. cbn. lia. Qed.
Lemma flen_align x : fan_ok x -> exists k, flen x = (4 * k)%nat.
Proof. destruct x as [r|]; intros H; [rewrite flen_chg by exact H; apply H|]. exists 6%nat. reflexivity. Qed.
Lemma flen_bound x : fan_ok x -> (N.of_nat (flen x) < 256 ^ N.of_nat 4)%N.
Proof. destruct x as [r|]; intros H; [rewrite flen_chg by exact H; apply (fo_len r H)|]. reflexivity. Qed.

Definition x_mask (x : fan) : N := match x with Chg r => f_mask r | Ovf => 0x4000%N end.

Lemma word_split size buf off pre ws post tr :
  buf = pre ++ ws ++ post -> length ws = size -> N.to_nat off = length pre ->
  word_at size buf off tr = ([], Ok (le_word ws)).
Proof. intros ->. apply word_at_mid. Qed.
Lemma byte_split buf off pre b post tr :
  buf = pre ++ b :: post -> N.to_nat off = length pre -> byte_at buf off tr = ([], Ok b).
Proof. intros ->. apply byte_at_mid. Qed.

Section Reading.
  Variables (pre more : text).

  Lemma read_event_len x tr : fan_ok x ->
    fa_event_len (pre ++ fencode_rec x ++ more) (N.of_nat (length pre)) tr = ([], Ok (N.of_nat (flen x))).
  Proof.
    intros H. unfold fa_event_len.
    assert (E : exists rest, fencode_rec x = le_bytes 4 (N.of_nat (flen x)) ++ rest).
    { destruct x as [r|]; [|exists (skipn 4 (fencode_rec Ovf)); reflexivity].
      rewrite flen_chg by exact H. cbn [fencode_rec]. eexists. reflexivity. }
    destruct E as (rest & E). erewrite (word_split 4 _ _ pre (le_bytes 4 (N.of_nat (flen x))) (rest ++ more));
      [|rewrite E, <- app_assoc; reflexivity|apply le_bytes_len|lia].
    rewrite le_word_bytes by now apply flen_bound. reflexivity.
  Qed.

  (** The first 24 bytes, other than the length. *)
  Lemma meta_split x : exists a b c, fencode_rec x = a ++ [3; 0]%N ++ le_bytes 2 24 ++ le_bytes 8 (x_mask x) ++ le_bytes 4 (of_i32 (-1)) ++ b ++ c
    /\ length a = 4%nat /\ length b = 4%nat /\ (match x with Chg r => c = [2; 0]%N ++ le_bytes 2 (N.of_nat (f_len r - 24)) ++ f_fsid r
      ++ handle_of r ++ f_name r ++ repeat 0%N (f_pad r) | Ovf => c = [] end).
  Proof.
    destruct x as [r|]; cbn [fencode_rec x_mask].
    - eexists (le_bytes 4 _), (le_bytes 4 _), _. split; [reflexivity|]. rewrite !le_bytes_len. auto.
    - exists (le_bytes 4 24), (le_bytes 4 0), []. split; [reflexivity|]. auto.
  Qed.

  Lemma read_vers x tr : fa_vers (pre ++ fencode_rec x ++ more) (N.of_nat (length pre)) tr = ([], Ok 3%N).
  Proof.
    destruct (meta_split x) as (a & b & c & -> & La & Lb & _). unfold fa_vers.
    apply (byte_split _ _ (pre ++ a) 3%N (0%N :: (le_bytes 2 24 ++ le_bytes 8 (x_mask x) ++ le_bytes 4 (of_i32 (-1)) ++ b ++ c) ++ more)).
    - rewrite <- !app_assoc. reflexivity.
    - rewrite app_length. lia.
  Qed.
  Lemma read_fmask x tr : fa_mask (pre ++ fencode_rec x ++ more) (N.of_nat (length pre)) tr = ([], Ok (x_mask x)).
  Proof.
    destruct (meta_split x) as (a & b & c & -> & La & Lb & _). unfold fa_mask.
    erewrite (word_split 8 _ _ (pre ++ a ++ [3; 0]%N ++ le_bytes 2 24) (le_bytes 8 (x_mask x)) (le_bytes 4 (of_i32 (-1)) ++ b ++ c ++ more)).
    - rewrite le_word_bytes; [reflexivity|]. destruct x as [r|]; [apply f_mask_bound|reflexivity].
    - rewrite <- !app_assoc. reflexivity.
    - apply le_bytes_len.
    - rewrite !app_length, le_bytes_len. cbn [length]. lia.
  Qed.
  Lemma read_evfd x tr : fa_evfd (pre ++ fencode_rec x ++ more) (N.of_nat (length pre)) tr = ([], Ok (-1)%Z).
  Proof.
    destruct (meta_split x) as (a & b & c & -> & La & Lb & _). unfold fa_evfd.
    erewrite bind_silent; [|eapply (word_split 4 _ _ (pre ++ a ++ [3; 0]%N ++ le_bytes 2 24 ++ le_bytes 8 (x_mask x)) (le_bytes 4 (of_i32 (-1))) (b ++ c ++ more))].
    - rewrite le_word_bytes by (apply of_i32_bound; lia). rewrite to_of_i32 by lia. reflexivity.
    - rewrite <- !app_assoc. reflexivity.
    - apply le_bytes_len.
    - rewrite !app_length, !le_bytes_len. cbn [length]. lia.
  Qed.

  Variable r : frec.
  Hypothesis Hok : frec_ok r.
  Let buf := pre ++ fencode_rec (Chg r) ++ more.
  Let off := N.of_nat (length pre).

  Lemma info_split : exists a, length a = 24%nat /\
    buf = (pre ++ a) ++ [2; 0]%N ++ le_bytes 2 (N.of_nat (f_len r - 24)) ++ f_fsid r ++ handle_of r ++ f_name r ++ repeat 0%N (f_pad r) ++ more.
  Proof.
    destruct (meta_split (Chg r)) as (a & b & c & E & La & Lb & ->).
    exists (a ++ [3; 0]%N ++ le_bytes 2 24 ++ le_bytes 8 (x_mask (Chg r)) ++ le_bytes 4 (of_i32 (-1)) ++ b).
    split; [rewrite !app_length, !le_bytes_len; cbn [length]; lia|]. unfold buf. rewrite E, <- !app_assoc. reflexivity.
  Qed.

  Lemma read_info_type tr : fa_info_type buf off tr = ([], Ok 2%N).
  Proof.
    destruct info_split as (a & La & ->). unfold fa_info_type.
    eapply byte_split; [reflexivity|]. rewrite app_length. unfold off. lia.
  Qed.
  Lemma read_handle_bytes tr : fa_handle_bytes buf off tr = ([], Ok (N.of_nat (length (f_handle r)))).
  Proof.
    destruct info_split as (a & La & ->). unfold fa_handle_bytes.
    erewrite (word_split 4 _ _ ((pre ++ a) ++ [2; 0]%N ++ le_bytes 2 (N.of_nat (f_len r - 24)) ++ f_fsid r) (le_bytes 4 (N.of_nat (length (f_handle r))))).
    - rewrite le_word_bytes; [reflexivity|]. pose proof (fo_len r Hok) as H. unfold f_len in H. change (256 ^ N.of_nat 4)%N with 4294967296%N. lia.
    - rewrite <- !app_assoc. unfold handle_of. rewrite <- !app_assoc. reflexivity.
    - apply le_bytes_len.
    - rewrite !app_length, !le_bytes_len, (fo_fsid r Hok). cbn [length]. unfold off. lia.
  Qed.
  Lemma handle_of_len : length (handle_of r) = (8 + length (f_handle r))%nat.
  Proof. unfold handle_of. rewrite !app_length, !le_bytes_len. lia. Qed.
  Lemma read_handle tr : fa_handle buf off tr = ([], Ok (handle_of r)).
  Proof.
    unfold fa_handle. erewrite bind_silent; [|apply read_handle_bytes]. cbv zeta.
    assert (E : firstn (N.to_nat (8 + N.of_nat (length (f_handle r)))) (skipn (N.to_nat (off + 36)) buf) = handle_of r).
    { destruct info_split as (a & La & ->).
      rewrite (app_assoc (le_bytes 2 _)), (app_assoc [2; 0]%N), (app_assoc (pre ++ a)).
      rewrite skipn_app_len.
      - apply firstn_app_len. rewrite handle_of_len. lia.
      - rewrite !app_length, !le_bytes_len, (fo_fsid r Hok). cbn [length]. unfold off. lia. }
    rewrite E, handle_of_len. replace (N.to_nat (8 + N.of_nat (length (f_handle r)))) with (8 + length (f_handle r))%nat by lia.
    now rewrite Nat.eqb_refl.
  Qed.
  Lemma read_fname tr : c_string buf (off + 44 + N.of_nat (length (f_handle r))) tr = ([], Ok (f_name r)).
  Proof.
    destruct info_split as (a & La & ->). pose proof (fo_pad r Hok) as Hp. destruct (f_pad r) as [|pd]; [lia|]. cbn [repeat app].
    rewrite (app_assoc (f_fsid r)), (app_assoc (le_bytes 2 _)), app_comm_cons, app_comm_cons, (app_assoc (pre ++ a)).
    apply c_string_mid; [apply Hok|]. cbn [app].
    rewrite !app_length. cbn [length]. rewrite !app_length, !le_bytes_len, (fo_fsid r Hok), handle_of_len. unfold off. lia.
  Qed.
End Reading.

(** ** The path of a record *)
(** The steps of a path lookup. *)
Lemma pathof_steps s r tr : frec_ok r -> forall pre more, fa_pathof s (pre ++ fencode_rec (Chg r) ++ more) (N.of_nat (length pre)) tr =
    ('(fd, err) <- open_by_handle s (handle_of r) ;;
     if (fd <=? 0)%Z then ret ([], Some err)
     else
       l <- readlink s fd ;;
       sys_close fd ;;;
       match l with
       | None => undef OobWrite
       | Some d0 =>
           match firstn path_ulim d0 with
           | [] => ret ([], None)
           | _ => if text_eqb (f_name r) (lit ".") then ret (firstn path_ulim d0, None)
                  else ret (firstn path_ulim (firstn path_ulim d0 ++ lit "/" ++ f_name r), None)
           end
       end) tr.
Proof.
  intros Hr pre more. unfold fa_pathof. erewrite bind_silent; [|apply read_handle; exact Hr].
    apply bind_ext. intros [fd0 err0] o _. destruct (fd0 <=? 0)%Z; [reflexivity|].
    apply bind_ext. intros l o1 _. apply bind_ext. intros [] o2 _. destruct l as [d0|]; [|reflexivity]. cbv zeta.
    destruct (firstn path_ulim d0) as [|c d] eqn:Ed; [reflexivity|].
    erewrite bind_silent; [|apply read_handle_bytes; exact Hr].
    erewrite bind_silent; [|apply read_fname; exact Hr]. reflexivity.
Qed.

Lemma pathof_rec s r tr : handles_ok s -> frec_ok r ->
  (exists fd err, (fd < 0)%Z /\ err <> 0%Z /\ unnamed s r /\
     forall pre more, fa_pathof s (pre ++ fencode_rec (Chg r) ++ more) (N.of_nat (length pre)) tr =
       ([OOpenHandle (handle_of r) fd err], Ok ([], Some err))) \/
  (exists fd err d p, named s r p /\
     forall pre more, fa_pathof s (pre ++ fencode_rec (Chg r) ++ more) (N.of_nat (length pre)) tr =
       ([OOpenHandle (handle_of r) fd err; OReadlink fd (Some d); OClose fd], Ok (p, None))).
Proof.
  intros Hs Hr. destruct (os_open_handle s tr (handle_of r)) as [fd err] eqn:Eo.
  pose proof (ho_open s Hs tr (handle_of r)) as Hfd. rewrite Eo in Hfd. cbn [fst snd] in Hfd.
  pose proof (pathof_steps s r tr Hr) as E0.
  destruct Hfd as [Hfd|[Hfd He]].
  - right. destruct (ho_link s Hs (tr ++ [OOpenHandle (handle_of r) fd err]) fd Hfd) as (d & El & Hd).
    exists fd, err, d, (fpath d (f_name r)). split.
    { exists tr, fd, err, d. auto. }
    intros pre more. rewrite E0. unfold bind, open_by_handle. rewrite Eo. cbn [fst snd].
    destruct (Z.leb_spec fd 0); [lia|]. unfold readlink. rewrite El. unfold sys_close, ret, fpath. change (N.to_nat 4095) with path_ulim.
    assert (Hne : firstn path_ulim d <> []).
    { destruct d as [|c d]; [contradiction|]. unfold path_ulim. replace (N.to_nat 4095) with (S (N.to_nat 4094)) by lia. discriminate. }
    destruct (firstn path_ulim d) as [|c d'] eqn:Ed; [contradiction|].
    destruct (text_eqb (f_name r) (lit ".")); reflexivity.
  - left. exists fd, err. split; [exact Hfd|]. split; [exact He|]. split.
    { exists tr. rewrite Eo. exact Hfd. }
    intros pre more. rewrite E0. unfold bind, open_by_handle. rewrite Eo. cbn [fst snd].
    destruct (Z.leb_spec fd 0); [|lia]. reflexivity.
Qed.

Lemma fencode_cons x rs : fencode (x :: rs) = fencode_rec x ++ fencode rs.
Proof. reflexivity. Qed.
Lemma fencode_len x rs : length (fencode (x :: rs)) = (flen x + length (fencode rs))%nat.
Proof. rewrite fencode_cons, app_length. reflexivity. Qed.
Lemma fencode_align rs : Forall fan_ok rs -> exists k, length (fencode rs) = (4 * k)%nat.
Proof.
  induction 1 as [|x rs Hx _ (k & IH)]; [exists 0%nat; reflexivity|].
  destruct (flen_align x Hx) as (j & Hj). exists (j + k)%nat. rewrite fencode_len. lia.
Qed.
Lemma fencode_count rs : Forall fan_ok rs -> (24 * length rs <= length (fencode rs))%nat.
Proof.
  induction 1 as [|x rs Hx _ IH]; [cbn; lia|]. pose proof (flen_ge x Hx). rewrite fencode_len. cbn [length]. lia.
Qed.

Lemma fits_dec m rs : {fits m rs} + {~ fits m rs}.
Proof.
  destruct rs as [|x rs]; cbn [fits]; [right; tauto|].
  destruct (le_dec (length (fencode_rec x) + m) (length (fencode (x :: rs)))); [left|right]; assumption.
Qed.

(** FAN_EVENT_OK on a record list; [rlen] is the believed length. *)
Lemma ok_rec pre rs post m rlen tr : Forall fan_ok rs ->
  rlen = (Z.of_nat (length (fencode rs)) - Z.of_nat m)%Z ->
  fan_event_ok (pre ++ fencode rs ++ post) (N.of_nat (length pre)) rlen tr =
  ([], Ok (if fits_dec m rs then true else false)).
Proof.
  intros Hok ->. unfold fan_event_ok. destruct rs as [|x rs].
  - destruct (fits_dec m []) as [H|_]; [destruct H|]. cbn [fencode flat_map length].
    destruct (Z.ltb_spec (Z.of_nat 0 - Z.of_nat m) 24); [reflexivity|lia].
  - inversion Hok as [|? ? Hx _]; subst. pose proof (flen_ge x Hx) as Hge.
    destruct (fits_dec m (x :: rs)) as [H|H]; cbn [fits] in H; fold (flen x) in H.
    + destruct (Z.ltb_spec (Z.of_nat (length (fencode (x :: rs))) - Z.of_nat m) 24); [lia|].
      rewrite fencode_cons, <- app_assoc. erewrite bind_silent; [|now apply read_event_len].
      unfold ret. rewrite fencode_cons in *. do 2 f_equal. apply andb_true_iff. split; [apply N.leb_le; lia|apply Z.leb_le; lia].
    + destruct (Z.ltb_spec (Z.of_nat (length (fencode (x :: rs))) - Z.of_nat m) 24); [reflexivity|].
      rewrite fencode_cons, <- app_assoc. erewrite bind_silent; [|now apply read_event_len].
      unfold ret. rewrite fencode_cons in *. do 2 f_equal. apply andb_false_iff. right. apply Z.leb_gt. lia.
Qed.

Definition fpos (off : N) (m : nat) (rs : list fan) : option N := if fits_dec m rs then Some off else None.

(** peek from a record, with the right remaining length. *)
Lemma peek_ok pre x rs post m rlen tr : Forall fan_ok (x :: rs) ->
  rlen = (Z.of_nat (length (fencode (x :: rs))) - Z.of_nat m)%Z ->
  fa_peek (pre ++ fencode (x :: rs) ++ post) (N.of_nat (length pre)) rlen tr =
  ([], Ok (fpos (N.of_nat (length (pre ++ fencode_rec x))) m rs)).
Proof.
  intros Hok ->. inversion Hok as [|? ? Hx Hrs]; subst. unfold fa_peek.
  rewrite fencode_cons, <- app_assoc. erewrite bind_silent; [|now apply read_event_len].
  replace (N.of_nat (length pre) + N.of_nat (flen x))%N with (N.of_nat (length (pre ++ fencode_rec x))) by (rewrite app_length; unfold flen; lia).
  erewrite bind_silent.
  2:{ rewrite app_assoc. apply (ok_rec _ _ _ m); [exact Hrs|]. rewrite app_length. unfold flen. lia. }
  unfold fpos, ret. destruct (fits_dec m rs); reflexivity.
Qed.

(** peek from the second record of a pair, with the length counted from the
    first: it may look beyond the records, but not beyond the buffer. *)
Lemma peek_pair pre x rs post m extra rlen tr : Forall fan_ok (x :: rs) ->
  rlen = (Z.of_nat (length (fencode (x :: rs))) - Z.of_nat m + Z.of_nat extra)%Z ->
  (rs = [] -> 4 <= length post)%nat ->
  exists nn, fa_peek (pre ++ fencode (x :: rs) ++ post) (N.of_nat (length pre)) rlen tr = ([], Ok nn) /\
    (nn = Some (N.of_nat (length (pre ++ fencode_rec x))) \/ nn = None /\ ~ fits m rs).
Proof.
  intros Hok -> Hpost. inversion Hok as [|? ? Hx Hrs]; subst. unfold fa_peek.
  rewrite fencode_cons, <- app_assoc. erewrite bind_silent; [|now apply read_event_len].
  replace (N.of_nat (length pre) + N.of_nat (flen x))%N with (N.of_nat (length (pre ++ fencode_rec x))) by (rewrite app_length; unfold flen; lia).
  rewrite (app_assoc pre).
  assert (E : exists b, fan_event_ok ((pre ++ fencode_rec x) ++ fencode rs ++ post) (N.of_nat (length (pre ++ fencode_rec x)))
     (Z.of_nat (length (fencode_rec x ++ fencode rs)) - Z.of_nat m + Z.of_nat extra - Z.of_N (N.of_nat (flen x))) tr = ([], Ok b) /\
     (b = false -> ~ fits m rs)).
  { destruct rs as [|y rs].
    - cbn [fencode flat_map app]. unfold fan_event_ok. destruct (_ <? 24)%Z; [exists false; split; [reflexivity|cbn; auto]|].
      unfold fa_event_len, word_at. rewrite skipn_app_len by lia.
      assert (L : length (firstn 4 post) = 4%nat) by (apply firstn_length_le; auto).
      erewrite bind_silent; [|rewrite L; reflexivity]. eexists. split; [reflexivity|cbn; auto].
    - inversion Hrs as [|? ? Hy _]; subst. unfold fan_event_ok.
      match goal with |- context [(?l <? 24)%Z] => destruct (Z.ltb_spec l 24) end.
      + exists false. split; [reflexivity|]. intros _ H0. cbn [fits] in H0. fold (flen y) in H0. pose proof (flen_ge y Hy).
        rewrite app_length in *. fold (flen x) in *. lia.
      + rewrite (fencode_cons y), <- (app_assoc (fencode_rec y)). erewrite bind_silent; [|now apply read_event_len].
        eexists. split; [reflexivity|]. intros Hb H0. cbn [fits] in H0. fold (flen y) in H0. pose proof (flen_ge y Hy).
        apply andb_false_iff in Hb as [Hb|Hb]; [apply N.leb_gt in Hb; lia|]. apply Z.leb_gt in Hb.
        rewrite fencode_cons in H0. rewrite !app_length in *. fold (flen x) (flen y) in *. lia. }
  destruct E as (b & E & Hb). erewrite bind_silent; [|exact E]. exists (if b then Some (N.of_nat (length (pre ++ fencode_rec x))) else None).
  split; [reflexivity|]. destruct b; auto.
Qed.

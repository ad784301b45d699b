(** Lemmas about the environment of [FanWorldSpec]: what is true of every state. *)
From Verif Require Import Base EventModel Sys SysFacts WatchFacts InotifySpec FanotifySpec FanotifyFacts FanWorldSpec.

Lemma mem_in p l : mem p l = true <-> In p l.
Proof.
  unfold mem. rewrite existsb_exists. split.
  - intros (q & Hq & E). apply text_eqb_eq in E. now subst q.
  - intros H. exists p. split; [exact H|]. now apply text_eqb_eq.
Qed.
Lemma place_lt p l : In p l -> (place p l < N.of_nat (length l))%N.
Proof.
  induction l as [|q l IH]; [intros []|]. cbn [place length]. destruct (text_eqb p q) eqn:E; [lia|].
  intros [->|H]; [exfalso; assert (text_eqb p p = true) by (now apply text_eqb_eq); congruence|]. specialize (IH H). lia.
Qed.
Lemma place_nth p l d : In p l -> nth (N.to_nat (place p l)) l d = p.
Proof.
  induction l as [|q l IH]; [intros []|]. cbn [place]. destruct (text_eqb p q) eqn:E.
  - intros _. apply text_eqb_eq in E. now subst q.
  - intros [->|H]; [exfalso; assert (text_eqb p p = true) by (now apply text_eqb_eq); congruence|].
    replace (N.to_nat (1 + place p l)) with (S (N.to_nat (place p l))) by lia. cbn [nth]. now apply IH.
Qed.

(** A record of the world: its directory is one, its name is sound. *)
Record rec_in (dirs : list text) (r : frec) (i : N) : Prop := {
  ri_lt : (i < N.of_nat (length dirs))%N;
  ri_handle : f_handle r = le_bytes 8 i;
  ri_type : f_htype r = 1%N;
  ri_name : sound_name (nth (N.to_nat i) dirs []) (f_name r) = true;
  ri_pad : f_pad r = (4 - Nat.modulo (length (f_name r)) 4)%nat;
  ri_fsid : f_fsid r = repeat 1%N 8;
  ri_kinds : f_kinds r <> [];
  ri_files : has FFrom r = true \/ has FTo r = true -> f_dir r = false }.

Definition all_recs (w : fworld) : list frec := concat (fw_batches w) ++ fw_queue w.
Record fine (w : fworld) : Prop := {
  fi_paths : Forall (fun d => d <> []) (fw_dirs w);
  fi_count : (N.of_nat (length (fw_dirs w)) <= 2 ^ 63)%N;
  fi_marks : forall p, In p (fw_marks w) -> In p (fw_dirs w);
  fi_recs : forall r, In r (all_recs w) -> exists i, rec_in (fw_dirs w) r i;
  fi_log : forall r k, In r (all_recs w) -> has k r = true -> In (rec_path w r, k, f_dir r) (fw_log w);
  fi_told : forall p k d, In (p, k, d) (fw_log w) -> exists r, In r (all_recs w) /\ rec_path w r = p /\ has k r = true /\ f_dir r = d;
  fi_batches : forall b, In b (fw_batches w) -> b <> [] /\ (length (fencode (map Chg b)) < N.to_nat 4096)%nat }.

Lemma has_with k r ks : has k (with_kinds r ks) = existsb (like k) ks.
Proof. rewrite has_like. reflexivity. Qed.
Lemma has_joined k a b : has k (joined a b) = has k a || has k b.
Proof.
  unfold joined. rewrite has_with. unfold all_kinds.
  cbn [filter]. destruct k;
  repeat match goal with |- context [if ?c then _ else _] => let E := fresh in destruct c eqn:E end; cbn; try reflexivity; congruence.
Qed.
Lemma handle_of_i dirs r i : rec_in dirs r i -> (N.of_nat (length dirs) <= 2 ^ 63)%N -> le_word (f_handle r) = i.
Proof. intros H Hc. rewrite (ri_handle _ _ _ H). apply le_word_bytes. pose proof (ri_lt _ _ _ H). change (256 ^ N.of_nat 8)%N with (2 ^ 64)%N. lia. Qed.
Lemma rec_path_i w r i : fine w -> rec_in (fw_dirs w) r i -> rec_path w r = at_path (nth (N.to_nat i) (fw_dirs w) []) (f_name r).
Proof. intros Hw H. unfold rec_path. now rewrite (handle_of_i _ _ _ H (fi_count w Hw)). Qed.

Lemma rec_in_grow dirs more r i : rec_in dirs r i -> rec_in (dirs ++ more) r i.
Proof. intros []. split; auto. - rewrite app_length. lia. - rewrite app_nth1 by lia. assumption. Qed.

Lemma sound_name_facts p n : sound_name p n = true ->
  n <> [] /\ (length n <= 255)%nat /\ Forall (fun b => b <> 0)%N n /\ text_eqb n (lit ".") = false /\ (length (at_path p n) <= 4095)%nat.
Proof.
  unfold sound_name. rewrite !andb_true_iff, !negb_true_iff. intros (((((H1 & H2) & H3) & H4) & H5) & H6).
  split; [intros ->; cbn in H1; discriminate|]. apply N.leb_le in H2, H6. split; [lia|]. split; [|split; [exact H4|lia]].
  apply Forall_forall. intros b Hb E. rewrite forallb_forall in H3. specialize (H3 b Hb). subst b. discriminate H3.
Qed.
Lemma rec_in_ok dirs r i : rec_in dirs r i -> frec_ok r /\ (f_len r <= 4095)%nat /\ (0 < f_len r)%nat.
Proof.
  intros [H1 H2 H3 H4 H5 H6 H7 H8]. apply sound_name_facts in H4 as (Hn1 & Hn2 & Hn3 & Hn4 & Hn5).
  assert (Hl : f_len r = (52 + (length (f_name r) + (4 - Nat.modulo (length (f_name r)) 4)))%nat).
  { unfold f_len. rewrite H2, H5, le_bytes_len. lia. }
  pose proof (Nat.mod_upper_bound (length (f_name r)) 4 ltac:(lia)) as Hm. pose proof (Nat.div_mod (length (f_name r)) 4 ltac:(lia)) as Hd.
  split; [|lia]. split.
  - rewrite H6. reflexivity.
  - exact Hn3.
  - rewrite H5. lia.
  - exists (14 + Nat.div (length (f_name r)) 4)%nat. lia.
  - lia.
  - exact H7.
Qed.

(** ** Joining a record to the queue *)
Lemma joins_facts a b : joins a b = true -> f_handle a = f_handle b /\ f_name a = f_name b /\ f_dir a = f_dir b.
Proof. unfold joins. rewrite !andb_true_iff. intros (((H1 & H2) & H3) & _). apply text_eqb_eq in H1, H2. apply Bool.eqb_prop in H3. auto. Qed.
Lemma enqueue_in q r x : In x (enqueue q r) ->
  In x q \/ x = r \/ exists y, In y q /\ joins y r = true /\ x = joined y r.
Proof.
  induction q as [|y q IH]; cbn [enqueue].
  - intros [<-|[]]. auto.
  - destruct (joins y r) eqn:E.
    + intros [<-|H]; [right; right; exists y; cbn; auto|left; now right].
    + intros [<-|H]; [left; now left|]. destruct (IH H) as [?|[?|(z & ? & ? & ?)]]; [left; now right|auto|]. right. right. exists z. cbn. auto.
Qed.
Lemma enqueue_has q r x k : In x q -> has k x = true -> exists y, In y (enqueue q r) /\ has k y = true /\ f_handle y = f_handle x /\ f_name y = f_name x /\ f_dir y = f_dir x.
Proof.
  induction q as [|z q IH]; [intros []|]. cbn [enqueue]. intros [<-|H] Hk.
  - destruct (joins z r) eqn:E.
    + exists (joined z r). split; [now left|]. split; [rewrite has_joined, Hk; reflexivity|]. auto.
    + exists z. split; [now left|]. auto.
  - destruct (joins z r) eqn:E.
    + exists x. split; [now right|]. auto.
    + destruct (IH H Hk) as (y & Hy & H'). exists y. split; [now right|]. exact H'.
Qed.
Lemma enqueue_new q r k : has k r = true -> exists y, In y (enqueue q r) /\ has k y = true /\ f_handle y = f_handle r /\ f_name y = f_name r /\ f_dir y = f_dir r.
Proof.
  intros Hk. induction q as [|z q IH]; cbn [enqueue].
  - exists r. split; [now left|]. auto.
  - destruct (joins z r) eqn:E.
    + exists (joined z r). split; [now left|]. split; [rewrite has_joined, Hk; apply orb_true_r|]. apply joins_facts in E. exact E.
    + destruct IH as (y & Hy & H'). exists y. split; [now right|]. exact H'.
Qed.

(** One record more, of a change. *)
Lemma fine_enqueue w r i : fine w -> rec_in (fw_dirs w) r i ->
  fine (FWorld (fw_dirs w) (fw_files w) (fw_marks w) (enqueue (fw_queue w) r) (fw_batches w)
    (fw_log w ++ map (fun k => (rec_path w r, k, f_dir r)) (f_kinds r))).
Proof.
  intros Hw Hr. pose proof Hw as [Hp Hc Hm Hrs Hl Ht Hb]. unfold all_recs in *. split; cbn [fw_dirs fw_marks fw_log fw_batches fw_queue]; auto.
  - intros x. unfold all_recs. cbn [fw_dirs fw_marks fw_log fw_batches fw_queue]. intros Hx. apply in_app_or in Hx as [Hx|Hx]; [apply Hrs, in_or_app; auto|].
    apply enqueue_in in Hx as [Hx|[->|(y & Hy & Hj & ->)]]; [apply Hrs, in_or_app; auto|now exists i|].
    destruct (Hrs y (in_or_app _ _ _ (or_intror Hy))) as (j & Hj'). exists j. destruct Hj'. apply joins_facts in Hj as (E1 & E2 & E3). split; auto.
    + intros E. assert (Hk : exists k, has k y = true).
      { destruct (f_kinds y) as [|k ks] eqn:Ek; [congruence|]. exists k. rewrite has_like, Ek. destruct k; reflexivity. }
      destruct Hk as (k & Hk). assert (Hk' : has k (joined y r) = true) by (rewrite has_joined, Hk; reflexivity). rewrite has_like, E in Hk'. discriminate.
    + rewrite !has_joined, !orb_true_iff. change (f_dir (joined y r)) with (f_dir y). intros [[H|H]|[H|H]]; auto; rewrite E3; apply (ri_files _ _ _ Hr); auto.
  - intros x k. unfold all_recs. cbn [fw_dirs fw_marks fw_log fw_batches fw_queue]. intros Hx Hk. apply in_app_or in Hx as [Hx|Hx].
    { apply in_or_app. left. apply (Hl x k); [|exact Hk]. apply in_or_app; auto. }
    apply enqueue_in in Hx as [Hx|[->|(y & Hy & Hj & ->)]].
    + apply in_or_app. left. apply (Hl x k); [|exact Hk]. apply in_or_app; auto.
    + apply in_or_app. right. rewrite has_like in Hk. apply existsb_exists in Hk as (k' & Hk' & E).
      assert (k' = k) by (destruct k, k'; try discriminate; reflexivity). subst k'. apply in_map_iff. now exists k.
    + rewrite has_joined, orb_true_iff in Hk. apply joins_facts in Hj as (E1 & E2 & E3).
      destruct Hk as [Hk|Hk].
      * apply in_or_app. left. apply (Hl y k); [|exact Hk]. apply in_or_app; auto.
      * apply in_or_app. right. rewrite has_like in Hk. apply existsb_exists in Hk as (k' & Hk' & E).
        assert (k' = k) by (destruct k, k'; try discriminate; reflexivity). subst k'. apply in_map_iff. exists k. split; [|exact Hk'].
        unfold rec_path, joined, with_kinds. cbn [f_handle f_name f_dir fw_dirs]. now rewrite E1, E2, E3.
  - intros p k d. unfold all_recs. cbn [fw_dirs fw_marks fw_log fw_batches fw_queue]. intros Hin. apply in_app_or in Hin as [Hin|Hin].
    + destruct (Ht p k d Hin) as (x & Hx & Hp' & Hk & Hd). apply in_app_or in Hx as [Hx|Hx].
      * exists x. split; [apply in_or_app; auto|]. auto.
      * destruct (enqueue_has (fw_queue w) r x k Hx Hk) as (y & Hy & Hyk & E1 & E2 & E3). exists y. split; [apply in_or_app; auto|].
        split; [|split; [exact Hyk|congruence]]. unfold rec_path in *. cbn [fw_dirs]. now rewrite E1, E2.
    + apply in_map_iff in Hin as (k' & E & Hk'). injection E as E1 E2 E3. subst k'.
      assert (Hk : has k r = true) by (rewrite has_like; apply existsb_exists; exists k; split; [exact Hk'|destruct k; reflexivity]).
      destruct (enqueue_new (fw_queue w) r k Hk) as (y & Hy & Hyk & F1 & F2 & F3). exists y. split; [apply in_or_app; auto|].
      split; [|split; [exact Hyk|congruence]]. rewrite <- E1. unfold rec_path. cbn [fw_dirs]. now rewrite F1, F2.
Qed.
Lemma fine_files w files : fine w -> fine (FWorld (fw_dirs w) files (fw_marks w) (fw_queue w) (fw_batches w) (fw_log w)).
Proof. intros []. split; auto. Qed.
Lemma fine_dir w p : fine w -> p <> [] -> (N.of_nat (length (fw_dirs w)) < 2 ^ 63)%N ->
  fine (FWorld (fw_dirs w ++ [p]) (fw_files w) (fw_marks w) (fw_queue w) (fw_batches w) (fw_log w)).
Proof.
  intros Hw Hp Hc.
  assert (Epath : forall r, In r (all_recs w) -> rec_path (FWorld (fw_dirs w ++ [p]) (fw_files w) (fw_marks w) (fw_queue w) (fw_batches w) (fw_log w)) r = rec_path w r).
  { intros r Hr. destruct (fi_recs w Hw r Hr) as (i & Hi). unfold rec_path. cbn [fw_dirs]. rewrite (handle_of_i _ _ _ Hi (fi_count w Hw)).
    rewrite app_nth1 by (pose proof (ri_lt _ _ _ Hi); lia). reflexivity. }
  destruct Hw as [H1 H2 H3 H4 H5 H6 H7]. split; cbn [fw_dirs fw_marks fw_log fw_batches]; auto.
  - apply Forall_app. auto.
  - rewrite app_length. cbn [length]. lia.
  - intros q Hq. apply in_or_app. auto.
  - intros r Hr. destruct (H4 r Hr) as (i & Hi). exists i. now apply rec_in_grow.
  - intros r k Hr Hk. rewrite (Epath r Hr). now apply H5.
  - intros q k d Hq. destruct (H6 q k d Hq) as (r & Hr & E & Hk). exists r. split; [exact Hr|]. split; [now rewrite (Epath r Hr)|exact Hk].
Qed.

(** ** A change *)
Lemma fan_rec_in w pid p n k d : In p (fw_dirs w) -> sound_name p n = true -> (k = FFrom \/ k = FTo -> d = false) ->
  rec_in (fw_dirs w) (fan_rec w pid (p, n, k, d)) (place p (fw_dirs w)).
Proof.
  intros Hp Hn Hk. split; cbn; auto.
  - now apply place_lt.
  - now rewrite place_nth.
  - discriminate.
  - destruct k; cbn; intros [H|H]; try discriminate; auto.
Qed.
Lemma fan_rec_path w pid p n k d : fine w -> In p (fw_dirs w) -> sound_name p n = true -> (k = FFrom \/ k = FTo -> d = false) ->
  rec_path w (fan_rec w pid (p, n, k, d)) = at_path p n.
Proof. intros Hw Hp Hn Hk. rewrite (rec_path_i w _ _ Hw (fan_rec_in w pid p n k d Hp Hn Hk)). now rewrite place_nth. Qed.

Definition sound_touch (w : fworld) (t : text * text * fkind * bool) : Prop :=
  match t with (p, n, k, d) => In p (fw_dirs w) /\ sound_name p n = true /\ (k = FFrom \/ k = FTo -> d = false) end.
Lemma fine_records pid : forall ts w, fine w -> Forall (sound_touch w) ts ->
  fine (FWorld (fw_dirs w) (fw_files w) (fw_marks w) (fold_left enqueue (map (fan_rec w pid) ts) (fw_queue w)) (fw_batches w)
    (fw_log w ++ map (fun t => match t with (p, n, k, d) => (at_path p n, k, d) end) ts)).
Proof.
  induction ts as [|[[[p n] k] d] ts IH]; intros w Hw Ht; cbn [map fold_left].
  { rewrite app_nil_r. destruct w. exact Hw. }
  inversion Ht as [|? ? Hst Ht']; subst. destruct Hst as (Hp & Hn & Hk). pose proof (fine_enqueue w _ _ Hw (fan_rec_in w pid p n k d Hp Hn Hk)) as Hf.
  rewrite (fan_rec_path w pid p n k d Hw Hp Hn Hk) in Hf. cbn [f_kinds map f_dir] in Hf.
  change (map (fun k0 => (at_path p n, k0, d)) [k]) with [(at_path p n, k, d)] in Hf.
  specialize (IH _ Hf Ht'). cbn [fw_dirs fw_files fw_marks fw_queue fw_batches fw_log] in IH. rewrite <- app_assoc in IH. exact IH.
Qed.
Lemma touches_sound w o : may w o = true -> Forall (sound_touch w) (touches o).
Proof.
  destruct o as [pid d p n|pid p n|pid p n|pid p n q m]; cbn [may touches]; rewrite !andb_true_iff; intros H;
    repeat match goal with H : _ /\ _ |- _ => destruct H end; repeat match goal with H : mem _ _ = true |- _ => apply mem_in in H end;
    repeat (constructor; [split; [assumption|split; [assumption|intros [?|?]; congruence]]|]); constructor.
Qed.
Lemma happen_fine w o : fine w -> fine (happen w o).
Proof.
  intros Hw. unfold happen. destruct (may w o) eqn:Hm; [|exact Hw].
  pose proof (fine_records (by_pid o) (filter (fun t => mem (fst (fst (fst t))) (fw_marks w)) (touches o)) w Hw) as Hf.
  assert (Hs : Forall (sound_touch w) (filter (fun t => mem (fst (fst (fst t))) (fw_marks w)) (touches o))).
  { apply Forall_forall. intros t Ht. apply filter_In in Ht as [Ht _]. revert t Ht. apply Forall_forall, touches_sound, Hm. }
  specialize (Hf Hs). fold (records w o) in Hf. fold (noted w o) in Hf.
  destruct o as [pid d p n|pid p n|pid p n|pid p n q m]; try exact (fine_files _ _ Hf).
  destruct d; [|exact (fine_files _ _ Hf)]. cbn [dirs_then files_then].
  apply (fine_dir (FWorld (fw_dirs w) (fw_files w) (fw_marks w) (fold_left enqueue (records w (FMake pid true p n)) (fw_queue w)) (fw_batches w) (fw_log w ++ noted w (FMake pid true p n))));
    [exact Hf| |].
  - unfold at_path. destruct p; discriminate.
  - cbn [may] in Hm. rewrite !andb_true_iff in Hm. destruct Hm as (_ & Hm). apply N.ltb_lt in Hm. exact Hm.
Qed.
Lemma happens_fine os : forall w, fine w -> fine (happens w os).
Proof. induction os as [|o os IH]; intros w Hw; [exact Hw|]. apply IH, happen_fine, Hw. Qed.

(** ** Calls *)
Lemma fine_mark w p : fine w -> In p (fw_dirs w) -> fine (FWorld (fw_dirs w) (fw_files w) (p :: fw_marks w) (fw_queue w) (fw_batches w) (fw_log w)).
Proof. intros [] Hp. split; auto. cbn [fw_marks fw_dirs]. intros q [<-|H]; auto. Qed.
Lemma marking_fine mine deny m w p : fine w -> fine (snd (marking mine deny m w p)).
Proof.
  intros Hw. unfold marking. destruct (negb mine || deny || negb (mem p (fw_dirs w))) eqn:E; [exact Hw|]. cbn [snd].
  destruct (asks m); [|exact Hw]. apply orb_false_iff in E as [_ E]. apply negb_false_iff in E. apply mem_in in E. now apply fine_mark.
Qed.
Lemma fitting_le : forall n q room, (fitting room n q <= length q)%nat.
Proof. induction n as [|n IH]; intros [|r q] room; cbn [fitting length]; try lia. destruct (_ <=? room)%N; [|lia]. specialize (IH q (room - N.of_nat (f_len r))%N). lia. Qed.
Lemma fitting_len : forall n q room, (forall r, In r q -> frec_ok r) -> (N.of_nat (length (fencode (map Chg (firstn (fitting room n q) q)))) <= room)%N.
Proof.
  induction n as [|n IH]; intros [|r q] room H; cbn [fitting firstn map]; try (cbn; lia).
  destruct (N.leb_spec (N.of_nat (f_len r)) room) as [Hle|]; [|cbn; lia]. cbn [firstn map]. rewrite fencode_len, flen_chg by (apply H; now left).
  specialize (IH q (room - N.of_nat (f_len r))%N (fun x Hx => H x (or_intror Hx))). lia.
Qed.
Lemma reading_fine mine want w : fine w -> fine (snd (reading mine want w)).
Proof.
  intros Hw. unfold reading. destruct mine; [|exact Hw]. destruct (fw_queue w) as [|r q] eqn:Eq; [exact Hw|]. cbn [snd].
  set (k := fitting 4095 (S want) (r :: q)). rewrite <- Eq in *.
  assert (Hall : forall x, In x (all_recs (FWorld (fw_dirs w) (fw_files w) (fw_marks w) (skipn k (fw_queue w)) (fw_batches w ++ [firstn k (fw_queue w)]) (fw_log w))) <-> In x (all_recs w)).
  { intros x. unfold all_recs. cbn [fw_queue fw_batches]. rewrite concat_app. cbn [concat]. rewrite app_nil_r, <- app_assoc, firstn_skipn. tauto. }
  assert (Hok : forall x, In x (fw_queue w) -> frec_ok x /\ (f_len x <= 4095)%nat).
  { intros x Hx. destruct (fi_recs w Hw x (in_or_app _ _ _ (or_intror Hx))) as (i & Hi). destruct (rec_in_ok _ _ _ Hi) as (H & H' & _). auto. }
  pose proof Hw as [H1 H2 H3 H4 H5 H6 H7]. split; cbn [fw_dirs fw_marks fw_log fw_batches]; auto.
  - intros x Hx. apply H4, Hall, Hx.
  - intros x kk Hx Hk. apply Hall in Hx. exact (H5 x kk Hx Hk).
  - intros p kk d Hp. destruct (H6 p kk d Hp) as (x & Hx & E). exists x. split; [apply Hall, Hx|exact E].
  - intros b Hb. apply in_app_or in Hb as [Hb|[<-|[]]]; [now apply H7|]. split.
    + unfold k. rewrite Eq. cbn [fitting]. assert (Hl : (f_len r <= 4095)%nat) by (apply Hok; rewrite Eq; now left).
      destruct (N.leb_spec (N.of_nat (f_len r)) 4095); [discriminate|lia].
    + assert (Hl : (N.of_nat (length (fencode (map Chg (firstn k (fw_queue w))))) <= 4095)%N).
      { unfold k. rewrite <- Eq. apply fitting_len. intros x Hx. apply Hok, Hx. }
      lia.
Qed.

(** ** States *)
Lemma state_snoc e tr x : state e (tr ++ [x]) =
  match x with
  | OFanMark fd p m _ => snd (marking (fd =? fe_fd e)%Z (fe_deny e tr) m (at_call e tr) p)
  | ORead fd _ => snd (reading (fd =? fe_fd e)%Z (fe_want e tr) (at_call e tr))
  | _ => at_call e tr
  end.
Proof. unfold state, at_call. rewrite rev_app_distr. cbn [rev app state_rev]. rewrite rev_involutive. reflexivity. Qed.
Lemma start_fine dirs files : Forall (fun d => d <> []) dirs -> (N.of_nat (length dirs) <= 2 ^ 63)%N -> fine (fworld_start dirs files).
Proof. intros H1 H2. split; cbn; auto; try (intros; contradiction). Qed.

Section States.
  Variable e : fenv.
  Hypothesis He : fenv_ok e.
  Lemma state_fine tr : fine (state e tr).
  Proof.
    induction tr as [|x tr IH] using rev_ind.
    - unfold state. cbn [rev state_rev]. destruct (fv_start e He) as (dirs & files & -> & Hd & Hl & _). apply start_fine; [|exact Hl].
      eapply Forall_impl; [|exact Hd]. intros d [H _]. exact H.
    - rewrite state_snoc. assert (Ha : fine (at_call e tr)) by (apply happens_fine, IH).
      destruct x; try exact Ha; [now apply marking_fine|now apply reading_fine].
  Qed.
  Lemma at_call_fine tr : fine (at_call e tr).
  Proof. apply happens_fine, state_fine. Qed.
  (** Directories, log and batches only grow. *)
  Definition later (w w' : fworld) : Prop :=
    (exists more, fw_dirs w' = fw_dirs w ++ more) /\ (exists more, fw_log w' = fw_log w ++ more).
  Lemma later_refl w : later w w.
  Proof. split; exists []; now rewrite app_nil_r. Qed.
  Lemma later_trans a b c : later a b -> later b c -> later a c.
  Proof.
    intros [[d1 E1] [l1 F1]] [[d2 E2] [l2 F2]]. split; [exists (d1 ++ d2); rewrite E2, E1|exists (l1 ++ l2); rewrite F2, F1]; now rewrite app_assoc.
  Qed.
  Lemma happen_later w o : later w (happen w o) /\ fw_batches (happen w o) = fw_batches w.
  Proof.
    unfold happen. destruct (may w o); [|split; [apply later_refl|reflexivity]]. split; [|reflexivity]. split; cbn [fw_dirs fw_log]; [|now exists (noted w o)].
    destruct o as [pid [|] p n|pid p n|pid p n|pid p n q m]; cbn [dirs_then]; try (exists []; now rewrite app_nil_r). now exists [at_path p n].
  Qed.
  Lemma happens_later os : forall w, later w (happens w os) /\ fw_batches (happens w os) = fw_batches w.
  Proof.
    induction os as [|o os IH]; intros w; [split; [apply later_refl|reflexivity]|]. unfold happens. cbn [fold_left]. fold (happens (happen w o) os).
    destruct (IH (happen w o)) as [H1 H2]. destruct (happen_later w o) as [H3 H4]. split; [now apply (later_trans _ _ _ H3)|congruence].
  Qed.
  Lemma marking_later mine deny m w p : later w (snd (marking mine deny m w p)) /\ fw_batches (snd (marking mine deny m w p)) = fw_batches w.
  Proof. unfold marking. destruct (_ || _); [split; [apply later_refl|reflexivity]|]. cbn [snd]. destruct (asks m); (split; [|reflexivity]); (split; exists []; now rewrite app_nil_r). Qed.
  Lemma reading_later mine want w : later w (snd (reading mine want w)).
  Proof. unfold reading. destruct mine; [|apply later_refl]. destruct (fw_queue w); [apply later_refl|]. split; exists []; now rewrite app_nil_r. Qed.
  Lemma call_later tr : later (state e tr) (at_call e tr) /\ fw_batches (at_call e tr) = fw_batches (state e tr).
  Proof. apply happens_later. Qed.
  Lemma state_later tr t : later (state e tr) (state e (tr ++ t)).
  Proof.
    induction t as [|x t IH] using rev_ind; [rewrite app_nil_r; apply later_refl|]. rewrite app_assoc, state_snoc. apply (later_trans _ _ _ IH).
    destruct (call_later (tr ++ t)) as [H _]. apply (later_trans _ _ _ H).
    destruct x; try apply later_refl; [apply marking_later|apply reading_later].
  Qed.
  Lemma at_call_later tr t : later (at_call e tr) (at_call e (tr ++ t)).
  Proof.
    destruct t as [|x t] using rev_ind; [rewrite app_nil_r; apply later_refl|clear IHt].
    rewrite app_assoc. destruct (call_later ((tr ++ t) ++ [x])) as [H _]. refine (later_trans _ _ _ _ H).
    assert (H1 : later (at_call e tr) (at_call e (tr ++ t)) -> later (at_call e tr) (state e ((tr ++ t) ++ [x]))).
    { intros Ha. apply (later_trans _ _ _ Ha). rewrite state_snoc. destruct x; try apply later_refl; [apply marking_later|apply reading_later]. }
    apply H1. clear H H1. induction t as [|y t IH] using rev_ind; [rewrite app_nil_r; apply later_refl|].
    rewrite app_assoc. apply (later_trans _ _ _ IH). destruct (call_later ((tr ++ t) ++ [y])) as [H _]. refine (later_trans _ _ _ _ H).
    rewrite state_snoc. destruct y; try apply later_refl; [apply marking_later|apply reading_later].
  Qed.
  Lemma state_batches tr t : Forall (fun x => match x with ORead _ _ => False | _ => True end) t -> fw_batches (state e (tr ++ t)) = fw_batches (state e tr).
  Proof.
    induction t as [|x t IH] using rev_ind; intros H; [now rewrite app_nil_r|]. apply Forall_app in H as [Ht Hx]. inversion Hx; subst.
    rewrite app_assoc, state_snoc, <- (IH Ht). destruct (call_later (tr ++ t)) as [_ E]. destruct x; try exact E; [|contradiction].
    rewrite <- E. apply marking_later.
  Qed.
End States.

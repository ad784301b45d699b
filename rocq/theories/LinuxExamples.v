(** Runs that refute or delimit claims about the Linux adapter. *)
From Verif Require Import Base PathModel EventModel Sys SysFacts LinuxModel InotifyModel
  FanotifyModel LinuxWatch LinuxSpec LinuxFacts LinuxRun LinuxProps LinuxLoop InotifySpec InotifyFacts InotifyRun
  InotifyClaims InotifyTree WalkSpec WalkFacts ExampleOs.

(** ** C09: stop first in every batch, events always pending *)

(** Every wait reports the stop descriptor (5) and, after it, the event
    descriptor (3); no event is ever there to be read. *)
Definition busy : os :=
  let s := scripted 1000 tree_w [] [] in
  {| os_now := os_now s; os_geteuid := os_geteuid s; os_realpath := os_realpath s;
     os_is_dir := os_is_dir s; os_opendir := os_opendir s; os_inotify_init := os_inotify_init s;
     os_add_watch := os_add_watch s; os_fan_init := os_fan_init s; os_fan_mark := os_fan_mark s;
     os_epoll_create := os_epoll_create s; os_epoll_ctl := os_epoll_ctl s;
     os_epoll_wait := fun _ _ => Some [5; 3]%Z;
     os_read := os_read s; os_open_handle := os_open_handle s; os_readlink := os_readlink s |}.

Lemma busy_read tr fd n : os_read busy tr fd n = again.
Proof. cbn. destruct (count is_read tr); reflexivity. Qed.

Lemma busy_recv ke tr : exists o ke', in_recv busy ke tr = (o, Ok (r_pending, ke')) /\ kin_fd ke' = kin_fd ke /\ Forall no_wait o.
Proof.
  unfold in_recv, bind, sys_read. rewrite busy_read. cbn [again rd_len rd_errno rd_bytes].
  change ((-1 <? 0)%Z && negb (11 =? 11)%Z) with false. cbv iota.
  change (N.to_nat 260) with (S (N.to_nat 259)). cbn [in_loop].
  change (negb (Z.of_N 0 <? -1)%Z) with true. cbv iota. cbn [ret app fold_left].
  do 2 eexists. split; [reflexivity|]. split; [reflexivity|]. repeat constructor.
Qed.

(** What every wait of a trace answers. *)
Definition waits_all (l : list Z) (o : trace) : Prop := forall ep r, In (OEpollWait ep r) o -> r = Some l.
Lemma waits_all_none l o : Forall no_wait o -> waits_all l o.
Proof. intros H ep r Hin. rewrite Forall_forall in H. now apply H in Hin. Qed.

Lemma busy_loop n : forall ep ke tr, kin_fd ke = 3%Z ->
  let x := ep_loop busy kin kin_fd (in_recv busy) 5 n ep r_pending ke tr in snd x = Fuel /\ waits_all [5; 3]%Z (fst x).
Proof.
  induction n as [|n IH]; intros ep ke tr Hke; cbv zeta; [split; [reflexivity|intros ? ? []]|].
  rewrite (ep_loop_some busy 5 kin kin_fd (in_recv busy) n ep r_pending ke tr [5; 3]%Z eq_refl eq_refl). cbv zeta.
  change (firstn 64 [5; 3]%Z) with [5; 3]%Z. cbn [each_ready]. rewrite Hke. cbn [Z.eqb Pos.eqb].
  set (w := OEpollWait ep (Some [5; 3]%Z)).
  destruct (busy_recv ke (tr ++ [w])) as (o & ke' & E & Hfd & Hq). rewrite Hke in Hfd.
  unfold bind. rewrite E. cbn [ret app].
  specialize (IH ep ke' ((tr ++ [w]) ++ o ++ []) Hfd). cbv zeta in IH.
  destruct (ep_loop busy kin kin_fd (in_recv busy) 5 n ep r_pending ke' ((tr ++ [w]) ++ o ++ [])) as [o2 r2].
  cbn [fst snd] in *. destruct IH as [-> IH]. split; [reflexivity|].
  intros ep' r [[= _ <-]|Hin]; [reflexivity|]. rewrite app_nil_r in Hin. apply in_app_or in Hin as [Hin|Hin]; [|eapply IH, Hin].
  eapply waits_all_none; eassumption.
Qed.

Lemma busy_forever n : let x := linux_watch busy n (lit "/w") 5 [] in
  snd x = Fuel /\ waits_all [5; 3]%Z (fst x).
Proof.
  cbv zeta.
  assert (Hmk : forall n, exists a ke, in_make_sysres busy (S (S n)) (lit "/w") 5 [OGeteuid 1000] = (a, Ok (r_pending, ke, 4%Z)) /\
     kin_fd ke = 3%Z /\ Forall no_wait a).
  { intros k. do 2 eexists. split; [vm_compute; reflexivity|]. split; [reflexivity|]. repeat constructor. }
  assert (Hbig : forall n, let x := linux_watch busy (S (S n)) (lit "/w") 5 [] in snd x = Fuel /\ waits_all [5; 3]%Z (fst x)).
  { intros k. cbv zeta. destruct (Hmk k) as (a & ke & E & Hke & Ha).
    unfold linux_watch, try_fanotify, run_inotify, platform_watch. set (f := S (S k)) in *. clearbody f.
    unfold bind, geteuid, ret. change (os_geteuid busy []) with 1000%Z. cbn [Z.eqb app r_eqb code N.eqb Pos.eqb].
    rewrite E.
    pose proof (busy_loop f 4 ke ([OGeteuid 1000] ++ a) Hke) as [H1 H2]. cbn [app] in *.
    destruct (ep_loop busy kin kin_fd (in_recv busy) 5 f 4 r_pending ke (OGeteuid 1000 :: a)) as [o r].
    cbn [fst snd] in *. subst r. cbn [fst snd]. split; [reflexivity|].
    intros ep x [[=]|Hin]. apply in_app_or in Hin as [Hin|Hin]; [eapply waits_all_none; eassumption|eapply H2, Hin]. }
  destruct n as [|[|n]]; [..|apply Hbig]; (split; [vm_compute; reflexivity|]);
    apply waits_all_none; vm_compute; repeat constructor.
Qed.

(** ** C33: a path of PATH_MAX - 1 bytes with a subdirectory *)
Definition long_path : text := lit "/" ++ repeat 97%N (N.to_nat 4094).
Definition deep : os := scripted 1000 [(long_path, [sub "d"])] [] [].

Lemma text_eqb_refl' t : text_eqb t t = true.
Proof. induction t; cbn; [reflexivity|]. now rewrite N.eqb_refl. Qed.

Lemma deep_walk (f : text -> zmap text -> M (zmap text)) :
  (forall d t, exists o d', f long_path d t = (o, Ok d')) ->
  forall n dm tr, snd (walkdir deep n long_path f dm tr) = Fuel.
Proof.
  intros Hm. induction n as [|n IH]; intros dm tr; [reflexivity|].
  rewrite walkdir_S. unfold bind at 1, opendir.
  assert (Ho : os_opendir deep tr long_path = Some [sub "d"]).
  { change (fs_find [(long_path, [sub "d"])] long_path = Some [sub "d"]). cbn [fs_find]. now rewrite text_eqb_refl'. }
  rewrite Ho.
  destruct (Hm dm (tr ++ [OOpendir long_path (Some [sub "d"])])) as (o1 & d1 & E1).
  unfold bind at 1. rewrite E1. unfold bind at 1.
  rewrite each_cons. cbn [sub de_type de_name N.eqb Pos.eqb negb].
  change (text_eqb (lit "d") (lit ".")) with false. change (text_eqb (lit "d") (lit "..")) with false. cbv iota.
  assert (Ht : firstn path_ulim (long_path ++ lit "/" ++ lit "d") = long_path).
  { rewrite firstn_app. replace (path_ulim - length long_path)%nat with 0%nat.
    2:{ unfold long_path. rewrite app_length, repeat_length. unfold path_ulim. change (length (lit "/")) with 1%nat. lia. }
    rewrite firstn_O, app_nil_r. apply firstn_all2. unfold long_path. rewrite app_length, repeat_length. unfold path_ulim. change (length (lit "/")) with 1%nat. lia. }
  rewrite Ht. unfold bind at 1, realpath. cbn [deep scripted os_realpath].
  unfold bind at 1.
  match goal with |- context [walkdir deep n long_path f d1 ?t] => specialize (IH d1 t); destruct (walkdir deep n long_path f d1 t) as [o2 r2] end.
  cbn [snd] in IH. subst r2. reflexivity.
Qed.

Lemma deep_forever n : snd (linux_watch deep n long_path 5 []) = Fuel.
Proof.
  unfold linux_watch, try_fanotify, run_inotify, platform_watch, in_make_sysres.
  unfold bind, geteuid, inotify_init, ret. change (os_geteuid deep []) with 1000%Z. cbn [Z.eqb app r_eqb code N.eqb Pos.eqb].
  change (os_inotify_init deep [OGeteuid 1000]) with 3%Z. change (3 <? 0)%Z with false. cbv iota.
  cbv beta.   match goal with |- context [walkdir deep n long_path ?f [] ?t] => assert (H : snd (walkdir deep n long_path f [] t) = Fuel); [apply deep_walk|destruct (walkdir deep n long_path f [] t) as [o r]] end.
  - intros d t. unfold in_mark, bind, realpath, stat_dir, inotify_add_watch, ret. cbn [deep scripted os_realpath os_is_dir os_add_watch].
    destruct (0 <? _)%Z; do 2 eexists; reflexivity.
  - cbn [snd] in *. subst r. reflexivity.
Qed.

(** ** Concrete batches *)
Lemma kr_ok wd k d c n : (-2147483648 <= wd < 2147483648)%Z -> (c < 4294967296)%N ->
  (String.length n < 256)%nat -> Forall (fun b => b <> 0 /\ b <> 47)%N (lit n) ->
  (names_entry k = true -> n <> EmptyString) -> krec_ok (kr wd k d c n).
Proof.
  intros H1 H2 H3 H4 H5. split; cbn [kr k_wd k_cookie k_name k_pad k_kind]; auto.
  - assert (Hl : length (lit n) = String.length n). { clear. induction n; cbn; auto. }
    rewrite Hl. destruct n; [cbn; lia|]. generalize (Nat.modulo (String.length (String a n)) 16). revert H3. generalize (String.length (String a n)). lia.
  - intros Hn. destruct n; [now elim Hn|]. pose proof (Nat.mod_upper_bound (String.length (String a n)) 16). lia.
  - intros Hk Hn. apply H5 in Hk. destruct n; [congruence|discriminate].
Qed.

(** Renames in the right order, checked on adjacent records. *)
Fixpoint ordered_b (rs : list krec) : bool :=
  match rs with
  | r :: ((n :: _) as rs') =>
      negb (match k_kind n, k_kind r with KMovedFrom, KMovedTo => (k_cookie r =? k_cookie n)%N | _, _ => false end)
      && (negb (match k_kind r, k_kind n with KMovedFrom, KMovedTo => true | _, _ => false end) || Bool.eqb (k_dir n) (k_dir r))
      && ordered_b rs'
  | _ => true
  end.
Lemma ordered_b_ok rs : ordered_b rs = true -> renames_ordered rs.
Proof.
  induction rs as [|r rs IH]; intros H a x y b E; [destruct a; discriminate|].
  destruct a as [|z a]; cbn [app] in E.
  - injection E as -> ->. cbn [ordered_b] in H. apply andb_prop in H as [H _]. apply andb_prop in H as [H1 H2]. split.
    + intros (P1 & P2 & P3 & P4). rewrite P1, P2, P3, N.eqb_refl in H1. discriminate.
    + intros (P1 & P2 & P3 & P4). rewrite P1, P2 in H2. cbn in H2. now apply Bool.eqb_prop.
  - injection E as <- E. destruct rs as [|q rs]; [destruct a; discriminate|].
    cbn [ordered_b] in H. apply andb_prop in H as [_ H]. exact (IH H a x y b E).
Qed.

Fixpoint local_b (rs : list krec) : bool :=
  match rs with
  | r :: ((n :: _) as rs') =>
      (negb (match k_kind r, k_kind n with KMovedFrom, KMovedTo => true | _, _ => false end) || (k_wd n =? k_wd r)%Z)
      && local_b rs'
  | _ => true
  end.
Lemma local_b_ok rs : local_b rs = true -> renames_local rs.
Proof.
  induction rs as [|r rs IH]; intros H a x y b E; [destruct a; discriminate|].
  destruct a as [|z a]; cbn [app] in E.
  - injection E as -> ->. cbn [local_b] in H. apply andb_prop in H as [H _].
    intros (P1 & P2 & P3 & P4). rewrite P1, P2 in H. cbn in H. lia.
  - injection E as <- E. destruct rs as [|q rs]; [destruct a; discriminate|].
    cbn [local_b] in H. apply andb_prop in H as [_ H]. exact (IH H a x y b E).
Qed.

(** A scripted kernel of batches. *)
Lemma scripted_kernel loose uid f w rss :
  Forall (fun rs => batch_ok rs /\ (loose = false -> renames_local rs)) rss ->
  inotify_kernel loose (scripted uid f w (map (fun rs => gives (encode rs)) rss)).
Proof.
  intros H tr fd n. cbn [scripted os_read]. generalize (count is_read tr). intros k.
  destruct (nth_in_or_default k (map (fun rs => gives (encode rs)) rss) again) as [Hin| ->]; [right|now left].
  apply in_map_iff in Hin as (rs & <- & Hin). rewrite Forall_forall in H. destruct (H rs Hin). exists rs. auto.
Qed.

Lemma deep_no_wait n : Forall no_wait (fst (linux_watch deep n long_path 5 [])).
Proof.
  unfold linux_watch, try_fanotify, run_inotify, platform_watch, in_make_sysres.
  unfold bind, geteuid, inotify_init, ret. change (os_geteuid deep []) with 1000%Z. cbn [Z.eqb app r_eqb code N.eqb Pos.eqb].
  change (os_inotify_init deep [OGeteuid 1000]) with 3%Z. change (3 <? 0)%Z with false. cbv iota. cbv beta.
  match goal with |- context [walkdir deep n long_path ?f [] ?t] => assert (H : snd (walkdir deep n long_path f [] t) = Fuel); [apply deep_walk|
     assert (Hw : Forall no_wait (fst (walkdir deep n long_path f [] t))); [|destruct (walkdir deep n long_path f [] t) as [o r]]] end.
  - intros d t. unfold in_mark, bind, realpath, stat_dir, inotify_add_watch, ret. cbn [deep scripted os_realpath os_is_dir os_add_watch].
    destruct (0 <? _)%Z; do 2 eexists; reflexivity.
  - apply (ev_walkdir deep (Forall no_wait) (closed_no_wait deep)); [intros; repeat constructor..|].
    intros p d t. unfold in_mark, bind, realpath, stat_dir, inotify_add_watch, ret. cbn [deep scripted os_realpath os_is_dir os_add_watch].
    destruct (0 <? _)%Z; repeat constructor.
  - cbn [snd fst] in *. subst r. repeat constructor. exact Hw.
Qed.

(** Facts about the Windows adapter: one buffer. *)
From Verif Require Import Base EventModel InotifySpec Mon WindowsModel WindowsSpec.
From Verif Require Sys SysFacts.

Lemma pbind_silent {A B} (m : NT A) (k : A -> NT B) tr a : m tr = ([], Ok a) -> pbind m k tr = k a tr.
Proof. intros E. unfold pbind. rewrite E, app_nil_r. now destruct (k a tr). Qed.
Lemma pbind_ext {A B} (m : NT A) (k k' : A -> NT B) tr : (forall a tr', k a tr' = k' a tr') -> pbind m k tr = pbind m k' tr.
Proof. intros H. unfold pbind. destruct (m tr) as [o [a|u| |]]; try reflexivity. now rewrite H. Qed.

(** ** Paths *)
Lemma win_join_entry p q : win_join p q = win_entry p q.
Proof.
  unfold win_join, win_entry. destruct p as [|c p]; [reflexivity|].
  assert (L : last (c :: p) 0%N = last (c :: p) 58%N).
  { revert c. induction p as [|d p IH]; intros c; [reflexivity|]. change (last (d :: p) 0%N = last (d :: p) 58%N). apply IH. }
  rewrite L. unfold win_sep, existsb. rewrite orb_false_r. now rewrite orb_assoc.
Qed.
(** ** Bytes *)
Lemma bytes_at_mid pre bs post off len tr : N.to_nat len = length bs -> N.to_nat off = length pre ->
  bytes_at (pre ++ bs ++ post) off len tr = ([], Ok bs).
Proof.
  intros Hl Ho. unfold bytes_at. rewrite Ho, SysFacts.skipn_app_len by reflexivity. rewrite Hl, SysFacts.firstn_app_len by reflexivity.
  now rewrite Nat.eqb_refl.
Qed.
Lemma dword_at_mid pre v post off tr : (v < 2 ^ 32)%N -> N.to_nat off = length pre ->
  dword_at (pre ++ Sys.le_bytes 4 v ++ post) off tr = ([], Ok v).
Proof.
  intros Hv Ho. unfold dword_at. rewrite (pbind_silent _ _ _ (Sys.le_bytes 4 v)).
  - unfold pret. rewrite SysFacts.le_word_bytes; [reflexivity|exact Hv].
  - apply bytes_at_mid; [now rewrite SysFacts.le_bytes_len|exact Ho].
Qed.
Lemma units_bytes name : Forall (fun u => u < 65536)%N name -> units (flat_map (Sys.le_bytes 2) name) = name.
Proof.
  induction 1 as [|u name Hu _ IH]; [reflexivity|]. cbn [flat_map].
  change (Sys.le_bytes 2 u) with [(u mod 256)%N; ((u / 256) mod 256)%N]. cbn [app units].
  rewrite IH. f_equal. pose proof (N.div_mod u 256). pose proof (N.mod_small (u / 256) 256).
  rewrite H0; [lia|]. apply N.div_lt_upper_bound; lia.
Qed.
Lemma name_bytes_len name : length (flat_map (Sys.le_bytes 2) name) = (2 * length name)%nat.
Proof. induction name as [|u name IH]; [reflexivity|]. cbn [flat_map]. rewrite app_length, IH, SysFacts.le_bytes_len. cbn. lia. Qed.
Lemma w_bytes_len next r : N.of_nat (length (w_bytes next r)) = w_size r.
Proof. unfold w_bytes, w_size. rewrite !app_length, !SysFacts.le_bytes_len, repeat_length, name_bytes_len. lia. Qed.

(** One turn of the loop. *)
Lemma send_turn s n root pre next r post len off old new tr : wrec_ok r -> (next < 2 ^ 32)%N -> (16 <= len)%N -> N.to_nat off = length pre ->
  send_loop s (S n) root (pre ++ w_bytes next r ++ post) len off old new tr =
  pbind (win_record s root (w_action r) (w_name r) old new)
    (fun x => if (next =? 0)%N then pret tt else send_loop s n root (pre ++ w_bytes next r ++ post) len (off + next) (fst x) (snd x)) tr.
Proof.
  intros [Ha Hs Hn] Hx Hlen Ho. set (buf := pre ++ w_bytes next r ++ post). cbn [send_loop].
  replace (fni_size <=? len)%N with true by (unfold fni_size; lia).
  set (nb := flat_map (Sys.le_bytes 2) (w_name r)). set (nl := (2 * N.of_nat (length (w_name r)))%N).
  assert (B0 : buf = pre ++ Sys.le_bytes 4 next ++ (Sys.le_bytes 4 (w_action r) ++ Sys.le_bytes 4 nl ++ nb ++ repeat 0%N (w_pad r) ++ post)).
  { unfold buf, w_bytes. now rewrite <- !app_assoc. }
  assert (B1 : buf = (pre ++ Sys.le_bytes 4 next) ++ Sys.le_bytes 4 (w_action r) ++ (Sys.le_bytes 4 nl ++ nb ++ repeat 0%N (w_pad r) ++ post)).
  { rewrite B0. now rewrite <- !app_assoc. }
  assert (B2 : buf = ((pre ++ Sys.le_bytes 4 next) ++ Sys.le_bytes 4 (w_action r)) ++ Sys.le_bytes 4 nl ++ (nb ++ repeat 0%N (w_pad r) ++ post)).
  { rewrite B0. now rewrite <- !app_assoc. }
  assert (B3 : buf = (((pre ++ Sys.le_bytes 4 next) ++ Sys.le_bytes 4 (w_action r)) ++ Sys.le_bytes 4 nl) ++ nb ++ (repeat 0%N (w_pad r) ++ post)).
  { rewrite B0. now rewrite <- !app_assoc. }
  unfold w_size in Hs.
  erewrite pbind_silent; [|rewrite B2; apply dword_at_mid; [unfold nl; lia|rewrite !app_length, !SysFacts.le_bytes_len; lia]].
  assert (Hm : (nl mod 2 =? 0)%N = true). { apply N.eqb_eq. unfold nl. rewrite N.mul_comm, N.mod_mul; lia. }
  rewrite Hm.
  erewrite pbind_silent; [|rewrite B3; apply bytes_at_mid; [unfold nb, nl; rewrite name_bytes_len; lia|rewrite !app_length, !SysFacts.le_bytes_len; lia]].
  erewrite pbind_silent; [|rewrite B1; apply dword_at_mid; [exact Ha|rewrite !app_length, !SysFacts.le_bytes_len; lia]].
  unfold nb. rewrite units_bytes by exact Hn. apply pbind_ext. intros [o' n'] tr'. cbn [fst snd].
  erewrite pbind_silent; [reflexivity|]. rewrite B0. apply dword_at_mid; [exact Hx|exact Ho].
Qed.

(** ** One record *)
Definition sending (x : nobs) : Prop := match x with NCb _ | NNow _ | NIsDir _ _ => True | _ => False end.
Definition telling (x : nobs) : Prop := match x with NCb _ | NNow _ => True | _ => False end.
Definition ren (old new : text * path_type) : shape :=
  Sh (fst old) EtRename (snd old) (Some (Sh (fst new) EtRename (snd new) None)).
(** Events and trackers after a record. *)
Definition after (r : wrec) (x : text * path_type) (old new : tracker) : list shape * (tracker * tracker) :=
  if is_old r then match new with Some n => ([ren x n], (None, None)) | None => ([], (Some x, None)) end
  else if is_new r then match old with Some o => ([ren o x], (None, None)) | None => ([], (None, Some x)) end
  else ([Sh (fst x) (action_effect (w_action r)) (snd x) None], (old, new)).
Lemma win_effect_ok a : win_effect a = action_effect a.
Proof.
  unfold win_effect, FILE_ACTION_MODIFIED, FILE_ACTION_ADDED, FILE_ACTION_REMOVED, FILE_ACTION_RENAMED_OLD_NAME, FILE_ACTION_RENAMED_NEW_NAME.
  destruct a as [|[[[]|[]|]|[[]|[]|]|]]; try reflexivity.
Qed.
Lemma record_spec s root r old new tr : exists d o,
  let p := win_join root (w_name r) in
  win_record s root (w_action r) (w_name r) old new tr = (NIsDir p d :: o, Ok (snd (after r (p, dir_type d) old new))) /\
  Forall telling o /\ nshown o = fst (after r (p, dir_type d) old new).
Proof.
  unfold win_record. set (p := win_join root (w_name r)). set (d := nf_isdir s tr p). exists d. cbn zeta.
  unfold win_ptype, pbind at 2, ask. fold d. unfold pret at 1. unfold pbind at 1. cbn [app].
  change (match d with Some true => PtDir | Some false => PtFile | None => PtOther end) with (dir_type d).
  unfold after, is_old, is_new, FILE_ACTION_RENAMED_OLD_NAME, FILE_ACTION_RENAMED_NEW_NAME.
  destruct (w_action r =? 4)%N eqn:E4; [destruct new as [nn|]|destruct (w_action r =? 5)%N eqn:E5; [destruct old as [oo|]|]].
  - eexists. split; [reflexivity|]. split; [repeat constructor|reflexivity].
  - exists []. split; [reflexivity|]. split; [constructor|reflexivity].
  - eexists. split; [reflexivity|]. split; [repeat constructor|reflexivity].
  - exists []. split; [reflexivity|]. split; [constructor|reflexivity].
  - eexists. split; [reflexivity|]. split; [repeat constructor|]. cbn. now rewrite win_effect_ok.
Qed.

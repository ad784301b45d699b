(** Lemmas: a computation after some calls is the same computation, from the
    beginning, of a system that has these calls behind it. *)
From Verif Require Import Base PathModel EventModel Sys SysFacts LinuxModel FanotifyModel.

Definition shift (s : os) (t0 : trace) : os := {|
  os_now := fun t => os_now s (t0 ++ t);
  os_geteuid := fun t => os_geteuid s (t0 ++ t);
  os_realpath := fun t => os_realpath s (t0 ++ t);
  os_is_dir := fun t => os_is_dir s (t0 ++ t);
  os_opendir := fun t => os_opendir s (t0 ++ t);
  os_inotify_init := fun t => os_inotify_init s (t0 ++ t);
  os_add_watch := fun t => os_add_watch s (t0 ++ t);
  os_fan_init := fun t => os_fan_init s (t0 ++ t);
  os_fan_mark := fun t => os_fan_mark s (t0 ++ t);
  os_epoll_create := fun t => os_epoll_create s (t0 ++ t);
  os_epoll_ctl := fun t => os_epoll_ctl s (t0 ++ t);
  os_epoll_wait := fun t => os_epoll_wait s (t0 ++ t);
  os_read := fun t => os_read s (t0 ++ t);
  os_open_handle := fun t => os_open_handle s (t0 ++ t);
  os_readlink := fun t => os_readlink s (t0 ++ t);
|}.

Section Shift.
  Variables (s : os) (t0 : trace).
  Notation s' := (shift s t0).
  Definition same_as {A} (m m' : M A) : Prop := forall t, m (t0 ++ t) = m' t.
  Lemma sh_bind {A B} (m m' : M A) (k k' : A -> M B) : same_as m m' -> (forall a, same_as (k a) (k' a)) -> same_as (bind m k) (bind m' k').
  Proof. intros Hm Hk t. unfold bind. rewrite Hm. destruct (m' t) as [o1 [a|u| |]]; auto. rewrite <- app_assoc, Hk. reflexivity. Qed.
  Lemma sh_ret {A} (a : A) : same_as (ret a) (ret a). Proof. intros t. reflexivity. Qed.
  Lemma sh_undef {A} u : same_as (@undef A u) (undef u). Proof. intros t. reflexivity. Qed.
  Lemma sh_fuel {A} : same_as (@no_fuel A) no_fuel. Proof. intros t. reflexivity. Qed.
  Lemma sh_now : same_as (now s) (now s'). Proof. intros t. reflexivity. Qed.
  Lemma sh_callback e : same_as (callback e) (callback e). Proof. intros t. reflexivity. Qed.
  Lemma sh_realpath p : same_as (realpath s p) (realpath s' p). Proof. intros t. reflexivity. Qed.
  Lemma sh_stat_dir p : same_as (stat_dir s p) (stat_dir s' p). Proof. intros t. reflexivity. Qed.
  Lemma sh_fan_mark fd p m : same_as (fanotify_mark s fd p m) (fanotify_mark s' fd p m). Proof. intros t. reflexivity. Qed.
  Lemma sh_read fd n : same_as (sys_read s fd n) (sys_read s' fd n). Proof. intros t. reflexivity. Qed.
  Lemma sh_open_handle h : same_as (open_by_handle s h) (open_by_handle s' h). Proof. intros t. reflexivity. Qed.
  Lemma sh_readlink fd : same_as (readlink s fd) (readlink s' fd). Proof. intros t. reflexivity. Qed.
  Lemma sh_close fd : same_as (sys_close fd) (sys_close fd). Proof. intros t. reflexivity. Qed.
  Lemma sh_byte b n : same_as (byte_at b n) (byte_at b n). Proof. intros t. unfold byte_at. now destruct (nth_error _ _). Qed.
  Lemma sh_word k b n : same_as (word_at k b n) (word_at k b n). Proof. intros t. unfold word_at. now destruct (Nat.eqb _ _). Qed.
  Lemma sh_string b n : same_as (c_string b n) (c_string b n). Proof. intros t. unfold c_string. now destruct (c_string_in _). Qed.
  Ltac sh := repeat first
    [ match goal with |- same_as (bind _ _) _ => apply sh_bind; [|intros ?] end | apply sh_ret | apply sh_undef | apply sh_fuel | apply sh_now | apply sh_callback
    | apply sh_realpath | apply sh_stat_dir | apply sh_fan_mark | apply sh_read | apply sh_open_handle | apply sh_readlink | apply sh_close | apply sh_byte | apply sh_word | apply sh_string
    | match goal with |- same_as (match ?x with _ => _ end) _ => destruct x end ].
  Lemma sh_new_event p f t : same_as (new_event s p f t) (new_event s' p f t). Proof. unfold new_event. sh. Qed.
  Lemma sh_new_pair a b : same_as (new_pair s a b) (new_pair s' a b). Proof. unfold new_pair. sh. Qed.
  Lemma sh_send_msg r p : same_as (send_msg s r p) (send_msg s' r p). Proof. unfold send_msg. sh; try apply sh_new_event. Qed.
  Ltac sh2 := repeat first [progress sh | apply sh_new_event | apply sh_new_pair | apply sh_send_msg].
  Lemma sh_fa_mark a b : same_as (fa_mark s a b) (fa_mark s' a b). Proof. unfold fa_mark. sh2. Qed.
  Lemma sh_fa_pathof b m : same_as (fa_pathof s b m) (fa_pathof s' b m). Proof. unfold fa_pathof, fa_handle, fa_handle_bytes. sh2. Qed.
  Lemma sh_ok b m l : same_as (fan_event_ok b m l) (fan_event_ok b m l). Proof. unfold fan_event_ok, fa_event_len. sh2. Qed.
  Lemma sh_peek b m l : same_as (fa_peek b m l) (fa_peek b m l). Proof. unfold fa_peek, fa_event_len. sh2; try apply sh_ok. Qed.
  Lemma sh_fa_parse b m l ec : same_as (fa_parse s b m l ec) (fa_parse s' b m l ec).
  Proof. unfold fa_parse. cbv zeta. unfold fa_mask, fa_event_len. repeat first [progress sh2 | apply sh_peek | apply sh_fa_pathof]. Qed.
  Lemma sh_fa_newdir ev fd : same_as (fa_mark_if_newdir s ev fd) (fa_mark_if_newdir s' ev fd). Proof. unfold fa_mark_if_newdir. sh2; apply sh_fa_mark. Qed.
  Lemma sh_fa_loop fd b : forall fuel m l c, same_as (fa_loop s fuel fd b m l c) (fa_loop s' fuel fd b m l c).
  Proof.
    induction fuel as [|k IH]; intros m l c; [apply sh_fuel|]. cbn [fa_loop]. unfold fa_vers, fa_evfd, fa_mask, fa_info_type.
    repeat first [apply IH | progress sh2 | apply sh_ok | apply sh_fa_parse | apply sh_fa_newdir].
  Qed.
  Lemma sh_fa_recv ke : same_as (fa_recv s ke) (fa_recv s' ke). Proof. unfold fa_recv. sh2; try apply sh_fa_loop. Qed.
End Shift.

(** One receive. *)
Lemma fa_recv_shift s ke tr : fa_recv s ke tr = fa_recv (shift s tr) ke [].
Proof. rewrite <- (app_nil_r tr) at 1. apply sh_fa_recv. Qed.

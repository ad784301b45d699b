(** Lemmas: a receive of the fanotify adapter asks for the paths of directories only during
    its own run; so what it shows is the same for a system that gives, at all other
    times, one of the answers given during this run. *)
From Verif Require Import Base PathModel EventModel Sys SysFacts LinuxModel FanotifyModel.

(** The system answers about handles and paths as [s] does after a beginning of [x], not empty. *)
Definition moment (x t : trace) : trace := firstn (Nat.max 1 (length t)) x.
Definition pin (s : os) (x : trace) : os := {|
  os_now := os_now s; os_geteuid := os_geteuid s; os_realpath := os_realpath s; os_is_dir := os_is_dir s; os_opendir := os_opendir s;
  os_inotify_init := os_inotify_init s; os_add_watch := os_add_watch s; os_fan_init := os_fan_init s; os_fan_mark := os_fan_mark s;
  os_epoll_create := os_epoll_create s; os_epoll_ctl := os_epoll_ctl s; os_epoll_wait := os_epoll_wait s; os_read := os_read s;
  os_open_handle := fun t => os_open_handle s (moment x t);
  os_readlink := fun t => os_readlink s (moment x t) |}.

Definition pre (a b : trace) : Prop := exists c, b = a ++ c.
Lemma pre_refl a : pre a a. Proof. exists []. now rewrite app_nil_r. Qed.
Lemma pre_app a b c : pre a b -> pre a (b ++ c). Proof. intros (d & ->). exists (d ++ c). now rewrite app_assoc. Qed.
Lemma pre_left a b c : pre (a ++ b) c -> pre a c. Proof. intros (d & ->). exists (b ++ d). now rewrite app_assoc. Qed.
Lemma pre_two : forall (a b c : trace), pre a c -> pre b c -> pre a b \/ pre b a.
Proof.
  induction a as [|x a IH]; intros b c (u & E) (v & F); [left; now exists b|].
  destruct b as [|y b]; [right; now exists (x :: a)|]. subst c. cbn [app] in F. injection F as -> F.
  destruct (IH b (a ++ u)) as [(z & ->)|(z & ->)]; [now exists u|now exists v|left; now exists z|right; now exists z].
Qed.

Section Pin.
  Variables (s : os) (x X : trace).
  Hypothesis Hag : forall t y c, t <> [] -> X = t ++ y :: c -> moment x t = t.
  Notation s' := (pin s x).
  Definition same {A} (m m' : M A) : Prop := forall t, t <> [] -> forall o1 r, m t = (o1, r) ->
    (pre (t ++ o1) X -> m' t = (o1, r)) /\
    (pre X (t ++ o1) -> pre t X -> exists o1' r', m' t = (o1', r') /\ pre X (t ++ o1')).
  Lemma pn_eq {A} (m : M A) : same m m.
  Proof. intros t Ht o1 r E. split; [auto|]. intros H _. eauto. Qed.
  Lemma pn_bind {A B} (m m' : M A) (k k' : A -> M B) : same m m' -> (forall a, same (k a) (k' a)) -> same (bind m k) (bind m' k').
  Proof.
    intros Hm Hk t Ht o r E. unfold bind in E |- *. destruct (m t) as [o1 r1] eqn:E1. destruct (Hm t Ht o1 r1 E1) as [G1 G2]. clear Hm.
    destruct r1 as [a|u| |].
    - destruct (k a (t ++ o1)) as [o2 r2] eqn:E2. injection E as <- <-.
      assert (Ht1 : t ++ o1 <> []) by (destruct t; [congruence|discriminate]).
      destruct (Hk a (t ++ o1) Ht1 o2 r2 E2) as [K1 K2]. rewrite <- app_assoc in K1, K2. split.
      + intros Hp. assert (Hp1 : pre (t ++ o1) X) by (rewrite app_assoc in Hp; now apply pre_left in Hp). now rewrite (G1 Hp1), (K1 Hp).
      + intros Hp Htx. destruct (pre_two (t ++ o1) X (t ++ o1 ++ o2)) as [Hc|Hc]; [exists o2; now rewrite app_assoc|exact Hp| |].
        * rewrite (G1 Hc). destruct (K2 Hp Hc) as (o2' & r' & E2' & Hp'). rewrite E2'. exists (o1 ++ o2'), r'. split; [reflexivity|]. now rewrite app_assoc.
        * destruct (G2 Hc Htx) as (o1' & r1' & E1' & Hp'). rewrite E1'. destruct r1' as [a'|u| |]; try (exists o1'; eexists; split; [reflexivity|exact Hp']).
          destruct (k' a' (t ++ o1')) as [o2' r2']. exists (o1' ++ o2'), r2'. split; [reflexivity|]. rewrite app_assoc. now apply pre_app.
    - injection E as <- <-. split; [intros Hp; now rewrite (G1 Hp)|]. intros Hp Htx. destruct (G2 Hp Htx) as (o1' & r1' & E1' & Hp'). rewrite E1'.
      destruct r1' as [a'|u'| |]; try (exists o1'; eexists; split; [reflexivity|exact Hp']).
      destruct (k' a' (t ++ o1')) as [o2' r2']. exists (o1' ++ o2'), r2'. split; [reflexivity|]. rewrite app_assoc. now apply pre_app.
    - injection E as <- <-. split; [intros Hp; now rewrite (G1 Hp)|]. intros Hp Htx. destruct (G2 Hp Htx) as (o1' & r1' & E1' & Hp'). rewrite E1'.
      destruct r1' as [a'|u'| |]; try (exists o1'; eexists; split; [reflexivity|exact Hp']).
      destruct (k' a' (t ++ o1')) as [o2' r2']. exists (o1' ++ o2'), r2'. split; [reflexivity|]. rewrite app_assoc. now apply pre_app.
    - injection E as <- <-. split; [intros Hp; now rewrite (G1 Hp)|]. intros Hp Htx. destruct (G2 Hp Htx) as (o1' & r1' & E1' & Hp'). rewrite E1'.
      destruct r1' as [a'|u'| |]; try (exists o1'; eexists; split; [reflexivity|exact Hp']).
      destruct (k' a' (t ++ o1')) as [o2' r2']. exists (o1' ++ o2'), r2'. split; [reflexivity|]. rewrite app_assoc. now apply pre_app.
  Qed.
  (** A call that is answered alike at the moments of the run. *)
  Lemma pn_call {A} (f f' : trace -> A) (w : A -> obs) (m m' : M A) :
    (forall t, m t = ([w (f t)], Ok (f t))) -> (forall t, m' t = ([w (f' t)], Ok (f' t))) ->
    (forall t, moment x t = t -> f' t = f t) -> same m m'.
  Proof.
    intros Hm Hm' Hf t Ht o1 r E. rewrite Hm in E. injection E as <- <-. rewrite Hm'. split.
    - intros (c & Ec). assert (Ex : X = t ++ w (f t) :: c) by (rewrite Ec, <- app_assoc; reflexivity). now rewrite (Hf t (Hag t _ _ Ht Ex)).
    - intros (c & Ec) (c' & Ec'). destruct c' as [|y c'].
      + rewrite app_nil_r in Ec'. subst X. exists [w (f' t)], (Ok (f' t)). split; [reflexivity|]. now exists [w (f' t)].
      + rewrite (Hf t (Hag t _ _ Ht Ec')). exists [w (f t)], (Ok (f t)). split; [reflexivity|]. now exists c.
  Qed.
  Lemma pn_open_handle h : same (open_by_handle s h) (open_by_handle s' h).
  Proof.
    apply (pn_call (fun t => os_open_handle s t h) (fun t => os_open_handle s' t h) (fun r => OOpenHandle h (fst r) (snd r))).
    - intros t. unfold open_by_handle. now destruct (os_open_handle s t h).
    - intros t. unfold open_by_handle. now destruct (os_open_handle s' t h).
    - intros t Ht. cbn [pin os_open_handle]. now rewrite Ht.
  Qed.
  Lemma pn_readlink fd : same (readlink s fd) (readlink s' fd).
  Proof.
    apply (pn_call (fun t => os_readlink s t fd) (fun t => os_readlink s' t fd) (fun r => OReadlink fd r)); [reflexivity..|].
    intros t Ht. cbn [pin os_readlink]. now rewrite Ht.
  Qed.
  Lemma pn_new_event p f t : same (new_event s p f t) (new_event s' p f t). Proof. exact (pn_eq (new_event s p f t)). Qed.
  Lemma pn_new_pair a b : same (new_pair s a b) (new_pair s' a b). Proof. exact (pn_eq (new_pair s a b)). Qed.
  Lemma pn_newdir ev fd : same (fa_mark_if_newdir s ev fd) (fa_mark_if_newdir s' ev fd). Proof. exact (pn_eq (fa_mark_if_newdir s ev fd)). Qed.
  Ltac pn := repeat first
    [ match goal with |- same ?m ?m => apply pn_eq end
    | match goal with |- same (bind _ _) _ => apply pn_bind; [|intros ?] end | apply pn_open_handle | apply pn_readlink | apply pn_new_event | apply pn_new_pair | apply pn_newdir
    | match goal with |- same (match ?y with _ => _ end) _ => destruct y end ].
  Lemma pn_fa_pathof b m : same (fa_pathof s b m) (fa_pathof s' b m). Proof. unfold fa_pathof, fa_handle, fa_handle_bytes. pn. Qed.
  Lemma pn_fa_parse b m l ec : same (fa_parse s b m l ec) (fa_parse s' b m l ec).
  Proof. unfold fa_parse. cbv zeta. repeat first [progress pn | apply pn_fa_pathof]. Qed.
  Lemma pn_fa_loop fd b : forall fuel m l c, same (fa_loop s fuel fd b m l c) (fa_loop s' fuel fd b m l c).
  Proof.
    induction fuel as [|k IH]; intros m l c; [apply pn_eq|]. cbn [fa_loop].
    repeat first [apply IH | progress pn | apply pn_fa_parse].
  Qed.
  (** A receive from the beginning: one read, then the loop. *)
  Lemma pn_fa_recv ke o r : fa_recv s ke [] = (o, r) -> pre X o -> (exists rd, pre [ORead (kfa_fd ke) rd] X) ->
    exists o' r', fa_recv s' ke [] = (o', r') /\ pre X o' /\ (X = o -> o' = o /\ r' = r).
  Proof.
    unfold fa_recv. intros E Hp (rd0 & c & Hr). cbv zeta in E |- *.
    match type of E with bind _ ?k _ = _ => set (rest := k) in E end. match goal with |- context [bind _ ?k []] => set (rest' := k) end.
    assert (Hs : forall a, same (rest a) (rest' a)).
    { intros a. unfold rest, rest'. repeat first [progress pn | apply pn_fa_loop]. }
    unfold bind, sys_read in E |- *. cbn [pin os_read app] in E |- *. set (rr := os_read s [] (kfa_fd ke) fa_buf_len) in *.
    destruct (rest rr [ORead (kfa_fd ke) rr]) as [o2 r2] eqn:E2. injection E as <- <-.
    destruct (Hs rr [ORead (kfa_fd ke) rr] ltac:(discriminate) o2 r2 E2) as [K1 K2]. cbn [app] in K1, K2.
    assert (Hx : pre [ORead (kfa_fd ke) rr] X).
    { destruct Hp as (z & Hz). rewrite Hr in Hz. cbn [app] in Hz. injection Hz as Hz _. rewrite Hr. exists c. cbn. now rewrite Hz. }
    destruct (K2 Hp Hx) as (o2' & r' & E2' & Hp'). rewrite E2'. exists (ORead (kfa_fd ke) rr :: o2'), r'. split; [reflexivity|]. split; [exact Hp'|].
    intros Ex. rewrite <- Ex in K1. rewrite (K1 (pre_refl _)) in E2'. injection E2' as <- <-. auto.
  Qed.
End Pin.

(** Theorems C28-C32 and the fanotify half of C25.  Runs are those of
    [linux_watch] for root on a kernel with fanotify. *)
From Verif Require Import Base PathModel EventModel Sys SysFacts LinuxModel InotifyModel FanotifyModel LinuxWatch LinuxSpec
  LinuxFacts LinuxRun LinuxProps LinuxChoice InotifySpec InotifyFacts InotifyRun FanotifySpec FanotifyFacts FanotifyLoop
  FanotifyRun ExampleOs.

Definition any : list fan -> Prop := fun _ => True.

(** ** Concrete records and systems *)

(** A record for the entry [name]; [k] kinds; handle of 8 bytes [h]. *)
Definition fr (ks : list fkind) (dir : bool) (h : N) (name : string) : frec :=
  {| f_kinds := ks; f_dir := dir; f_pid := 77; f_fsid := repeat 1%N 8; f_htype := 1; f_handle := repeat h 8;
     f_name := lit name; f_pad := 12 - String.length name |}.
Lemma lit_length n : length (lit n) = String.length n.
Proof. induction n; cbn; auto. Qed.
Lemma fr_ok ks d h n : ks <> [] -> Forall (fun b => b <> 0)%N (lit n) -> (String.length n < 12)%nat -> frec_ok (fr ks d h n).
Proof.
  intros Hk Hn Hl. split; cbn [fr f_fsid f_name f_pad f_kinds]; auto; unfold f_len; cbn [fr f_handle f_name f_pad];
    try rewrite lit_length; change (length (repeat h 8)) with 8%nat; [lia|exists 16%nat; lia|lia].
Qed.

(** Directories are named by the first byte of their handle; handle 9 cannot be opened. *)
Definition fan_os (waits : list (option (list Z))) (rds : list rd) : os :=
  let s := scripted 0 tree_w waits rds in
  {| os_now := os_now s; os_geteuid := os_geteuid s; os_realpath := os_realpath s;
     os_is_dir := os_is_dir s; os_opendir := os_opendir s; os_inotify_init := os_inotify_init s;
     os_add_watch := os_add_watch s; os_fan_init := os_fan_init s; os_fan_mark := os_fan_mark s;
     os_epoll_create := os_epoll_create s; os_epoll_ctl := os_epoll_ctl s;
     os_epoll_wait := os_epoll_wait s; os_read := os_read s;
     os_open_handle := fun _ h => if (nth 8 h 0 =? 9)%N then (-1, 116)%Z else (10 + Z.of_N (nth 8 h 0%N), 0)%Z;
     os_readlink := fun _ fd => if (fd =? 12)%Z then Some (lit "/w/d") else Some (lit "/w") |}.
Definition fan_run (rss : list (list fan)) := linux_watch (fan_os (repeat (Some [3%Z]) (length rss)) (map (fun rs => gives (fencode rs)) rss)) 10 (lit "/w") 5 [].

Lemma fan_os_handles w r : handles_ok (fan_os w r).
Proof.
  split.
  - intros tr h. cbn [fan_os os_open_handle]. destruct (_ =? 9)%N; cbn [fst snd]; lia.
  - intros tr fd _. cbn. destruct (fd =? 12)%Z; eexists; (split; [reflexivity|discriminate]).
Qed.
Lemma fan_os_used w r : fanotify_used (fan_os w r).
Proof. split; intros tr; [reflexivity|cbn; lia]. Qed.
Lemma fan_os_kernel P w rss : Forall (fun rs => rs <> [] /\ fbatch_ok rs /\ P rs) rss -> fanotify_kernel P (fan_os w (map (fun rs => gives (fencode rs)) rss)).
Proof.
  intros H tr fd n. cbv zeta. cbn [fan_os os_read scripted].
  destruct (Nat.lt_ge_cases (count is_read tr) (length rss)) as [Hl|Hl].
  - right. destruct (nth_error rss (count is_read tr)) as [rs|] eqn:E; [|apply nth_error_None in E; lia].
    exists rs. rewrite Forall_forall in H. destruct (H rs (nth_error_In _ _ E)) as (H1 & H2 & H3).
    assert (En : nth (count is_read tr) (map (fun rs => gives (fencode rs)) rss) again = gives (fencode rs)).
    { apply nth_error_nth. now rewrite nth_error_map, E. }
    rewrite En. auto.
  - left. rewrite nth_overflow; [reflexivity|now rewrite map_length].
Qed.

Ltac recs_ok := repeat (constructor; [first [exact I|apply fr_ok; [discriminate|repeat constructor; discriminate|cbn; lia]]|]); constructor.
Ltac small := apply Nat.leb_le; vm_compute; reflexivity.

(** Two batches: a new directory, a file in it, a move, a lone half, a deletion. *)
Definition o1 := [Change FCreate (fr [FCreate] true 1 "d"); Change FModify (fr [FModify] false 2 "x");
                  Moved (fr [FFrom] false 1 "a") (fr [FTo] false 2 "b"); MovedOut (fr [FFrom] true 2 "c")].
Definition o2 := [MovedIn (fr [FTo] false 1 "e"); Change FDelete (fr [FDelete] false 1 "f"); Change FModify (fr [FModify] true 2 ".")].
Definition ex_waits := repeat (Some [3%Z]) 2.
Definition ex_reads := map (fun rs => gives (fencode rs)) (map batch_of [o1; o2]).
Definition ex_os := fan_os ex_waits ex_reads.
Definition orderly (rs : list fan) : Prop := exists ops, rs = batch_of ops /\ Forall op_ok ops /\ apart ops.
Lemma o12_ok : Forall (fun rs => rs <> [] /\ fbatch_ok rs /\ orderly rs) (map batch_of [o1; o2]).
Proof.
  constructor; [|constructor; [|constructor]].
  - split; [discriminate|]. split; [split; [recs_ok|small]|]. exists o1. split; [reflexivity|]. split; [|cbn; auto].
    repeat (constructor; [cbn; repeat split; discriminate || reflexivity|]). constructor.
  - split; [discriminate|]. split; [split; [recs_ok|small]|]. exists o2. split; [reflexivity|]. split; [|cbn; auto].
    repeat (constructor; [cbn; repeat split; discriminate || reflexivity|]). constructor.
Qed.

(** ** C28: decoding *)

(** Whatever earlier reads left in the buffer: one receive goes through the
    records of the batch as [fbatch] says, never outside of the buffer, ends,
    and does not depend on the stale contents.  [fbatch_ok] excludes batches that fill all
    4096 bytes of the buffer (for these see the refutation) and [handles_ok]
    excludes failures of readlink (C32). *)
Theorem C28_batches_decode_partial :
  forall s ke tr rs, handles_ok s -> fbatch_ok rs -> rs <> [] ->
    rd_len (os_read s tr (kfa_fd ke) 4096) = Z.of_nat (length (fencode rs)) ->
    rd_bytes (os_read s tr (kfa_fd ke) 4096) = fencode rs ->
    length (kfa_buf ke) = N.to_nat 4096 ->
    exists o e, fbatch s 0 rs (shown o) e /\
      forall buf, length buf = N.to_nat 4096 -> exists r ke',
        fa_recv s {| kfa_fd := kfa_fd ke; kfa_buf := buf |} tr = (ORead (kfa_fd ke) (os_read s tr (kfa_fd ke) 4096) :: o, Ok (r, ke')) /\
        (e = FAll -> r = r_pending) /\ kfa_fd ke' = kfa_fd ke /\ length (kfa_buf ke') = N.to_nat 4096.
Proof.
  intros s ke tr rs Hs Hok Hne Hl Hb Hbuf. destruct (fa_recv_batch s ke tr rs Hs Hok Hne Hl Hb Hbuf) as (o & e & H1 & _ & H2).
  exists o, e. split; [exact H1|]. intros buf Hlen. destruct (H2 buf Hlen) as (buf' & E & Hl'). do 2 eexists. split; [exact E|].
  split; [intros ->; reflexivity|]. auto.
Qed.
Print Assumptions C28_batches_decode_partial.

Theorem C28_runs_are_safe_partial :
  forall s fuel path il tr u, handles_ok s -> fanotify_used s -> fanotify_kernel any s ->
    snd (linux_watch s fuel path il tr) <> Undef u.
Proof.
  intros s fuel path il tr u Hs Hu HK.
  destruct (fanotify_session s Hs any HK fuel path il tr Hu) as (a & b & c & r & rss & E & Hub & _).
  rewrite E. cbn. intros ->. destruct Hub.
Qed.
Print Assumptions C28_runs_are_safe_partial.
Example C28_example : handles_ok ex_os /\ fanotify_used ex_os /\ fanotify_kernel any ex_os /\
  snd (linux_watch ex_os 10 (lit "/w") 5 []) = Ok true.
Proof.
  split; [apply fan_os_handles|]. split; [apply fan_os_used|]. split; [|vm_compute; reflexivity].
  apply fan_os_kernel. eapply Forall_impl; [|apply o12_ok]. intros rs (? & ? & ?). unfold any. auto.
Qed.

(** The claim fails at the boundary: 64 well-formed records of 64 bytes fill the
    buffer; the last two are a move; looking behind the second one reads bytes
    4096..4099. *)
Definition full := repeat (Chg (fr [FModify] false 1 "a")) 62 ++ [Chg (fr [FFrom] false 1 "a"); Chg (fr [FTo] false 1 "b")].
Theorem C28_full_buffer_refuted :
  Forall fan_ok full /\ length (fencode full) = N.to_nat 4096 /\ snd (fan_run [full]) = Undef OobRead.
Proof.
  split; [|split].
  - apply Forall_app. split; [|recs_ok]. apply Forall_forall. intros x Hx. apply repeat_spec in Hx. subst x.
    apply fr_ok; [discriminate|repeat constructor; discriminate|cbn; lia].
  - apply Nat.eqb_eq. vm_compute. reflexivity.
  - vm_compute. reflexivity.
Qed.
Print Assumptions C28_full_buffer_refuted.

(** ** C29: delivery *)

(** Exact account of every run: a start [a] that only warns about directories
    it could not mark, a part [b] whose reads returned the batches [rss] and
    which shows exactly what [fbatch] prescribes for each of them, and an end
    [c] with the fatal message, if any. *)
Theorem C29_exact_account_partial :
  forall s fuel path il tr, handles_ok s -> fanotify_used s -> fanotify_kernel any s ->
    exists a b c rss,
      fst (linux_watch s fuel path il tr) = a ++ b ++ c /\
      (forall e, In (OCallback e) a -> exists q, shape_of e = warning "w/sys/not_watched@" q) /\
      reads a = [] /\ fgave any b rss /\ reads c = [] /\ fsession s rss (shown b) /\
      (shown c = [] \/ exists e, callbacks c = [e] /\ fatal_message path e).
Proof.
  intros s fuel path il tr Hs Hu HK.
  destruct (fanotify_session s Hs any HK fuel path il tr Hu) as (a & b & c & r & rss & E & _ & Ha & Hra & Hb & Hrc & Hses & Hc).
  exists a, b, c, rss. rewrite E. repeat (split; [assumption || reflexivity|]).
  destruct Hc as [Hc|(e & He & Hf & _)]; eauto.
Qed.
Print Assumptions C29_exact_account_partial.

(** Under the stated conditions, one batch tells of every operation in order. *)
Lemma fits0 r rs : fits 0 (Chg r :: rs).
Proof. unfold fits. rewrite fencode_cons, app_length. lia. Qed.
Lemma opens_named s r : always_opens s -> ~ unnamed s r.
Proof. intros H (tr & Hn). specialize (H tr (handle_of r)). lia. Qed.
Lemma has1 k j r : f_kinds r = [j] -> has k r = true -> k = j.
Proof. unfold has. intros ->. destruct k, j; cbn; congruence. Qed.
Lemma has_self j r : f_kinds r = [j] -> has j r = true.
Proof. unfold has. intros ->. destruct j; reflexivity. Qed.
Lemma effect1 j r : f_kinds r = [j] -> f_effect r = kind_effect j.
Proof. unfold f_effect, has. intros ->. destruct j; reflexivity. Qed.
Lemma moves1 j r : f_kinds r = [j] -> f_moves r = true -> j = FFrom \/ j = FTo.
Proof. intros H. unfold f_moves. rewrite (effect1 j r H). destruct j; cbn; auto; discriminate. Qed.

(** How a batch may go on: not at all, or with an overflow. *)
Definition stops (t : list fan) : Prop := t = [] \/ exists t', t = Ovf :: t'.
Lemma head_of ops t n rest : stops t -> Forall op_ok ops -> batch_of ops ++ t = Chg n :: rest ->
  exists x ops', ops = x :: ops' /\
    match x with
    | Change k r => n = r /\ f_kinds n = [k] /\ k <> FFrom /\ k <> FTo
    | Moved r _ => n = r /\ f_kinds n = [FFrom]
    | MovedOut r => n = r /\ f_kinds n = [FFrom]
    | MovedIn r => n = r /\ f_kinds n = [FTo]
    end.
Proof.
  intros Ht. destruct ops as [|x ops]; [destruct Ht as [-> |(t' & ->)]; discriminate|]. intros H E. exists x, ops. split; [reflexivity|].
  inversion H; subst. destruct x; cbn in *; injection E as <- _; intuition.
Qed.

Lemma orderly_batch s t : always_opens s -> stops t -> forall ops sh e, Forall op_ok ops -> apart ops ->
  fbatch s 0 (batch_of ops ++ t) sh e -> (t = [] -> e = FAll) /\ (t <> [] -> e = FOverflow) /\ exists shs, sh = concat shs /\ Forall2 (tells s) ops shs.
Proof.
  intros Ho Ht. induction ops as [|x ops IH]; intros sh e Hok Hap Hb.
  { assert (Hn : sh = [] /\ (t = [] -> e = FAll) /\ (t <> [] -> e = FOverflow)).
    { destruct Ht as [-> |(t' & ->)]; cbn in Hb; inversion Hb; subst; repeat split; try congruence; try (intros; congruence).
      match goal with H : ~ fits _ _ |- _ => exfalso; apply H end. unfold fits. rewrite fencode_cons, app_length. lia. }
    destruct Hn as (-> & H1 & H2). split; [exact H1|]. split; [exact H2|]. exists []. split; [reflexivity|constructor]. }
  inversion Hok as [|? ? Hx Hops]; subst.
  assert (Hap' : apart ops) by (destruct ops; [exact I|apply Hap]).
  (* A record that stands alone. *)
  assert (Halone : forall r, batch_of (x :: ops) ++ t = Chg r :: batch_of ops ++ t -> ~ pairs r (batch_of ops ++ t) 0 ->
    exists p w o, sh = (w ++ [Sh p (f_effect r) (f_ptype r) None]) ++ o /\ named s r p /\
      (if match f_effect r, f_ptype r with EtCreate, PtDir => true | _, _ => false end then only_unwatched p w else w = []) /\
      fbatch s 0 (batch_of ops ++ t) o e).
  { intros r Er Hnp. rewrite Er in Hb. remember (batch_of ops ++ t) as rest eqn:Erest.
    inversion Hb; subst.
    - exfalso. match goal with H : ~ fits _ _ |- _ => apply H, fits0 end.
    - exfalso. match goal with H : unnamed _ _ |- _ => now apply (opens_named s _ Ho) in H end.
    - exfalso. match goal with H : unnamed _ _ |- _ => now apply (opens_named s _ Ho) in H end.
    - do 3 eexists. split; [|split; [eassumption|split; [eassumption|eassumption]]]. now rewrite <- app_assoc.
    - exfalso. apply Hnp. match goal with H : Chg _ :: _ = batch_of ops ++ t |- _ => rewrite <- H end. do 2 eexists. split; [reflexivity|]. split; [apply fits0|]. auto.
    - exfalso. apply Hnp. match goal with H : Chg _ :: _ = batch_of ops ++ t |- _ => rewrite <- H end. do 2 eexists. split; [reflexivity|]. split; [apply fits0|]. auto. }
  destruct x as [k r|r n|r|r]; cbn in Hx.
  - destruct Hx as (Hk & Hk1 & Hk2).
    destruct (Halone r eq_refl) as (p & w & o & -> & Hn & Hw & Hrest).
    { intros (n & rest' & _ & _ & Hm & _). apply (moves1 k) in Hm as [->| ->]; auto. }
    destruct (IH _ _ Hops Hap' Hrest) as (He1 & He2 & shs & -> & Hshs). split; [exact He1|]. split; [exact He2|].
    eexists (_ :: shs). split; [reflexivity|]. constructor; [|exact Hshs]. exists p, w. split; [exact Hn|].
    rewrite (effect1 k r Hk) in *. split; [reflexivity|]. unfold f_ptype in Hw. destruct k, (f_dir r); cbn in Hw; auto. destruct Hw; auto.
  - destruct Hx as (Hr & Hn). change (batch_of (Moved r n :: ops) ++ t) with (Chg r :: Chg n :: batch_of ops ++ t) in Hb.
    assert (Hmv : f_moves r = true) by (unfold f_moves; now rewrite (effect1 FFrom r Hr)).
    assert (Hp : pairs r (Chg n :: batch_of ops ++ t) 0).
    { exists n, (batch_of ops ++ t). split; [reflexivity|]. split; [apply fits0|]. split; [exact Hmv|].
      left. split; now apply has_self. }
    inversion Hb; subst.
    + exfalso. match goal with H : ~ fits _ _ |- _ => apply H, fits0 end.
    + exfalso. match goal with H : unnamed _ _ |- _ => now apply (opens_named s _ Ho) in H end.
    + exfalso. match goal with H : unnamed _ _ |- _ => now apply (opens_named s _ Ho) in H end.
    + contradiction.
    + destruct (IH _ _ Hops Hap' ltac:(eassumption)) as (He1 & He2 & shs & -> & Hshs). split; [exact He1|]. split; [exact He2|].
      exists ([Sh p EtRename (f_ptype r) (Some (Sh q EtRename (f_ptype r) None))] :: shs). split; [reflexivity|].
      constructor; [|exact Hshs]. exists p, q. auto.
    + exfalso. match goal with H : ~ (_ /\ _) |- _ => apply H end. split; now apply has_self.
  - destruct (Halone r eq_refl) as (p & w & o & -> & Hn & Hw & Hrest).
    { intros (n & rest' & E & _ & _ & Hd). apply (head_of ops t) in E as (x & ops' & -> & Hhd); [|exact Ht|assumption].
      destruct Hd as [[_ Hd]|[Hd _]]; [|apply (has1 _ _ _ Hx) in Hd; discriminate].
      destruct x; cbn in Hap; try destruct Hap; try contradiction; destruct Hhd as (-> & Hkd); try destruct Hkd as (Hkd & ? & ?);
        apply (has1 _ _ _ Hkd) in Hd; congruence. }
    destruct (IH _ _ Hops Hap' Hrest) as (He1 & He2 & shs & -> & Hshs). split; [exact He1|]. split; [exact He2|].
    rewrite (effect1 _ _ Hx) in *. cbn in Hw. subst w.
    eexists (_ :: shs). split; [reflexivity|]. constructor; [|exact Hshs]. exists p. auto.
  - destruct (Halone r eq_refl) as (p & w & o & -> & Hn & Hw & Hrest).
    { intros (n & rest' & E & _ & _ & Hd). apply (head_of ops t) in E as (x & ops' & -> & Hhd); [|exact Ht|assumption].
      destruct Hd as [[Hd _]|[_ Hd]]; [apply (has1 _ _ _ Hx) in Hd; discriminate|].
      destruct x; cbn in Hap; try destruct Hap; try contradiction; destruct Hhd as (-> & Hkd); try destruct Hkd as (Hkd & ? & ?);
        apply (has1 _ _ _ Hkd) in Hd; congruence. }
    destruct (IH _ _ Hops Hap' Hrest) as (He1 & He2 & shs & -> & Hshs). split; [exact He1|]. split; [exact He2|].
    rewrite (effect1 _ _ Hx) in *. cbn in Hw. subst w.
    eexists (_ :: shs). split; [reflexivity|]. constructor; [|exact Hshs]. exists p. auto.
Qed.

Lemma orderly_session s : always_opens s -> forall rss sh, fsession s rss sh -> Forall orderly rss ->
  exists opss shs, rss = map batch_of opss /\ sh = concat shs /\ Forall2 (tells s) (concat opss) shs.
Proof.
  intros Ho. induction 1 as [|rs rss sh sh' e Hb _ IH]; intros Hall; [exists [], []; repeat split; constructor|].
  inversion Hall as [|? ? (ops & -> & Hok & Hap) Hrest]; subst. destruct (IH Hrest) as (opss & shs & -> & -> & H2).
  rewrite <- (app_nil_r (batch_of ops)) in Hb.
  destruct (orderly_batch s [] Ho (or_introl eq_refl) ops sh e Hok Hap Hb) as (_ & _ & shs1 & -> & H1).
  exists (ops :: opss), (shs1 ++ shs). split; [reflexivity|]. split; [now rewrite concat_app|]. cbn [concat]. now apply Forall2_app.
Qed.

(** Every operation once, in kernel order, with its effect, path type and path:
    if no records are merged, none is an overflow, halves of different moves
    stand apart within a batch, and every directory can be opened. *)
Theorem C29_every_operation_once_in_order_partial :
  forall s fuel path il tr, handles_ok s -> fanotify_used s -> always_opens s -> fanotify_kernel orderly s ->
    exists pre opss shs post,
      reads (fst (linux_watch s fuel path il tr)) = map (fun ops => fencode (batch_of ops)) opss /\
      shown (fst (linux_watch s fuel path il tr)) = pre ++ concat shs ++ post /\
      Forall2 (tells s) (concat opss) shs /\
      (forall x, In x pre -> exists q, x = warning "w/sys/not_watched@" q) /\
      (post = [] \/ exists e, post = [shape_of e] /\ fatal_message path e).
Proof.
  intros s fuel path il tr Hs Hu Ho HK.
  destruct (fanotify_session s Hs orderly HK fuel path il tr Hu) as (a & b & c & r & rss & E & _ & Ha & Hra & (Hrb & _ & Hall) & Hrc & Hses & Hc).
  destruct (orderly_session s Ho rss (shown b) Hses Hall) as (opss & shs & -> & Eb & H2).
  exists (shown a), opss, shs, (shown c). rewrite E. cbn [fst]. split; [now rewrite !reads_app, Hra, Hrb, Hrc, app_nil_r, map_map|].
  split; [now rewrite !shown_app, Eb|]. split; [exact H2|]. split.
  - intros x Hx. unfold shown in Hx. apply in_map_iff in Hx as (e & <- & He). apply Ha.
    clear - He. induction a as [|[] a IH]; cbn in *; try (right; now apply IH); try contradiction. destruct He as [-> |He]; auto.
  - destruct Hc as [Hc|(e & He & Hf & _)]; [now left|]. right. exists e. unfold shown. rewrite He. auto.
Qed.
Print Assumptions C29_every_operation_once_in_order_partial.
Definition opening : os :=
  let s := ex_os in
  {| os_now := os_now s; os_geteuid := os_geteuid s; os_realpath := os_realpath s;
     os_is_dir := os_is_dir s; os_opendir := os_opendir s; os_inotify_init := os_inotify_init s;
     os_add_watch := os_add_watch s; os_fan_init := os_fan_init s; os_fan_mark := os_fan_mark s;
     os_epoll_create := os_epoll_create s; os_epoll_ctl := os_epoll_ctl s;
     os_epoll_wait := os_epoll_wait s; os_read := os_read s;
     os_open_handle := fun _ h => (10 + Z.of_N (nth 8 h 0%N), 0)%Z; os_readlink := os_readlink s |}.
Lemma opening_opens : always_opens opening.
Proof. intros tr h. cbn [opening os_open_handle fst]. lia. Qed.
Example C29_example :
  handles_ok opening /\ fanotify_used opening /\ always_opens opening /\ fanotify_kernel orderly opening /\
  shown (fst (linux_watch opening 10 (lit "/w") 5 [])) =
  [ Sh (lit "/w/d") EtCreate PtDir None; Sh (lit "/w/d/x") EtModify PtFile None;
    Sh (lit "/w/a") EtRename PtFile (Some (Sh (lit "/w/d/b") EtRename PtFile None));
    Sh (lit "/w/d/c") EtRename PtDir None; Sh (lit "/w/e") EtRename PtFile None;
    Sh (lit "/w/f") EtDestroy PtFile None; Sh (lit "/w/d") EtModify PtDir None ].
Proof.
  pose proof opening_opens as Ho.
  split; [split; [intros tr h; left; apply Ho|intros tr fd _; cbn; destruct (fd =? 12)%Z; eexists; (split; [reflexivity|discriminate])]|].
  split; [split; intros tr; [reflexivity|cbn; lia]|]. split; [exact Ho|]. split; [|vm_compute; reflexivity].
  exact (fan_os_kernel orderly ex_waits _ o12_ok).
Qed.

(** Without these conditions the claim fails.  An overflow record ends the
    batch: the records behind it are lost, whatever they are, and nothing is
    said of it. *)
Theorem C29_overflow_loses_events_refuted :
  forall s ops rest sh e, always_opens s -> Forall op_ok ops -> apart ops ->
    fbatch s 0 (batch_of ops ++ Ovf :: rest) sh e ->
    exists shs, sh = concat shs /\ Forall2 (tells s) ops shs.
Proof.
  intros s ops rest sh e Ho Hok Hap Hb.
  destruct (orderly_batch s (Ovf :: rest) Ho (or_intror (ex_intro _ rest eq_refl)) ops sh e Hok Hap Hb) as (_ & _ & H). exact H.
Qed.
Print Assumptions C29_overflow_loses_events_refuted.
(** A run: the overflow loses "c", a directory that is gone loses "e", and a
    merged record loses the deletion of "f". *)
Definition lossy := [
  [Chg (fr [FModify] false 1 "a"); Ovf; Chg (fr [FCreate] false 1 "c")];
  [Chg (fr [FModify] false 9 "d"); Chg (fr [FCreate] false 1 "e")];
  [Chg (fr [FCreate; FDelete] false 1 "f")]].
Theorem C29_events_lost_refuted :
  Forall (fun rs => rs <> [] /\ fbatch_ok rs) lossy /\
  reads (fst (fan_run lossy)) = map fencode lossy /\
  shown (fst (fan_run lossy)) = [ Sh (lit "/w/a") EtModify PtFile None; Sh (lit "/w/f") EtCreate PtFile None ].
Proof.
  split; [|split; vm_compute; reflexivity].
  repeat (constructor; [split; [discriminate|split; [recs_ok|small]]|]). constructor.
Qed.
Print Assumptions C29_events_lost_refuted.

(** ** C30: rename pairs *)

(** In the runs of C29, a rename event has an associated event exactly for a
    move inside of the tree, and it holds the path of the move's end. *)
Theorem C30_moves_paired_partial :
  forall s x sh e f t a, op_ok x -> tells s x sh -> In (Sh e f t (Some a)) sh ->
    exists r n p, x = Moved r n /\ named s r e /\ named s n p /\ f = EtRename /\ a = Sh p EtRename t None.
Proof.
  intros s [k r|r n|r|r] sh e f t a Hok Ht Hin; cbn in Ht.
  - exfalso. destruct Ht as (p & w & _ & -> & Hw). apply in_app_or in Hin as [Hin|[[=]|[]]].
    destruct Hw as [-> |(_ & _ & ->)]; [destruct Hin|]. destruct Hin as [[=]|[]].
  - destruct Ht as (p & q & Hp & Hq & ->). destruct Hin as [[= <- <- <- <-]|[]]. exists r, n, q. auto.
  - exfalso. destruct Ht as (p & _ & ->). destruct Hin as [[=]|[]].
  - exfalso. destruct Ht as (p & _ & ->). destruct Hin as [[=]|[]].
Qed.
Print Assumptions C30_moves_paired_partial.
Example C30_example : op_ok (Moved (fr [FFrom] false 1 "a") (fr [FTo] false 2 "b")) /\
  tells opening (Moved (fr [FFrom] false 1 "a") (fr [FTo] false 2 "b"))
    [Sh (lit "/w/a") EtRename PtFile (Some (Sh (lit "/w/d/b") EtRename PtFile None))].
Proof.
  split; [split; reflexivity|]. exists (lit "/w/a"), (lit "/w/d/b").
  split; [exists [], 11%Z, 0%Z, (lit "/w"); repeat split; try reflexivity; lia|].
  split; [exists [], 12%Z, 0%Z, (lit "/w/d"); repeat split; try reflexivity; lia|]. reflexivity.
Qed.

(** The records carry nothing that ties the halves of a move together: a move
    from a to b and a move of a out of the tree followed by a move of something
    else to b give the same bytes, so the adapter, or any other reader, shows the
    same for both.  It shows a renamed to b: for the second history that is wrong. *)
Definition inside_h := [Moved (fr [FFrom] false 1 "a") (fr [FTo] false 2 "b")].
Definition crossing_h := [MovedOut (fr [FFrom] false 1 "a"); MovedIn (fr [FTo] false 2 "b")].
Theorem C30_unrelated_moves_paired_refuted :
  Forall op_ok inside_h /\ Forall op_ok crossing_h /\
  fencode (batch_of inside_h) = fencode (batch_of crossing_h) /\
  shown (fst (fan_run [batch_of crossing_h])) = [Sh (lit "/w/a") EtRename PtFile (Some (Sh (lit "/w/d/b") EtRename PtFile None))].
Proof.
  split; [repeat constructor; reflexivity|]. split; [repeat constructor; reflexivity|]. split; [reflexivity|vm_compute; reflexivity].
Qed.
Print Assumptions C30_unrelated_moves_paired_refuted.
(** In the other order too, and then the second half is told of once more. *)
Theorem C30_swapped_moves_paired_refuted :
  let h := [MovedIn (fr [FTo] false 2 "b"); MovedOut (fr [FFrom] false 1 "a"); Change FModify (fr [FModify] false 1 "c")] in
  Forall op_ok h /\
  shown (fst (fan_run [batch_of h])) =
  [ Sh (lit "/w/a") EtRename PtFile (Some (Sh (lit "/w/d/b") EtRename PtFile None));
    Sh (lit "/w/a") EtRename PtFile None ].
Proof. split; [repeat constructor; discriminate || reflexivity|vm_compute; reflexivity]. Qed.
Print Assumptions C30_swapped_moves_paired_refuted.

(** ** C31: read errors *)

(** The claim fails always.  A read that would block (EAGAIN = 11) ends the watcher ... *)
Theorem C31_would_block_is_fatal_refuted :
  forall s ke tr, rd_len (os_read s tr (kfa_fd ke) 4096) = (-1)%Z -> rd_errno (os_read s tr (kfa_fd ke) 4096) = 11%Z ->
    exists ke', fa_recv s ke tr = ([ORead (kfa_fd ke) (os_read s tr (kfa_fd ke) 4096)], Ok (r_e_sys_api_read, ke')) /\
      r_ge r_e_sys_api_read r_e = true.
Proof.
  intros s ke tr Hl He. unfold fa_recv, bind, sys_read. change fa_buf_len with 4096%N. rewrite Hl, He. cbn. eexists. split; reflexivity.
Qed.
Print Assumptions C31_would_block_is_fatal_refuted.
(** ... and any other failure is passed over in silence. *)
Theorem C31_failures_are_silent_refuted :
  forall s ke tr, rd_len (os_read s tr (kfa_fd ke) 4096) = (-1)%Z -> rd_errno (os_read s tr (kfa_fd ke) 4096) <> 11%Z ->
    exists ke', fa_recv s ke tr = ([ORead (kfa_fd ke) (os_read s tr (kfa_fd ke) 4096)], Ok (r_pending, ke')).
Proof.
  intros s ke tr Hl He. unfold fa_recv, bind, sys_read. change fa_buf_len with 4096%N. rewrite Hl.
  destruct (Z.eqb_spec (rd_errno (os_read s tr (kfa_fd ke) 4096)) 11); [contradiction|]. cbn. eexists. reflexivity.
Qed.
Print Assumptions C31_failures_are_silent_refuted.
(** What the user sees of a read that would block, and of one that fails (EIO = 5). *)
Example C31_example :
  shown (fst (linux_watch (fan_os [Some [3%Z]] [again]) 10 (lit "/w") 5 [])) = [Sh (lit "e/sys/api/read@/w") EtOther PtWatcher None] /\
  snd (linux_watch (fan_os [Some [3%Z]] [again]) 10 (lit "/w") 5 []) = Ok false /\
  shown (fst (linux_watch (fan_os [Some [3%Z]] [{| rd_len := -1; rd_bytes := []; rd_errno := 5 |}]) 10 (lit "/w") 5 [])) = [] /\
  snd (linux_watch (fan_os [Some [3%Z]] [{| rd_len := -1; rd_bytes := []; rd_errno := 5 |}]) 10 (lit "/w") 5 []) = Ok true.
Proof. repeat split; vm_compute; reflexivity. Qed.

(** ** C32: paths *)

(** The path of a record, when the directory can be opened and looked up. *)
Theorem C32_path_of_record_partial :
  forall s r tr pre more fd err d, frec_ok r ->
    os_open_handle s tr (handle_of r) = (fd, err) -> (0 < fd)%Z ->
    os_readlink s (tr ++ [OOpenHandle (handle_of r) fd err]) fd = Some d -> d <> [] ->
    exists o, fa_pathof s (pre ++ fencode_rec (Chg r) ++ more) (N.of_nat (length pre)) tr = (o, Ok (fpath d (f_name r), None)) /\
      (length (fpath d (f_name r)) <= 4095)%nat /\
      (f_name r <> lit "." -> (length d + 1 + length (f_name r) <= 4095)%nat -> fpath d (f_name r) = d ++ lit "/" ++ f_name r) /\
      (f_name r = lit "." -> (length d <= 4095)%nat -> fpath d (f_name r) = d).
Proof.
  intros s r tr pre more fd err d Hr Eo Hfd El Hd.
  assert (Hne : firstn path_ulim d <> []).
  { destruct d as [|c d]; [contradiction|]. unfold path_ulim. replace (N.to_nat 4095) with (S (N.to_nat 4094)) by lia. discriminate. }
  exists [OOpenHandle (handle_of r) fd err; OReadlink fd (Some d); OClose fd]. split.
  { rewrite pathof_steps by exact Hr. unfold bind, open_by_handle. rewrite Eo. cbn [fst snd].
    destruct (Z.leb_spec fd 0); [lia|]. unfold readlink. rewrite El. unfold sys_close, ret, fpath. change (N.to_nat 4095) with path_ulim.
    destruct (firstn path_ulim d) as [|c d'] eqn:Ed; [contradiction|]. destruct (text_eqb (f_name r) (lit ".")); reflexivity. }
  replace 4095%nat with (N.to_nat 4095) by (apply Nat.eqb_eq; vm_compute; reflexivity).
  unfold fpath. split; [destruct (text_eqb _ _); apply firstn_le_length|]. split.
  - intros Hn Hl. destruct (text_eqb (f_name r) (lit ".")) eqn:E; [apply text_eqb_eq in E; contradiction|].
    rewrite (firstn_all2 d) by lia. apply firstn_all2. rewrite !app_length. change (length (lit "/")) with 1%nat. lia.
  - intros -> Hl. rewrite text_eqb_refl. apply firstn_all2. exact Hl.
Qed.
Print Assumptions C32_path_of_record_partial.
Example C32_example : let r := fr [FModify] false 2 "x" in
  frec_ok r /\ os_open_handle opening [] (handle_of r) = (12, 0)%Z /\ os_readlink opening [OOpenHandle (handle_of r) 12 0] 12 = Some (lit "/w/d") /\
  fpath (lit "/w/d") (f_name r) = lit "/w/d/x".
Proof. cbv zeta. split; [apply fr_ok; [discriminate|repeat constructor; discriminate|cbn; lia]|]. vm_compute. auto. Qed.

(** When the lookup fails, memory before the path buffer is written (whatever the record). *)
Theorem C32_failed_lookup_refuted :
  forall s r tr pre more fd err, frec_ok r ->
    os_open_handle s tr (handle_of r) = (fd, err) -> (0 < fd)%Z ->
    os_readlink s (tr ++ [OOpenHandle (handle_of r) fd err]) fd = None ->
    snd (fa_pathof s (pre ++ fencode_rec (Chg r) ++ more) (N.of_nat (length pre)) tr) = Undef OobWrite.
Proof.
  intros s r tr pre more fd err Hr Eo Hfd El. rewrite pathof_steps by exact Hr. unfold bind, open_by_handle. rewrite Eo. cbn [fst snd].
  destruct (Z.leb_spec fd 0); [lia|]. unfold readlink. rewrite El. reflexivity.
Qed.
Print Assumptions C32_failed_lookup_refuted.
(** An entry of the root directory gets two slashes, one of a too long directory
    loses its name, and a descriptor 0 gives an event without a path. *)
Theorem C32_paths_refuted :
  fpath (lit "/") (lit "a") = lit "//a" /\
  (forall d n, (4095 <= length d)%nat -> fpath d n = firstn 4095 d) /\
  (forall s r tr pre more, frec_ok r -> os_open_handle s tr (handle_of r) = (0, 0)%Z ->
     exists o, fa_pathof s (pre ++ fencode_rec (Chg r) ++ more) (N.of_nat (length pre)) tr = (o, Ok ([], Some 0%Z))).
Proof.
  split; [vm_compute; reflexivity|]. split.
  - replace 4095%nat with (N.to_nat 4095) by (apply Nat.eqb_eq; vm_compute; reflexivity).
    intros d n Hl. unfold fpath. destruct (text_eqb n _); [reflexivity|]. rewrite firstn_app, firstn_firstn, Nat.min_id, firstn_length.
    replace (N.to_nat 4095 - Nat.min (N.to_nat 4095) (length d))%nat with 0%nat by lia. rewrite firstn_O. apply app_nil_r.
  - intros s r tr pre more Hr Eo. rewrite pathof_steps by exact Hr. unfold bind, open_by_handle. rewrite Eo. cbn. eexists. reflexivity.
Qed.
Print Assumptions C32_paths_refuted.

(** ** C25, fanotify: an overflow is not reported in any way *)
Theorem C25_fanotify_overflow_silent_refuted :
  forall s ops rest sh e d, always_opens s -> Forall op_ok ops -> apart ops ->
    fbatch s 0 (batch_of ops ++ Ovf :: rest) sh e ->
    ~ In (warning "w/sys/q_overflow@" d) sh.
Proof.
  intros s ops rest sh e d Ho Hok Hap Hb Hin.
  destruct (C29_overflow_loses_events_refuted s ops rest sh e Ho Hok Hap Hb) as (shs & -> & H2).
  apply in_concat in Hin as (l & Hl & Hin). clear Hb Hap. revert Hok. induction H2 as [|x sh ops shs Hx H2 IH]; intros Hok; [destruct Hl|].
  inversion Hok; subst. destruct Hl as [<-|Hl].
  - destruct x as [k r|r n|r|r]; cbn in Hx.
    + destruct Hx as (p & w & _ & -> & Hw). apply in_app_or in Hin as [Hin|[[=]|[]]].
      * destruct Hw as [-> |(_ & _ & ->)]; [destruct Hin|]. destruct Hin as [[=]|[]].
      * destruct k; try discriminate; unfold f_ptype in *; destruct (f_dir r); discriminate.
    + destruct Hx as (p & q & _ & _ & ->). destruct Hin as [[=]|[]].
    + destruct Hx as (p & _ & ->). destruct Hin as [[=]|[]].
    + destruct Hx as (p & _ & ->). destruct Hin as [[=]|[]].
  - now apply IH.
Qed.
Print Assumptions C25_fanotify_overflow_silent_refuted.
Example C25_fanotify_example :
  shown (fst (fan_run [[Chg (fr [FModify] false 1 "a"); Ovf]])) = [Sh (lit "/w/a") EtModify PtFile None] /\
  always_opens opening /\ Forall op_ok o1 /\ apart o1 /\
  exists sh e, fbatch opening 0 (batch_of o1 ++ [Ovf]) sh e.
Proof.
  split; [vm_compute; reflexivity|]. pose proof opening_opens as Ho. split; [exact Ho|].
  split; [repeat (constructor; [cbn; repeat split; discriminate || reflexivity|]); constructor|]. split; [cbn; auto|].
  assert (Hs : handles_ok opening) by (split; [intros tr h; left; apply Ho|intros tr fd _; cbn; destruct (fd =? 12)%Z; eexists; (split; [reflexivity|discriminate])]).
  destruct (loop_batch opening Hs 3 (batch_of o1 ++ [Ovf]) 0 []) as (o & e & H & _); [cbn [batch_of flat_map o1 recs_of map app]; recs_ok|eauto].
Qed.

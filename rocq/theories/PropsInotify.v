(** Theorems C19-C25, C27: the inotify adapter.  Runs are those of [linux_watch]
    for a user other than root (who always gets inotify, C36).  [inotify_kernel]
    says what inotify(7) promises about reads; everything else about the system
    is arbitrary. *)
From Verif Require Import Base PathModel EventModel Sys SysFacts LinuxModel InotifyModel FanotifyModel LinuxWatch
  LinuxSpec LinuxFacts LinuxRun LinuxProps LinuxFds LinuxChoice LinuxLoop InotifySpec InotifyFacts InotifyRun
  InotifyClaims InotifyTree InotifyMore WalkSpec WalkFacts ExampleOs LinuxExamples.

Definition not_root (s : os) : Prop := forall t, os_geteuid s t <> 0%Z.

(** A run with two batches: a new directory with something in it, a rename, an
    attribute change; then a deletion. *)
Definition b1 := [kr 1 KCreate true 0 "n"; kr 1 KMovedFrom false 7 "a"; kr 1 KMovedTo false 7 "b";
                  kr 2 KModify false 0 "x"; kr 2 KAttrib false 0 "x"; kr 9 KModify false 0 "y"].
Definition b2 := [kr 2 KDeleteSelf true 0 ""; kr 2 KDelete false 0 "x"; kr 3 KCreate false 0 "z"].
Definition ex_os : os := scripted 1000 tree_w [Some [3%Z]; Some [3%Z]] (map (fun rs => gives (encode rs)) [b1; b2]).
Definition ex_run := linux_watch ex_os 10 (lit "/w") 5 [].

Lemma b1_ok : batch_ok b1 /\ renames_local b1.
Proof.
  split; [split|].
  - repeat (constructor; [apply kr_ok; [lia|lia|cbn; lia|repeat constructor; discriminate|intros _; discriminate]|]). constructor.
  - apply Nat.leb_le. vm_compute. reflexivity.
  - now apply ordered_b_ok.
  - now apply local_b_ok.
Qed.
Lemma b2_ok : batch_ok b2 /\ renames_local b2.
Proof.
  split; [split|].
  - constructor; [apply kr_ok; [lia|lia|cbn; lia|constructor|discriminate]|].
    repeat (constructor; [apply kr_ok; [lia|lia|cbn; lia|repeat constructor; discriminate|intros _; discriminate]|]). constructor.
  - apply Nat.leb_le. vm_compute. reflexivity.
  - now apply ordered_b_ok.
  - now apply local_b_ok.
Qed.
Lemma ex_kernel : not_root ex_os /\ inotify_kernel false ex_os.
Proof.
  split; [intros t; discriminate|]. apply scripted_kernel. destruct b1_ok, b2_ok. constructor; [auto|constructor; [auto|constructor]].
Qed.
Lemma ex_gave : gave (fst ex_run) [b1; b2].
Proof. split; [vm_compute; reflexivity|]. constructor; [apply b1_ok|constructor; [apply b2_ok|constructor]]. Qed.

(** ** C19: decoding *)

(** Whatever is in the buffer from earlier reads: a batch of whole records is
    processed to the end, without touching memory outside the buffer ([Ok]
    excludes [Undef]) or running away, and the outcome does not depend on stale
    contents. *)
Theorem C19_batches_decode :
  forall s ke1 ke2 tr rs,
    kin_fd ke1 = kin_fd ke2 -> kin_dm ke1 = kin_dm ke2 ->
    Forall krec_ok rs -> (length (encode rs) <= N.to_nat 4096)%nat ->
    rd_len (os_read s tr (kin_fd ke1) 4096) = Z.of_nat (length (encode rs)) ->
    rd_bytes (os_read s tr (kin_fd ke1) 4096) = encode rs ->
    exists o ke1' ke2',
      in_recv s ke1 tr = (o, Ok (r_pending, ke1')) /\ in_recv s ke2 tr = (o, Ok (r_pending, ke2')) /\
      kin_dm ke1' = kin_dm ke2'.
Proof. exact in_recv_decodes. Qed.
Print Assumptions C19_batches_decode.
(** It sees exactly these records, in order: what it shows is what [batch] prescribes for
    them.  (For whole runs: C20.) *)
Theorem C19_records_seen_in_order :
  forall s ke tr rs,
    Forall krec_ok rs -> (length (encode rs) <= N.to_nat 4096)%nat -> renames_ordered rs ->
    rd_len (os_read s tr (kin_fd ke) 4096) = Z.of_nat (length (encode rs)) ->
    rd_bytes (os_read s tr (kin_fd ke) 4096) = encode rs ->
    exists o ke' known', in_recv s ke tr = (o, Ok (r_pending, ke')) /\
      batch s true (fun k => zfind k (kin_dm ke)) rs (items o) known'.
Proof.
  intros s ke tr rs Hok Hlen Hord Hl Hb.
  destruct (in_recv_batch s true ke tr rs Hok) as (o & ke' & known' & E & B & _).
  - unfold in_buf_len. lia.
  - split; assumption.
  - exact Hord.
  - discriminate.
  - exists o, ke', known'. split; assumption.
Qed.
Print Assumptions C19_records_seen_in_order.

(** So no whole run does anything undefined. *)
Theorem C19_runs_are_safe :
  forall s loose fuel path il tr, not_root s -> inotify_kernel loose s ->
    forall u, snd (linux_watch s fuel path il tr) <> Undef u.
Proof.
  intros s loose fuel path il tr Hu HK u.
  destruct (linux_watch_session s loose fuel path il tr Hu HK) as (a & b & c & r & rss & E & Hub & _).
  rewrite E. cbn. intros ->. destruct Hub.
Qed.
Print Assumptions C19_runs_are_safe.

(** Whatever a read returns, also rubbish: a receive ends. *)
Theorem C19_receive_always_ends :
  forall s ke tr, snd (in_recv s ke tr) <> Fuel.
Proof. intros s ke. apply in_recv_stops. Qed.
Print Assumptions C19_receive_always_ends.
Example C19_example : not_root ex_os /\ inotify_kernel false ex_os /\ gave (fst ex_run) [b1; b2] /\ snd ex_run = Ok true.
Proof. destruct ex_kernel. split; [assumption|]. split; [assumption|]. split; [exact ex_gave|]. vm_compute. reflexivity. Qed.

(** ** C20: delivery *)

(** The run is a start [a], then a part [b] whose reads returned the batches
    [rss] and whose visible steps are exactly what [session] prescribes for them
    from the directories marked in [a], then an end [c] that shows nothing but
    the final error, if any. *)
Theorem C20_every_event_once_in_order_partial :
  forall s fuel path il tr, not_root s -> inotify_kernel true s ->
    exists a b c rss,
      fst (linux_watch s fuel path il tr) = a ++ b ++ c /\
      (forall e, In (OCallback e) a -> exists q, shape_of e = warning "w/sys/not_watched@" q) /\
      reads a = [] /\ gave b rss /\ reads c = [] /\
      session s true (learn_all nowhere (items a)) rss (items b) /\
      (items c = [] \/ exists e, items c = [Shown (shape_of e)] /\ fatal_message path e).
Proof.
  intros s fuel path il tr Hu HK.
  destruct (linux_watch_session s true fuel path il tr Hu HK) as (a & b & c & r & rss & E & _ & Hma & Hra & Hb & Hrc & Hs & Hc & _).
  exists a, b, c, rss. rewrite E. repeat (split; [assumption || reflexivity|]).
  destruct Hc as [[Hc _]|(e & He & _ & Hf & _)]; eauto.
Qed.
Print Assumptions C20_every_event_once_in_order_partial.

(** The same with the destinations of renames right, if no rename crosses
    directories. *)
Theorem C20_local_renames_exact_partial :
  forall s fuel path il tr, not_root s -> inotify_kernel false s ->
    exists a b c rss,
      fst (linux_watch s fuel path il tr) = a ++ b ++ c /\
      reads a = [] /\ gave b rss /\ reads c = [] /\
      session s false (learn_all nowhere (items a)) rss (items b).
Proof.
  intros s fuel path il tr Hu HK.
  destruct (linux_watch_session s false fuel path il tr Hu HK) as (a & b & c & r & rss & E & _ & Hma & Hra & Hb & Hrc & Hs & Hc & _).
  exists a, b, c, rss. rewrite E. repeat (split; [assumption || reflexivity|]). exact Hs.
Qed.
Print Assumptions C20_local_renames_exact_partial.

(** What the example run delivers. *)
Example C20_example :
  map shape_of (callbacks (fst ex_run)) =
  [ Sh (lit "/w/n") EtCreate PtDir None;
    Sh (lit "/w/a") EtRename PtFile (Some (Sh (lit "/w/b") EtRename PtFile None));
    Sh (lit "/w/d/x") EtModify PtFile None;
    warning "w/sys/phantom@" [];
    Sh (lit "/w/d/x") EtDestroy PtFile None;
    Sh (lit "/w/n/z") EtCreate PtFile None ].
Proof. vm_compute. reflexivity. Qed.

(** The full claim fails for directories that are themselves renamed: they keep
    their old path.  Here /w/d becomes /w/e; a file then created in it is
    reported as /w/d/x. *)
Theorem C20_renamed_directory_refuted :
  let rs := [kr 1 KMovedFrom true 7 "d"; kr 1 KMovedTo true 7 "e"; kr 2 KMoveSelf true 0 ""; kr 2 KCreate false 0 "x"] in
  let s := scripted 1000 tree_w [Some [3%Z]] [gives (encode rs)] in
  map shape_of (callbacks (fst (linux_watch s 10 (lit "/w") 5 []))) =
  [ Sh (lit "/w/d") EtRename PtDir (Some (Sh (lit "/w/e") EtRename PtDir None));
    Sh (lit "/w/d/x") EtCreate PtFile None ].
Proof. vm_compute. reflexivity. Qed.
Print Assumptions C20_renamed_directory_refuted.

(** ** C21: rename pairs *)

(** Wherever in a run the two halves of a rename stand next to each other: one
    event from the old path, with the new name in the associated event; or a
    warning, if the directory is unknown. [d] is the directory marked for the
    descriptor before. *)
Theorem C21_rename_pairs :
  forall s fuel path il tr rss p q a r n b, not_root s -> inotify_kernel true s ->
    gave (fst (linux_watch s fuel path il tr)) rss -> rss = p ++ (a ++ r :: n :: b) :: q ->
    rename_pair r n ->
    exists is1 x is2, items (fst (linux_watch s fuel path il tr)) = is1 ++ Shown x :: is2 /\
      ((exists d, In (Marked (k_wd r) d) is1 /\
          x = Sh (entry d (k_name r)) EtRename (type_of r) (Some (Sh (entry d (k_name n)) EtRename (type_of n) None))) \/
       (x = warning "w/sys/phantom@" [] /\ ((forall d, ~ In (Marked (k_wd r) d) is1) \/ deleted_in (k_wd r) p))).
Proof.
  intros s fuel path il tr rss p q a r n b Hu HK Hg Ers Hp.
  destruct (linux_watch_at s Hu true fuel path il tr rss p (a ++ r :: n :: b) q a (r :: n :: b) HK Hg Ers eq_refl)
    as (i1 & i2 & i3 & known & known' & Ei & Ht & Hb).
  { intros (x & l & [= <- <-] & Hx). destruct Hp as [Hp _]. congruence. }
  destruct (Ht (k_wd r)) as [T1 T2]. destruct (known (k_wd r)) as [d|] eqn:Ek.
  - destruct (batch_rename _ _ _ _ _ _ _ _ _ Hb Hp Ek) as (d' & is' & -> & ->).
    exists i1. eexists. exists (is' ++ i3). split; [rewrite Ei; reflexivity|]. left. exists d. split; [|reflexivity].
    destruct (T1 d eq_refl) as [H|H]; [discriminate|exact H].
  - destruct (batch_overflow_phantom _ _ _ _ _ _ _ Hb Ek) as (is' & -> & _).
    exists i1. eexists. exists (is' ++ i3). split; [rewrite Ei; reflexivity|]. right. split; [reflexivity|].
    destruct (T2 eq_refl) as [[_ H]|H]; auto.
Qed.
Print Assumptions C21_rename_pairs.
Example C21_example :
  b1 = [kr 1 KCreate true 0 "n"] ++ kr 1 KMovedFrom false 7 "a" :: kr 1 KMovedTo false 7 "b" ::
       [kr 2 KModify false 0 "x"; kr 2 KAttrib false 0 "x"; kr 9 KModify false 0 "y"] /\
  rename_pair (kr 1 KMovedFrom false 7 "a") (kr 1 KMovedTo false 7 "b") /\ inotify_kernel true ex_os.
Proof.
  split; [reflexivity|]. split; [repeat split; discriminate|]. apply scripted_kernel.
  destruct b1_ok, b2_ok. constructor; [auto|constructor; [auto|constructor]].
Qed.

(** ** C22: renames across directories *)

(** By C21 the new name is always placed in the old directory, so the claim
    holds exactly when both directories are one: *)
Theorem C22_same_directory_partial :
  forall s fuel path il tr rss p q a r n b, not_root s -> inotify_kernel false s ->
    gave (fst (linux_watch s fuel path il tr)) rss -> rss = p ++ (a ++ r :: n :: b) :: q ->
    rename_pair r n ->
    exists is1 x is2, items (fst (linux_watch s fuel path il tr)) = is1 ++ Shown x :: is2 /\
      ((exists d d', In (Marked (k_wd r) d) is1 /\ In (Marked (k_wd n) d') is1 /\
          x = Sh (entry d (k_name r)) EtRename (type_of r) (Some (Sh (entry d' (k_name n)) EtRename (type_of n) None))) \/
       (x = warning "w/sys/phantom@" [] /\ ((forall d, ~ In (Marked (k_wd r) d) is1) \/ deleted_in (k_wd r) p))).
Proof.
  intros s fuel path il tr rss p q a r n b Hu HK Hg Ers Hp.
  destruct (linux_watch_at s Hu false fuel path il tr rss p (a ++ r :: n :: b) q a (r :: n :: b) HK Hg Ers eq_refl)
    as (i1 & i2 & i3 & known & known' & Ei & Ht & Hb).
  { intros (x & l & [= <- <-] & Hx). destruct Hp as [Hp _]. congruence. }
  destruct (Ht (k_wd r)) as [T1 T2]. destruct (known (k_wd r)) as [d|] eqn:Ek.
  - destruct (batch_rename _ _ _ _ _ _ _ _ _ Hb Hp Ek) as (d' & is' & -> & Hd').
    exists i1. eexists. exists (is' ++ i3). split; [rewrite Ei; reflexivity|]. left. exists d, d'.
    destruct (T1 d eq_refl) as [H|H]; [discriminate|]. destruct (Ht (k_wd n)) as [N1 _].
    destruct (N1 d' Hd') as [H'|H']; [discriminate|]. auto.
  - destruct (batch_overflow_phantom _ _ _ _ _ _ _ Hb Ek) as (is' & -> & _).
    exists i1. eexists. exists (is' ++ i3). split; [rewrite Ei; reflexivity|]. right. split; [reflexivity|].
    destruct (T2 eq_refl) as [[_ H]|H]; auto.
Qed.
Print Assumptions C22_same_directory_partial.

(** A file moved from /w to /w/d (descriptors 1 and 2) is reported as moved to
    /w/b, where it is not. *)
Theorem C22_across_directories_refuted :
  let rs := [kr 1 KMovedFrom false 7 "a"; kr 2 KMovedTo false 7 "b"] in
  let s := scripted 1000 tree_w [Some [3%Z]] [gives (encode rs)] in
  not_root s /\ inotify_kernel true s /\
  let o := fst (linux_watch s 10 (lit "/w") 5 []) in
  gave o [rs] /\ In (Marked 1 (lit "/w")) (items o) /\ In (Marked 2 (lit "/w/d")) (items o) /\
  map shape_of (callbacks o) = [ Sh (lit "/w/a") EtRename PtFile (Some (Sh (lit "/w/b") EtRename PtFile None)) ].
Proof.
  cbv zeta.
  assert (Hok : batch_ok [kr 1 KMovedFrom false 7 "a"; kr 2 KMovedTo false 7 "b"]).
  { split; [|apply Nat.leb_le; vm_compute; reflexivity|now apply ordered_b_ok].
    repeat (constructor; [apply kr_ok; [lia|lia|cbn; lia|repeat constructor; discriminate|intros _; discriminate]|]). constructor. }
  split; [intros t; discriminate|]. split.
  { apply (scripted_kernel true 1000 tree_w [Some [3%Z]] [[kr 1 KMovedFrom false 7 "a"; kr 2 KMovedTo false 7 "b"]]).
    constructor; [|constructor]. split; [exact Hok|discriminate]. }
  split; [split; [vm_compute; reflexivity|constructor; [exact Hok|constructor]]|].
  vm_compute. auto 6.
Qed.
Print Assumptions C22_across_directories_refuted.

(** ** C23: no access, attribute or self events *)

(** Every filesystem event stems from a record that reports a creation, a
    deletion, a modification or a move of the entry it names. *)
Theorem C23_only_changes_reach_the_user :
  forall s loose fuel path il tr o1 e o2, not_root s -> inotify_kernel loose s ->
    fst (linux_watch s fuel path il tr) = o1 ++ OCallback e :: o2 -> ~ is_message e ->
    exists rss rs r d, gave (fst (linux_watch s fuel path il tr)) rss /\ In rs rss /\ In r rs /\
      (k_kind r = KCreate /\ ev_effect e = EtCreate \/ k_kind r = KDelete /\ ev_effect e = EtDestroy \/
       k_kind r = KModify /\ ev_effect e = EtModify \/
       (k_kind r = KMovedFrom \/ k_kind r = KMovedTo) /\ ev_effect e = EtRename) /\
      ev_path e = entry d (k_name r) /\ ev_ptype e = type_of r /\ marked_dir o1 d.
Proof.
  intros s loose fuel path il tr o1 e o2 Hu HK E Hm.
  destruct (linux_watch_source s Hu loose fuel path il tr o1 e o2 HK E Hm) as (rss & rs & r & d & Hg & H1 & H2 & H3 & H4).
  exists rss, rs, r, d. repeat (split; [assumption|]). destruct e as [p f t tm aa]. cbn in H3 |- *.
  destruct H3 as (Hf & -> & ->). split; [|auto].
  destruct (k_kind r); cbn in Hf; try discriminate; injection Hf as <-; tauto.
Qed.
Print Assumptions C23_only_changes_reach_the_user.
Example C23_example :
  In (kr 2 KAttrib false 0 "x") b1 /\
  exists o1 e o2, fst ex_run = o1 ++ OCallback e :: o2 /\ ~ is_message e.
Proof.
  split; [cbn; tauto|]. exists (firstn 22 (fst ex_run)). do 2 eexists. split; [|].
  - vm_compute. reflexivity.
  - unfold is_message. cbn. discriminate.
Qed.

(** ** C24: the map of descriptors *)

(** After a batch: the entries before it, plus the directories it marked, minus
    those it reports as deleted. *)
Theorem C24_map_after_a_batch :
  forall s ke tr rs,
    Forall krec_ok rs -> (length (encode rs) <= N.to_nat 4096)%nat -> renames_ordered rs ->
    rd_len (os_read s tr (kin_fd ke) 4096) = Z.of_nat (length (encode rs)) ->
    rd_bytes (os_read s tr (kin_fd ke) 4096) = encode rs ->
    exists o ke', in_recv s ke tr = (o, Ok (r_pending, ke')) /\
      forall k, zfind k (kin_dm ke') = forget_deleted rs (learn_all (fun k => zfind k (kin_dm ke)) (items o)) k.
Proof.
  intros s ke tr rs Hok Hlen Hord Hl Hb.
  destruct (in_recv_batch s true ke tr rs) as (o & ke' & known' & E & Hba & Hk); auto.
  - unfold in_buf_len. lia.
  - split; assumption.
  - discriminate.
  - exists o, ke'. split; [exact E|]. intros k. rewrite Hk. unfold forget_deleted. destruct (existsb _ _); [reflexivity|].
    apply (batch_learn _ _ _ _ _ _ Hba).
Qed.
Print Assumptions C24_map_after_a_batch.

(** In terms of a run: a record is attributed to the directory that was marked
    with its descriptor before, also when an earlier record of its own batch
    reports that directory's deletion; it is a phantom only if the descriptor
    was never marked or was deleted in an earlier batch. *)
Theorem C24_records_are_attributed :
  forall s loose fuel path il tr rss p q a r b, not_root s -> inotify_kernel loose s ->
    gave (fst (linux_watch s fuel path il tr)) rss -> rss = p ++ (a ++ r :: b) :: q ->
    (k_kind r = KCreate \/ k_kind r = KDelete \/ k_kind r = KModify) ->
    exists is1 x is2, items (fst (linux_watch s fuel path il tr)) = is1 ++ Shown x :: is2 /\
      ((exists d f, In (Marked (k_wd r) d) is1 /\ effect_of (k_kind r) = Some f /\
          x = Sh (entry d (k_name r)) f (type_of r) None) \/
       (x = warning "w/sys/phantom@" [] /\ ((forall d, ~ In (Marked (k_wd r) d) is1) \/ deleted_in (k_wd r) p))).
Proof.
  intros s loose fuel path il tr rss p q a r b Hu HK Hg Ers Hkind.
  destruct (linux_watch_at s Hu loose fuel path il tr rss p (a ++ r :: b) q a (r :: b) HK Hg Ers eq_refl)
    as (i1 & i2 & i3 & known & known' & Ei & Ht & Hb).
  { intros (x & l & [= <- <-] & Hx). destruct Hkind as [H|[H|H]]; congruence. }
  destruct (Ht (k_wd r)) as [T1 T2]. destruct (known (k_wd r)) as [d|] eqn:Ek.
  - destruct (T1 d eq_refl) as [H|Hin]; [discriminate|].
    assert (Hf : exists f, effect_of (k_kind r) = Some f) by (destruct Hkind as [->|[->| ->]]; eexists; reflexivity).
    destruct Hf as [f Hf].
    inversion Hb; subst; try congruence.
    + destruct Hkind as [H'|[H'|H']]; congruence.
    + match goal with Hr : rename_pair r _ |- _ => destruct Hr as [Hr _] end. destruct Hkind as [H'|[H'|H']]; congruence.
    + exists (i1 ++ ms). eexists. exists (is ++ i3). split; [rewrite Ei, <- !app_assoc; reflexivity|]. left. exists d, f.
      split; [apply in_or_app; now left|]. split; [exact Hf|].
      match goal with H1 : k_kind r = KCreate, H2 : k_dir r = true, H3 : known (k_wd r) = Some ?x |- _ =>
        rewrite H1 in Hf; injection Hf as <-; replace x with d by congruence; unfold type_of; rewrite H2; reflexivity end.
    + exists i1. eexists. exists (is ++ i3). split; [rewrite Ei; reflexivity|]. left. exists d, f. split; [exact Hin|].
      split; [exact Hf|]. f_equal; congruence.
  - destruct (batch_overflow_phantom _ _ _ _ _ _ _ Hb Ek) as (is' & -> & _).
    exists i1. eexists. exists (is' ++ i3). split; [rewrite Ei; reflexivity|]. right. split; [reflexivity|].
    destruct (T2 eq_refl) as [[_ H]|H]; auto.
Qed.
Print Assumptions C24_records_are_attributed.
(** The second batch of the example: a deletion in a directory already reported as deleted. *)
Example C24_example : [b1; b2] = [b1] ++ ([kr 2 KDeleteSelf true 0 ""] ++ kr 2 KDelete false 0 "x" :: [kr 3 KCreate false 0 "z"]) :: [].
Proof. reflexivity. Qed.

(** ** C25: queue overflow (inotify; for fanotify see PropsFanotify) *)

(** A lost event is always signalled by some warning: an overflow record gives
    the phantom warning. *)
Theorem C25_overflow_warned_partial :
  forall s loose fuel path il tr rss p rs q r, not_root s -> inotify_kernel loose s ->
    gave (fst (linux_watch s fuel path il tr)) rss -> rss = p ++ rs :: q -> In r rs ->
    k_wd r = (-1)%Z -> k_kind r = KOverflow ->
    exists e, In (OCallback e) (fst (linux_watch s fuel path il tr)) /\ shape_of e = warning "w/sys/phantom@" [].
Proof. intros s loose fuel path il tr rss p rs q r Hu. apply (linux_watch_overflow_phantom s Hu). Qed.
Print Assumptions C25_overflow_warned_partial.

(** The claim itself fails always: as the kernel sends overflow records with
    descriptor -1, the overflow warning is never delivered. *)
Theorem C25_overflow_warning_never_sent_refuted :
  forall s loose fuel path il tr rss e, not_root s -> inotify_kernel loose s ->
    gave (fst (linux_watch s fuel path il tr)) rss -> Forall overflow_nameless rss ->
    In (OCallback e) (fst (linux_watch s fuel path il tr)) ->
    forall d, shape_of e <> warning "w/sys/q_overflow@" d.
Proof.
  intros s loose fuel path il tr rss e Hu HK Hg Ho Hin d Hd.
  apply (linux_watch_no_overflow s Hu loose fuel path il tr rss e HK Hg Ho Hin). exists d. exact Hd.
Qed.
Print Assumptions C25_overflow_warning_never_sent_refuted.
Example C25_example :
  let rs := [kr 1 KModify false 0 "a"; kr (-1) KOverflow false 0 ""] in
  let s := scripted 1000 tree_w [Some [3%Z]] [gives (encode rs)] in
  let o := fst (linux_watch s 10 (lit "/w") 5 []) in
  batch_ok rs /\ overflow_nameless rs /\ gave o [rs] /\
  map shape_of (callbacks o) = [ Sh (lit "/w/a") EtModify PtFile None; warning "w/sys/phantom@" [] ].
Proof.
  cbv zeta.
  assert (Hok : batch_ok [kr 1 KModify false 0 "a"; kr (-1) KOverflow false 0 ""]).
  { split; [|apply Nat.leb_le; vm_compute; reflexivity|now apply ordered_b_ok].
    constructor; [apply kr_ok; [lia|lia|cbn; lia|repeat constructor; discriminate|intros _; discriminate]|].
    constructor; [apply kr_ok; [lia|lia|cbn; lia|constructor|discriminate]|constructor]. }
  split; [exact Hok|]. split; [intros r [<-|[<-|[]]] H; [discriminate|reflexivity]|].
  split; [split; [vm_compute; reflexivity|constructor; [exact Hok|constructor]]|]. vm_compute. reflexivity.
Qed.

(** ** C27: paths under the tree *)

(** Every path of a filesystem event is an entry of a directory marked before. *)
Theorem C27_paths_are_entries_of_marked_directories :
  forall s loose fuel path il tr o1 e o2, not_root s -> inotify_kernel loose s ->
    fst (linux_watch s fuel path il tr) = o1 ++ OCallback e :: o2 -> ~ is_message e ->
    forall q, In q (event_paths e) ->
    exists d nm, q = entry d nm /\ nm <> [] /\ Forall (fun b => b <> 0 /\ b <> 47)%N nm /\ marked_dir o1 d.
Proof. intros s loose fuel path il tr o1 e o2 Hu HK. apply (linux_watch_paths s loose); assumption. Qed.
Print Assumptions C27_paths_are_entries_of_marked_directories.

(** Every marked directory, and so every reported path, lies in the tree,
    provided that no path of the tree resolves to a place outside of it at any
    time and the paths fit PATH_MAX. *)
Theorem C27_marked_directories_are_inside_partial :
  forall s loose fuel path real il tr fd d mask wd, not_root s -> inotify_kernel loose s -> contained s path real ->
    In (OAddWatch fd d mask wd) (fst (linux_watch s fuel path il tr)) -> (0 < wd)%Z -> inside real d.
Proof. intros s loose fuel path real il tr fd d mask wd. apply linux_watch_inside. Qed.
Print Assumptions C27_marked_directories_are_inside_partial.

Theorem C27_events_are_inside_partial :
  forall s loose fuel path real il tr e q, not_root s -> inotify_kernel loose s -> contained s path real ->
    In (OCallback e) (fst (linux_watch s fuel path il tr)) -> ~ is_message e -> In q (event_paths e) -> inside real q.
Proof. intros s loose fuel path real il tr e q. apply linux_watch_event_inside. Qed.
Print Assumptions C27_events_are_inside_partial.

Example C27_example : forall tr p q, os_realpath ex_os tr p = Some q -> inside (lit "/w") p -> inside (lit "/w") q.
Proof. intros tr p q [= ->] H. exact H. Qed.
Example C27_example_contained : contained ex_os (lit "/w") (lit "/w").
Proof.
  split; [split; discriminate|intros tr p q [= ->] H; exact H|intros tr p q [= ->] H; exact H|].
  intros tr p. cbn [ex_os scripted os_opendir tree_w fs_find].
  destruct (text_eqb p (lit "/w")) eqn:E1; [apply text_eqb_eq in E1; subst; intros _; apply Nat.leb_le; vm_compute; reflexivity|].
  destruct (text_eqb p (lit "/w/d")) eqn:E2; [apply text_eqb_eq in E2; subst; intros _; apply Nat.leb_le; vm_compute; reflexivity|]. congruence.
Qed.

(** Without that provision it fails: if a new directory is swapped for a link
    before it is marked, the link's target is marked, and its changes are
    reported under a path outside the tree. *)
Definition swapped : os :=
  let s := scripted 1000 tree_w [Some [3%Z]; Some [3%Z]] [gives (encode [kr 1 KCreate true 0 "n"]); gives (encode [kr 3 KCreate false 0 "z"])] in
  {| os_now := os_now s; os_geteuid := os_geteuid s;
     os_realpath := fun tr p => if text_eqb p (lit "/w/n") then Some (lit "/etc") else Some p;
     os_is_dir := os_is_dir s; os_opendir := os_opendir s; os_inotify_init := os_inotify_init s;
     os_add_watch := os_add_watch s; os_fan_init := os_fan_init s; os_fan_mark := os_fan_mark s;
     os_epoll_create := os_epoll_create s; os_epoll_ctl := os_epoll_ctl s; os_epoll_wait := os_epoll_wait s;
     os_read := os_read s; os_open_handle := os_open_handle s; os_readlink := os_readlink s |}.
Theorem C27_outside_by_swapped_link_refuted :
  map shape_of (callbacks (fst (linux_watch swapped 10 (lit "/w") 5 []))) =
  [ Sh (lit "/w/n") EtCreate PtDir None; Sh (lit "/etc/z") EtCreate PtFile None ].
Proof. vm_compute. reflexivity. Qed.
Print Assumptions C27_outside_by_swapped_link_refuted.

(** Theorems C100 and C101: the Windows adapter (include/wtr/watcher.hpp:1730-1972) on a
    filesystem that others change at any time, with the ReadDirectoryChangesW of
    [WinWorldSpec] between the two.  The adapter is that of [WindowsModel], unchanged. *)
From Verif Require Import Base EventModel InotifySpec Mon WindowsModel WindowsSpec WinTypes WinWorldSpec WinWorldFacts.
From Verif Require Sys.

Definition run (e : wenv) (fuel : nat) : list nobs := fst (win_watch (system e) fuel (we_path e) []).

(** ** C100: every change, once, in order *)
Lemma tells_some root cs : exists l, Forall2 (tells root) cs l.
Proof.
  induction cs as [|c cs (l & IH)]; [exists []; constructor|].
  assert (H : exists ev, tells root c ev) by (destruct c; cbn; eexists; [exists PtFile..|exists PtFile, PtFile]; reflexivity).
  destruct H as (ev & H). exists (ev :: l). now constructor.
Qed.
Theorem C100_windows_every_change_once_in_order :
  forall e D F fuel, we_start e = world_start D F ->
    let o := run e fuel in
    (* at every moment *)
    (forall a b, o = a ++ b -> exists rest, Forall2 (tells (we_path e)) (ww_log (state e a)) (nshown a ++ rest)) /\
    (* when the watcher waits, or looks at the stop flag: all but what the system still holds *)
    (forall a x b, o = a ++ x :: b -> (exists r, x = NWait r) \/ (exists p, x = NState p) ->
       exists told, ww_log (state e a) = told ++ ww_queue (state e a) /\ Forall2 (tells (we_path e)) told (nshown a)) /\
    (* when it has returned *)
    (forall r, snd (win_watch (system e) fuel (we_path e) []) = Ok r ->
       exists told, ww_log (state e o) = told ++ ww_queue (state e o) /\ Forall2 (tells (we_path e)) told (nshown o)).
Proof.
  intros e D F fuel S. cbv zeta. assert (HS : exists d f, we_start e = world_start d f) by eauto. destruct (watch_held e HS fuel) as [H1 H2].
  split; [|split].
  - intros a b E. destruct (H1 a b E) as (dl & m & [Hl _] & Hf). cbn [app] in *. rewrite Hl. destruct (tells_some (we_path e) (ww_queue (state e a))) as (l & Hq).
    exists (m ++ l). rewrite app_assoc. now apply Forall2_app.
  - intros a x b E Hx. destruct (H2 a x b E Hx) as (dl & [Hl _] & Hf). cbn [app] in *. eauto.
  - intros r Hr. destruct (watch_exact e HS fuel r Hr) as (dl & [Hl _] & Hf). eauto.
Qed.
Print Assumptions C100_windows_every_change_once_in_order.

(** A concrete system: [want] per wait, the changes after the n-th read, [turns] looks at
    the stop flag. *)
Definition is_wait (x : nobs) : bool := match x with NWait _ => true | _ => false end.
Definition is_state (x : nobs) : bool := match x with NState _ => true | _ => false end.
Definition is_read (x : nobs) : bool := match x with NRead _ => true | _ => false end.
Definition count (f : nobs -> bool) (l : list nobs) : nat := length (filter f l).
Definition plain_pc (turns : nat) : nfs := {|
  nf_now := fun o => Z.of_nat (length o); nf_isdir := fun _ _ => Some false;
  nf_narrow := fun p => Some (N.of_nat (length p)); nf_open := fun _ _ => HOk; nf_port := fun _ => true; nf_bind := fun _ _ => true;
  nf_read := fun _ => RdOk []; nf_wait := fun _ => WtNone; nf_pending := fun o => Nat.ltb (count is_state o) turns |}.
Definition scripted (D F : list text) (wants : list nat) (ops : list (list wop)) (turns : nat) : wenv := {|
  we_path := lit "C:\w"; we_start := world_start D F;
  we_ops := fun tr => match rev tr with NRead _ :: l => nth (count is_read l) ops [] | _ => [] end;
  we_want := fun tr => nth (count is_wait tr) wants 100%nat; we_base := plain_pc turns |}.
Definition day : wenv := scripted [lit "dir"] [lit "dir\old"] [3; 0; 100]%nat
  [[WMake false (lit "dir\f"); WWrite (lit "dir\f"); WRename (lit "dir\f") (lit "dir\g"); WRemove (lit "dir\old")]; [];
   [WMake true (lit "new"); WMake false (lit "new\x"); WRename (lit "dir") (lit "dire"); WWrite (lit "dire\g")]] 6.
Example C100_example : let o := run day 9 in
  snd (win_watch (system day) 9 (we_path day) []) = Ok true /\
  length (ww_log (state day o)) = 8%nat /\ ww_queue (state day o) = [] /\ ww_files (state day o) = [lit "new\x"; lit "dire\g"] /\
  nshown o =
    [Sh (lit "C:\w\dir\f") EtCreate PtFile None; Sh (lit "C:\w\dir\f") EtModify PtFile None;
     Sh (lit "C:\w\dir\f") EtRename PtFile (Some (Sh (lit "C:\w\dir\g") EtRename PtFile None)); Sh (lit "C:\w\dir\old") EtDestroy PtFile None;
     Sh (lit "C:\w\new") EtCreate PtDir None; Sh (lit "C:\w\new\x") EtCreate PtFile None;
     Sh (lit "C:\w\dir") EtRename PtFile (Some (Sh (lit "C:\w\dire") EtRename PtDir None)); Sh (lit "C:\w\dire\g") EtModify PtFile None].
Proof. vm_compute. repeat split; reflexivity. Qed.

(** ** C101: types *)
(** The claim: the type in an event is that of the thing the change was about.  For what
    is gone when the watcher asks it is not: a removed directory is a file, and so is the
    old name of a renamed one. *)
Definition dir_day : wenv := scripted [lit "dir"; lit "sub"] [] [] [[WRemove (lit "dir"); WRename (lit "sub") (lit "sup")]] 4.
Theorem C101_windows_types_refuted :
  exists e, we_start e = world_start [lit "dir"; lit "sub"] [] /\
    let o := run e 9 in
    snd (win_watch (system e) 9 (we_path e) []) = Ok true /\ ww_queue (state e o) = [] /\
    (* two directories: one is removed, one is renamed *)
    ww_log (state e o) = [WRemove (lit "dir"); WRename (lit "sub") (lit "sup")] /\
    nshown o = [Sh (lit "C:\w\dir") EtDestroy PtFile None; Sh (lit "C:\w\sub") EtRename PtFile (Some (Sh (lit "C:\w\sup") EtRename PtDir None))].
Proof. exists dir_day. split; [reflexivity|]. vm_compute. repeat split; reflexivity. Qed.
Print Assumptions C101_windows_types_refuted.

(** What holds: each name in an event has the type of what was there when the watcher asked,
    at some moment between getting the records (or the previous wait or read) and making the
    event. *)
Lemma has_In p l : has p l = true <-> In p l.
Proof.
  unfold has. rewrite existsb_exists. split.
  - intros (q & H & E). apply text_eqb_eq in E. now subst.
  - intros H. exists p. split; [exact H|now apply text_eqb_eq].
Qed.
Theorem C101_windows_types_as_asked_partial :
  forall e fuel a ev b, run e fuel = a ++ NCb ev :: b -> ev_ptype ev <> PtWatcher ->
    forall p t, In (p, t) (names ev) -> exists a1 d a2, a = a1 ++ NIsDir p d :: a2 /\ (forall x, In x a2 -> (forall r, x <> NWait r) /\ (forall r, x <> NRead r)) /\
      let dirs := map (win_entry (we_path e)) (ww_dirs (at_call e a1)) in
      let files := map (win_entry (we_path e)) (ww_files (at_call e a1)) in
      (In p dirs -> t = PtDir) /\ (~ In p dirs -> In p files -> t = PtFile) /\ (~ In p dirs -> ~ In p files -> t = PtFile \/ t = PtOther).
Proof.
  intros e fuel a ev b E W p t H. destruct (safe_watch (system e) fuel (we_path e) [] I) as [G _]. specialize (G a _ b E W _ H).
  cbn [app] in G. destruct G as (a1 & a2 & -> & So & Ht). cbn [fst snd] in *. exists a1, (nf_isdir (system e) a1 p), a2. split; [reflexivity|]. split.
  { intros x Hx. rewrite Forall_forall in So. specialize (So x Hx). split; intros r ->; exact So. }
  cbv zeta.
  subst t. cbn [nf_isdir system]. set (ds := map _ _). set (fs := map _ _).
  split; [|split].
  - intros Hd. apply has_In in Hd. now rewrite Hd.
  - intros Hd Hf. apply has_In in Hf. destruct (has p ds) eqn:Ed; [now apply has_In in Ed|]. now rewrite Hf.
  - intros Hd Hf. destruct (has p ds) eqn:Ed; [now apply has_In in Ed|]. destruct (has p fs) eqn:Ef; [now apply has_In in Ef|].
    destruct (nf_isdir (we_base e) a1 p); auto.
Qed.
Print Assumptions C101_windows_types_as_asked_partial.
Example C101_example : exists a ev b, run day 9 = a ++ NCb ev :: b /\ ev_ptype ev <> PtWatcher /\
  names ev = [(lit "C:\w\dir", PtFile); (lit "C:\w\dire", PtDir)].
Proof.
  assert (P : forall l, (exists ev, In (NCb ev) l /\ ev_ptype ev <> PtWatcher /\ names ev = [(lit "C:\w\dir", PtFile); (lit "C:\w\dire", PtDir)]) ->
    exists a ev b, l = a ++ NCb ev :: b /\ ev_ptype ev <> PtWatcher /\ names ev = [(lit "C:\w\dir", PtFile); (lit "C:\w\dire", PtDir)]).
  { intros l (ev & H & R). apply in_split in H as (a & b & ->). eauto. }
  apply P.
  assert (Q : existsb (fun x => match x with NCb (Ev p f PtFile t (Some (Ev p' f' PtDir t' a))) => text_eqb p (lit "C:\w\dir") && text_eqb p' (lit "C:\w\dire") | _ => false end) (run day 9) = true) by (vm_compute; reflexivity).
  apply existsb_exists in Q as (x & H & Q). destruct x as [ev| | | | | | | |]; try discriminate Q.
  destruct ev as [q f [] t [[q' f' [] t' a]|]]; try discriminate Q. apply andb_prop in Q as [Q1 Q2]. apply text_eqb_eq in Q1, Q2. subst.
  eexists. split; [exact H|]. split; [discriminate|reflexivity].
Qed.

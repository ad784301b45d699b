(** Theorems C115-C117: the Darwin adapter (include/wtr/watcher.hpp:470-818) on a filesystem
    that others change ([DarwinWorldSpec]). *)
From Verif Require Import Base PathModel EventModel InotifySpec Mon DarwinModel DarwinSpec DarwinFacts DarwinLife DarwinWorldSpec DarwinWorldFacts PropsDarwin.

(** ** Concrete systems *)
Definition no_things : tree := fun _ => None.
Definition these (l : list (string * path_type)) : tree := fun p =>
  match find (fun x => text_eqb p (lit (fst x))) l with Some x => Some (snd x) | None => None end.
(** All of [cs] happens between the opening of the stream and the first record. *)
Definition at_once (cs : list change) (n : nat) : list change := if (n =? 0)%nat then [] else cs.
Lemma at_once_grows cs : grows_on (at_once cs).
Proof. intros [|n] [|m] H; cbn; [exists []; reflexivity|exists cs; reflexivity|lia|exists []; now rewrite app_nil_r]. Qed.
Definition obs_true (w0 : tree) (cs : list change) (x : dobs) : Prop :=
  match x with
  | DOccur _ (Some rs) => Forall (fun r => flags_true w0 cs (fst r) (snd r)) rs
  | DAccess p b => p = [] \/ b = is_there (afters w0 cs) p
  | _ => True
  end.
Lemma honest_at_once w0 cs o : Forall (obs_true w0 cs) o -> honest w0 (at_once cs) (DStream true :: o).
Proof.
  intros F. split; [apply at_once_grows| |].
  - intros o1 i rs o2 p fl E Hin. destruct o1 as [|x o1]; [discriminate E|]. injection E as <- ->. cbn.
    apply Forall_app in F as [_ F]. inversion F as [|? ? Hx _]; subst. cbn in Hx. rewrite Forall_forall in Hx. exact (Hx _ Hin).
  - intros o1 p b o2 E Hp. destruct o1 as [|x o1]; [discriminate E|]. injection E as <- ->. cbn.
    apply Forall_app in F as [_ F]. inversion F as [|? ? Hx _]; subst. cbn in Hx. destruct Hx as [Hx|Hx]; [contradiction|exact Hx].
Qed.

(** ** C115: no event without a change *)
(** Whenever the callback is called, what the event says is true of the changes made so far
    ([true_event]; of a rename event this is less than one would wish). *)
Theorem C115_darwin_no_event_without_a_change_partial :
  forall s w w0 hist o1 e o2, dreach s dstart w -> honest w0 hist (dlog w) -> dlog w = o1 ++ DCb e :: o2 ->
    true_event w0 hist o1 (shape_of e).
Proof.
  intros s w w0 hist o1 e o2 R Ho E. unfold true_event. destruct (event_true s w w0 hist R Ho o1 e o2 E) as (p & fl & Hr & (F & _) & H). cbv zeta in *.
  destruct (shape_of e) as [q f t a]. destruct f, a as [[q' f' t' a']|]; try exact H.
  - destruct f', a'; try exact H. destruct H as (-> & -> & -> & Hk & Hd & X). auto.
  - destruct H as (-> & -> & Hk & X). auto.
  - destruct H as (-> & -> & Hk & X). auto.
  - destruct H as (-> & -> & Hk & X1 & X2). auto.
  - destruct H as (-> & -> & Hk). eauto.
Qed.
Print Assumptions C115_darwin_no_event_without_a_change_partial.
(** A file is made and written, another moved. *)
Definition day_changes : list change := [CMake (lit "/w/a") PtFile; CWrite (lit "/w/a"); CMove (lit "/w/x") (lit "/w/y"); CDelete (lit "/w/a")].
Definition day_records : list record := [rc "/w/a" 0x11300; rc "/w/x" 0x20800; rc "/w/y" 0x20800].
Definition day_tree : tree := these [("/w/x"%string, PtDir)].
Lemma was_at w0 cs n p t : afters w0 (firstn n cs) p = Some t -> was w0 cs p t.
Proof. intros H. exists (firstn n cs), (skipn n cs). split; [symmetry; apply firstn_skipn|exact H]. Qed.
Example C115_example :
  let s := mac ["/w/y"%string] in
  (exists w, dreach s dstart w /\ dlog w = life1 s day_records) /\ honest day_tree (at_once day_changes) (life1 s day_records) /\
  dshown (life1 s day_records) =
    [Sh (lit "/w/a") EtCreate PtFile None; Sh (lit "/w/a") EtDestroy PtFile None; Sh (lit "/w/a") EtModify PtFile None;
     Sh (lit "/w/x") EtRename PtDir (Some (Sh (lit "/w/y") EtRename PtDir None))].
Proof.
  cbv zeta. split; [apply life1_reach|]. split; [|vm_compute; reflexivity].
  set (o := tl (life1 (mac ["/w/y"%string]) day_records)). change (life1 (mac ["/w/y"%string]) day_records) with (DStream true :: o).
  apply honest_at_once. vm_compute in o. unfold o.
  assert (Fl : Forall (fun r => flags_true day_tree day_changes (fst r) (snd r)) day_records).
  { unfold day_records, rc; repeat (apply Forall_cons || apply Forall_nil); (repeat split); cbn [fst snd]; intros H; try discriminate H.
    - apply (was_at _ _ 1). reflexivity.
    - exists (CMake (lit "/w/a") PtFile). split; [now left|]. eexists. reflexivity.
    - cbn. auto 10.
    - cbn. auto 10.
    - apply (was_at _ _ 0). reflexivity.
    - exists (CMove (lit "/w/x") (lit "/w/y")). split; [cbn; auto 10|]. left. eexists. left. reflexivity.
    - apply (was_at _ _ 3). reflexivity.
    - exists (CMove (lit "/w/x") (lit "/w/y")). split; [cbn; auto 10|]. left. eexists. right. reflexivity. }
  repeat (apply Forall_cons; [first [exact Fl|exact I|left; reflexivity|right; reflexivity]|]). constructor.
Qed.

(** That a rename event tells of one move is false: a file goes to the trash, another is
    renamed, and the user hears that the first became the second.  The system is true in
    all. *)
Definition trash_changes : list change := [CAway (lit "/w/a"); CMove (lit "/w/b") (lit "/w/c")].
Definition trash_records : list record := [rc "/w/a" 0x10800; rc "/w/b" 0x10800; rc "/w/c" 0x10800].
Definition trash_tree : tree := these [("/w/a"%string, PtFile); ("/w/b"%string, PtFile)].
Theorem C115_darwin_renames_that_did_not_happen_refuted :
  exists s w, dreach s dstart w /\ cans trash_tree trash_changes /\ honest trash_tree (at_once trash_changes) (dlog w) /\
    recs (dlog w) = trash_records /\
    dshown (dlog w) = [Sh (lit "/w/a") EtRename PtFile (Some (Sh (lit "/w/b") EtRename PtFile None))] /\
    forall q, ~ In (CMove (lit "/w/a") q) trash_changes.
Proof.
  exists (mac ["/w/c"%string]). destruct (life1_reach (mac ["/w/c"%string]) trash_records) as (w & R & E). exists w. split; [exact R|]. rewrite E.
  split; [repeat split; try discriminate; reflexivity|]. split; [|split; [vm_compute; reflexivity|split; [vm_compute; reflexivity|intros q [H|[H|[]]]; discriminate H]]].
  set (o := tl (life1 (mac ["/w/c"%string]) trash_records)). change (life1 (mac ["/w/c"%string]) trash_records) with (DStream true :: o).
  apply honest_at_once. vm_compute in o. unfold o.
  assert (Fl : Forall (fun r => flags_true trash_tree trash_changes (fst r) (snd r)) trash_records).
  { unfold trash_records, rc; repeat (apply Forall_cons || apply Forall_nil); (repeat split); cbn [fst snd]; intros H; try discriminate H.
    - apply (was_at _ _ 0). reflexivity.
    - exists (CAway (lit "/w/a")). split; [now left|]. right. now left.
    - apply (was_at _ _ 0). reflexivity.
    - exists (CMove (lit "/w/b") (lit "/w/c")). split; [cbn; auto|]. left. eexists. left. reflexivity.
    - apply (was_at _ _ 2). reflexivity.
    - exists (CMove (lit "/w/b") (lit "/w/c")). split; [cbn; auto|]. left. eexists. right. reflexivity. }
  repeat (apply Forall_cons; [first [exact Fl|exact I|left; reflexivity|right; reflexivity]|]). constructor.
Qed.
Print Assumptions C115_darwin_renames_that_did_not_happen_refuted.

(** ** C116: one event for each change *)
(** One change at a time, all records handed over and in order: what is told, for any changes
    inside the tree. *)
Lemma whole_paced s w w0 cs : dreach s dstart w -> typed w0 -> cans w0 cs -> Forall inside_tree cs -> paced w0 cs (reports (dlog w)) ->
  dshown (dlog w) = told_from [] w0 cs /\ left_behind (reports (dlog w)) = [].
Proof.
  intros R T C I P. destruct (dinv_reach s w R) as [_ _ A S]. destruct (paced_told cs w0 [] [] (reports (dlog w)) T C I) as (E & _ & L); auto.
  rewrite S. auto.
Qed.
Theorem C116_darwin_account :
  forall s w w0 cs, dreach s dstart w -> typed w0 -> cans w0 cs -> Forall inside_tree cs -> paced w0 cs (reports (dlog w)) ->
    dshown (dlog w) = told_from [] w0 cs.
Proof. intros s w w0 cs R T C I P. now apply (whole_paced s w w0 cs). Qed.
Print Assumptions C116_darwin_account.
(** For changes that give it no trouble: exactly one event for each, in order, with its kind,
    path and type (none for inode metadata). *)
Lemma told_easy cs : forall cs1 w, (forall a c b, cs = a ++ c :: b -> easy_change (cs1 ++ a) c) -> told_from cs1 w cs = events_for w cs.
Proof.
  induction cs as [|c cs IH]; intros cs1 w H; [reflexivity|]. cbn [told_from events_for]. rewrite IH.
  - f_equal. specialize (H [] c cs eq_refl). rewrite app_nil_r in H. destruct c; cbn in *; try reflexivity; now rewrite H.
  - intros a x b ->. rewrite <- app_assoc. apply (H (c :: a) x b). reflexivity.
Qed.
Lemma easy_inside cs : easy_going cs -> Forall inside_tree cs.
Proof. intros H. apply Forall_forall. intros c Hc. apply in_split in Hc as (a & b & ->). specialize (H a c b eq_refl). destruct c; cbn in *; auto. Qed.
Theorem C116_darwin_one_event_per_change_partial :
  forall s w w0 cs, dreach s dstart w -> typed w0 -> cans w0 cs -> easy_going cs -> paced w0 cs (reports (dlog w)) ->
    dshown (dlog w) = events_for w0 cs.
Proof.
  intros s w w0 cs R T C Ea P. rewrite (C116_darwin_account s w w0 cs R T C (easy_inside _ Ea) P). now apply told_easy.
Qed.
Print Assumptions C116_darwin_one_event_per_change_partial.

Definition quiet_tree : tree := these [("/w"%string, PtDir); ("/w/x"%string, PtDir)].
Definition quiet_changes : list change :=
  [CMake (lit "/w/a") PtFile; CWrite (lit "/w/a"); CTouch (lit "/w/a"); CMove (lit "/w/x") (lit "/w/y"); CDelete (lit "/w/a"); CMake (lit "/w/a") PtSymLink].
Definition quiet_records : list record :=
  [rc "/w/a" 0x10100; rc "/w/a" 0x11000; rc "/w/a" 0x10400; rc "/w/x" 0x20800; rc "/w/y" 0x20800; rc "/w/a" 0x10200; rc "/w/a" 0x40100].
Lemma these_typed l : forallb (fun x => match snd x with PtWatcher => false | _ => true end) l = true -> typed (these l).
Proof.
  intros H p. unfold these. destruct (find _ l) as [x|] eqn:E; [|discriminate]. apply find_some in E as [E _].
  rewrite forallb_forall in H. specialize (H _ E). destruct (snd x); try discriminate H; intros X; discriminate X.
Qed.
Ltac pace1 := cbn [records]; repeat (apply Forall2_cons || apply Forall2_nil); (split; [reflexivity|split; [reflexivity|]]);
  let X := fresh in let Y := fresh in intros ? ? X Y; first [discriminate X|injection X as <- <-; first [now contradiction Y|vm_compute; reflexivity]].
Ltac pace := lazymatch goal with
  | |- paced _ [] _ => apply Paced_nil
  | |- paced _ (CMove _ _ :: _) (?a :: ?b :: ?h) => apply (Paced_cons _ _ _ [a; b] h); [pace1|pace]
  | |- paced _ (_ :: _) (?a :: ?h) => apply (Paced_cons _ _ _ [a] h); [pace1|pace]
  end.
Lemma easy_check cs : (forall n, (n < length cs)%nat -> match nth_error cs n with Some c => easy_change (firstn n cs) c | None => True end) -> easy_going cs.
Proof.
  intros H a c b ->. specialize (H (length a)). rewrite app_length in H. cbn in H.
  rewrite nth_error_app2, Nat.sub_diag, firstn_app, Nat.sub_diag, firstn_all, app_nil_r in H by lia. apply H. lia.
Qed.
Example C116_example :
  let s := mac ["/w/y"%string] in
  (exists w, dreach s dstart w /\ dlog w = life1 s quiet_records) /\
  typed quiet_tree /\ cans quiet_tree quiet_changes /\ easy_going quiet_changes /\ paced quiet_tree quiet_changes (reports (life1 s quiet_records)) /\
  length (events_for quiet_tree quiet_changes) = 5%nat.
Proof.
  cbv zeta. split; [apply life1_reach|]. split; [apply these_typed; reflexivity|]. split; [repeat split; try discriminate; reflexivity|].
  split; [|split; [|reflexivity]].
  - apply easy_check. intros n Hn. cbn in Hn. do 6 (destruct n as [|n]; [vm_compute; reflexivity || exact I|]). lia.
  - set (h := reports _). vm_compute in h. unfold h, quiet_changes. pace.
Qed.

Lemma cans_app cs : forall w cs', cans w (cs ++ cs') -> cans w cs /\ cans (afters w cs) cs'.
Proof. induction cs as [|c cs IH]; intros w cs' H; cbn in *; [auto|]. destruct H as [H1 H2]. apply IH in H2 as [H2 H3]. auto. Qed.
Lemma cans_typed cs : forall w, typed w -> cans w cs -> typed (afters w cs).
Proof. induction cs as [|c cs IH]; intros w T H; cbn in *; [exact T|]. destruct H. apply IH; auto. now apply after_typed. Qed.
Lemma paced_snoc cs c : forall w h, paced w (cs ++ [c]) h -> exists h1 rs, h = h1 ++ rs /\ paced w cs h1 /\
  Forall2 (fun x r => r_path r = fst x /\ r_flags r = snd x /\
    forall q b, r_asked r = Some (q, b) -> q <> [] -> b = is_there (after (afters w cs) c) q) (records (afters w cs) c) rs.
Proof.
  induction cs as [|x cs IH]; intros w h P; inversion P as [|w' c' cs' rs h' F P']; subst.
  - inversion P'; subst. exists [], rs. rewrite app_nil_r. repeat split; [constructor|exact F].
  - apply IH in P' as (h1 & rs' & -> & P1 & F1). exists (rs ++ h1), rs'. rewrite app_assoc. repeat split; [|exact F1]. now constructor.
Qed.
(** What moves into the tree, or out of it, is not told, nor is that it is gone. *)
Theorem C116_darwin_moved_in_or_out_untold_refuted :
  forall s w w0 cs c, dreach s dstart w -> typed w0 -> cans w0 (cs ++ [c]) -> Forall inside_tree cs -> ~ inside_tree c ->
    paced w0 (cs ++ [c]) (reports (dlog w)) -> dshown (dlog w) = told_from [] w0 cs.
Proof.
  intros s w w0 cs c R T C I Hc P. destruct (dinv_reach s w R) as [_ _ A S]. rewrite S.
  apply paced_snoc in P as (h1 & rs & E & P & F). apply cans_app in C as [C Cc]. destruct Cc as [Cc _]. rewrite E in A |- *.
  destruct (paced_told cs w0 [] [] h1 T C I) as (E1 & _ & L); auto.
  { intros a r b Eh. apply (A a r (b ++ rs)). now rewrite Eh, <- app_assoc. }
  cbn [app] in L. rewrite flat_map_app, E1.
  assert (X : flat_map r_events rs = []); [|now rewrite X, app_nil_r].
  assert (Y : exists p t r, rs = [r] /\ t <> PtWatcher /\ r_path r = p /\ r_flags r = N.lor 0x800 (type_bit t)).
  { destruct c as [p t|p|p|p|p q|p|q t]; try (exfalso; now apply Hc); cbn [records] in F; inversion F as [|x r l rs' (Hp & Hf & _) F']; subst; inversion F'; subst.
    - exists p, (type_at (afters w0 cs) p), r. repeat split; auto. apply type_at_ok. now apply cans_typed.
    - exists q, t, r. repeat split; auto. }
  destruct Y as (p & t & r & -> & Ht & Hp & Hf). destruct (A h1 r [] eq_refl) as [A1 A2].
  destruct (rename_report h1 r p t A1 A2 Ht Hp Hf) as (th & _ & Er & _). rewrite L in Er. cbn in Er. cbn. now rewrite Er.
Qed.
Print Assumptions C116_darwin_moved_in_or_out_untold_refuted.
Example C116_refuted_example :
  let s := mac [] in let rs := [rc "/w/a" 0x10100; rc "/w/b" 0x10800] in
  let cs := [CMake (lit "/w/a") PtFile] in let c := CInto (lit "/w/b") PtFile in
  (exists w, dreach s dstart w /\ dlog w = life1 s rs) /\ typed no_things /\ cans no_things (cs ++ [c]) /\ ~ inside_tree c /\
  paced no_things (cs ++ [c]) (reports (life1 s rs)) /\ dshown (life1 s rs) = [Sh (lit "/w/a") EtCreate PtFile None].
Proof.
  cbv zeta. split; [apply life1_reach|]. split; [intros p; discriminate|]. split; [repeat split; discriminate|]. split; [intros []|].
  split; [|vm_compute; reflexivity]. set (h := reports _). vm_compute in h. unfold h. cbn [app]. pace.
Qed.

(** A log is made, rotated, and made anew: one change at a time, and still no one hears of
    the new one. *)
Definition rotation : list change := [CMake (lit "/w/log") PtFile; CMove (lit "/w/log") (lit "/w/log.1"); CMake (lit "/w/log") PtFile].
Definition rotation_records : list record := [rc "/w/log" 0x10100; rc "/w/log" 0x10800; rc "/w/log.1" 0x10800; rc "/w/log" 0x10100].
(** A file is made under one name, given another, and deleted: no one hears that. *)
Definition passing : list change := [CMake (lit "/w/tmp") PtFile; CMove (lit "/w/tmp") (lit "/w/doc"); CDelete (lit "/w/doc")].
Definition passing_records : list record := [rc "/w/tmp" 0x10100; rc "/w/tmp" 0x10800; rc "/w/doc" 0x10800; rc "/w/doc" 0x10200].
Definition rotation_run : list dobs := life1 (mac ["/w/log.1"%string]) rotation_records.
Definition passing_run : list dobs := life1 (mac ["/w/doc"%string]) passing_records.
Lemma rotation_paced : cans no_things rotation /\ paced no_things rotation (reports rotation_run).
Proof. split; [repeat split; try discriminate; reflexivity|]. set (h := reports _). vm_compute in h. unfold h, rotation. pace. Qed.
Lemma passing_paced : cans no_things passing /\ paced no_things passing (reports passing_run).
Proof. split; [repeat split; try discriminate; reflexivity|]. set (h := reports _). vm_compute in h. unfold h, passing. pace. Qed.
Theorem C116_darwin_log_rotation_refuted :
  (exists s w, dreach s dstart w /\ cans no_things rotation /\ paced no_things rotation (reports (dlog w)) /\
    dshown (dlog w) = [Sh (lit "/w/log") EtCreate PtFile None; Sh (lit "/w/log") EtRename PtFile (Some (Sh (lit "/w/log.1") EtRename PtFile None))]) /\
  (exists s w, dreach s dstart w /\ cans no_things passing /\ paced no_things passing (reports (dlog w)) /\
    dshown (dlog w) = [Sh (lit "/w/tmp") EtCreate PtFile None; Sh (lit "/w/tmp") EtRename PtFile (Some (Sh (lit "/w/doc") EtRename PtFile None))]).
Proof.
  split.
  - exists (mac ["/w/log.1"%string]). destruct (life1_reach (mac ["/w/log.1"%string]) rotation_records) as (w & R & E). exists w. split; [exact R|].
    rewrite E. fold rotation_run. split; [apply rotation_paced|]. split; [apply rotation_paced|vm_compute; reflexivity].
  - exists (mac ["/w/doc"%string]). destruct (life1_reach (mac ["/w/doc"%string]) passing_records) as (w & R & E). exists w. split; [exact R|].
    rewrite E. fold passing_run. split; [apply passing_paced|]. split; [apply passing_paced|vm_compute; reflexivity].
Qed.
Print Assumptions C116_darwin_log_rotation_refuted.

(** ** C117: a picture of the tree, kept with the events *)
Lemma picture_for cs : forall w, Forall inside_tree cs -> picture w (events_for w cs) = afters w cs.
Proof.
  induction cs as [|c cs IH]; intros w I; [reflexivity|]. inversion I as [|? ? Hc I']; subst. cbn [events_for]. unfold picture. rewrite fold_left_app.
  change (afters w (c :: cs)) with (afters (after w c) cs). rewrite <- (IH _ I'). unfold picture. f_equal. destruct c; cbn in Hc; try destruct Hc; reflexivity.
Qed.
Theorem C117_darwin_picture_partial :
  forall s w w0 cs, dreach s dstart w -> typed w0 -> cans w0 cs -> easy_going cs -> paced w0 cs (reports (dlog w)) ->
    forall p, picture w0 (dshown (dlog w)) p = afters w0 cs p.
Proof.
  intros s w w0 cs R T C Ea P p. rewrite (C116_darwin_one_event_per_change_partial s w w0 cs R T C Ea P), picture_for; [reflexivity|]. now apply easy_inside.
Qed.
Print Assumptions C117_darwin_picture_partial.
Example C117_example :
  afters quiet_tree quiet_changes (lit "/w/a") = Some PtSymLink /\ afters quiet_tree quiet_changes (lit "/w/y") = Some PtDir /\
  afters quiet_tree quiet_changes (lit "/w/x") = None /\
  forall p, picture quiet_tree (dshown (life1 (mac ["/w/y"%string]) quiet_records)) p = afters quiet_tree quiet_changes p.
Proof.
  repeat (split; [reflexivity|]). destruct C116_example as ((w & R & E) & T & C & Ea & P & _). rewrite <- E in *.
  exact (C117_darwin_picture_partial _ w quiet_tree quiet_changes R T C Ea P).
Qed.

(** Otherwise it can be wrong both ways, even with one change at a time: the new log is
    missing, the deleted file is not. *)
Theorem C117_darwin_picture_refuted :
  (exists s w, dreach s dstart w /\ cans no_things rotation /\ paced no_things rotation (reports (dlog w)) /\
     afters no_things rotation (lit "/w/log") = Some PtFile /\ picture no_things (dshown (dlog w)) (lit "/w/log") = None) /\
  (exists s w, dreach s dstart w /\ cans no_things passing /\ paced no_things passing (reports (dlog w)) /\
     afters no_things passing (lit "/w/doc") = None /\ picture no_things (dshown (dlog w)) (lit "/w/doc") = Some PtFile).
Proof.
  destruct C116_darwin_log_rotation_refuted as [(s & w & R & C & P & E) (s' & w' & R' & C' & P' & E')]. split.
  - exists s, w. rewrite E. repeat (split; [assumption|]). split; reflexivity.
  - exists s', w'. rewrite E'. repeat (split; [assumption|]). split; reflexivity.
Qed.
Print Assumptions C117_darwin_picture_refuted.

(** And when two changes come together: a file is deleted and at once made again (as editors
    do when they save).  FSEvents says both of its path in one record; the adapter always
    takes the removal for the later. *)
Definition resaved : list change := [CMake (lit "/w/a") PtFile; CDelete (lit "/w/a"); CMake (lit "/w/a") PtFile].
Theorem C117_darwin_deleted_and_made_again_refuted :
  exists s w, dreach s dstart w /\ cans no_things resaved /\ honest no_things (at_once resaved) (dlog w) /\
    recs (dlog w) = [rc "/w/a" 0x10100; rc "/w/a" 0x10300] /\ queued w = [] /\
    dshown (dlog w) = [Sh (lit "/w/a") EtCreate PtFile None; Sh (lit "/w/a") EtDestroy PtFile None] /\
    afters no_things resaved (lit "/w/a") = Some PtFile /\ picture no_things (dshown (dlog w)) (lit "/w/a") = None.
Proof.
  set (rs := [rc "/w/a" 0x10100; rc "/w/a" 0x10300]). exists (mac ["/w/a"%string]).
  eexists. split; [apply go_reach with (i := 0%nat) (q := []) (k := CWait true) (n := 1%nat) (rs := rs)|].
  { eapply DR1; [|exact (D_take _ _ 1 [] [] 0 rs [] (CWait true) [DStream true; DOccur 0 (Some rs)])].
    eapply DR1; [|exact (D_hand _ _ false 1 [] 0 (Some rs) [] [] (CWait true) [DStream true; DOccur 0 (Some rs)] I)].
    eapply DR1; [|exact (D_occur _ _ false 0 [] [] (CWait true) [DStream true] (Some rs) I)].
    eapply DR1; [|exact (D_open _ _ false 0 [] [] true [])]. apply DR0. }
  cbn [dlog queued]. change (snd _) with (life1 (mac ["/w/a"%string]) rs).
  split; [repeat split; discriminate|]. split; [|vm_compute; auto 10].
  set (o := tl (life1 (mac ["/w/a"%string]) rs)). change (life1 (mac ["/w/a"%string]) rs) with (DStream true :: o).
  apply honest_at_once. vm_compute in o. unfold o.
  assert (Fl : Forall (fun r => flags_true no_things resaved (fst r) (snd r)) rs).
  { unfold rs, rc. repeat (apply Forall_cons || apply Forall_nil); (repeat split); cbn [fst snd]; intros H; try discriminate H.
    1, 3: apply (was_at _ _ 1); reflexivity.
    1, 2: exists (CMake (lit "/w/a") PtFile); split; [now left|]; eexists; reflexivity.
    cbn. auto. }
  repeat (apply Forall_cons; [first [exact Fl|exact I|left; reflexivity|right; reflexivity]|]). constructor.
Qed.
Print Assumptions C117_darwin_deleted_and_made_again_refuted.

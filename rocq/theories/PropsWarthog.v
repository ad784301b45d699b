(** Theorems C45-C47, C63: the fallback adapter; and that it is an adapter in the
    sense of C01. *)
From Verif Require Import Base EventModel InotifySpec Mon WarthogModel WarthogSpec WarthogFacts WarthogRun.
From Verif Require SemabinModel WatchModel WatchSpec.

(** ** A filesystem with a given history, for the concrete cases *)
Definition ent (p : string) (reg : bool) (t : Z) : entry := {| en_path := lit p; en_regular := reg; en_time := Some t |}.
Definition at_round (h : list contents) (tr : list wobs) : contents := nth (pred (rounds tr)) h (last h []).
Definition lookup (c : contents) (p : text) : option entry := find (fun e => text_eqb p (en_path e)) c.
(** [h] are the contents in rounds 1, 2, ...; it stays pending for [n] rounds. *)
Definition hist (root : text) (n : nat) (h : list contents) : wfs := {|
  wf_now := fun tr => Z.of_nat (length tr);
  wf_pending := fun tr => Nat.ltb (rounds tr) n;
  wf_exists := fun tr p => Some (if text_eqb p root then true else match lookup (at_round h tr) p with Some _ => true | None => false end);
  wf_isdir := fun tr p => Some (text_eqb p root);
  wf_isreg := fun tr p => Some (match lookup (at_round h tr) p with Some e => en_regular e | None => false end);
  wf_islink := fun tr p => Some false;
  wf_time := fun tr p => match lookup (at_round h tr) p with Some e => en_time e | None => Some 0%Z end;
  wf_walk := fun tr opts p => (paths (at_round h tr), false);
|}.
Lemma lookup_in c e : NoDup (paths c) -> In e c -> lookup c (en_path e) = Some e.
Proof.
  intros Hnd He. unfold lookup. induction c as [|x c IH]; [destruct He|]. cbn in *. inversion Hnd as [|? ? Hn Hnd']; subst.
  destruct He as [-> |He]; [now rewrite text_eqb_refl|]. destruct (text_eqb (en_path e) (en_path x)) eqn:E; [|auto].
  apply text_eqb_eq in E. exfalso. apply Hn. rewrite <- E. now apply in_map.
Qed.
Lemma hist_ok root n h : Forall (fun c => NoDup (paths c) /\ Forall (fun e => en_path e <> root) c) h ->
  changes_between_rounds (hist root n h) root (fun i => nth (pred i) h (last h [])).
Proof.
  intros H.
  assert (Hall : forall i, NoDup (paths (nth i h (last h []))) /\ Forall (fun e => en_path e <> root) (nth i h (last h []))).
  { intros i. rewrite Forall_forall in H. destruct (Nat.lt_ge_cases i (length h)) as [Hl|Hl]; [apply H, nth_In, Hl|].
    rewrite nth_overflow by exact Hl. destruct h as [|x h]; [split; constructor|]. apply H. clear. revert x.
    induction h as [|y h IH]; intros x; [now left|]. right. apply IH. }
  split; [|intros i; apply Hall]. intros tr. destruct (Hall (pred (rounds tr))) as [Hnd Hne].
  fold (at_round h tr). fold (at_round h tr) in Hnd, Hne. rewrite Forall_forall in Hne.
  split; cbn [hist wf_exists wf_isdir wf_time wf_walk wf_isreg].
  - now rewrite text_eqb_refl.
  - destruct (lookup (at_round h tr) root) as [e|] eqn:E; [|discriminate]. apply find_some in E as [Hi E].
    apply text_eqb_eq in E. exfalso. now apply (Hne e Hi).
  - reflexivity.
  - intros e He. rewrite (lookup_in _ _ Hnd He). destruct (text_eqb (en_path e) root); reflexivity.
  - intros e He. now rewrite (lookup_in _ _ Hnd He).
  - intros e He. now rewrite (lookup_in _ _ Hnd He).
Qed.
Fixpoint nodup_b (l : list text) : bool := match l with [] => true | x :: l' => negb (existsb (text_eqb x) l') && nodup_b l' end.
Lemma nodup_b_ok l : nodup_b l = true -> NoDup l.
Proof.
  induction l as [|x l IH]; intros H; [constructor|]. cbn in H. apply andb_prop in H as [H1 H2]. constructor; [|auto].
  intros Hin. apply negb_true_iff in H1. assert (existsb (text_eqb x) l = true); [|congruence]. apply existsb_exists. exists x. now rewrite text_eqb_refl.
Qed.
Definition hist_b (root : text) (h : list contents) : bool :=
  forallb (fun c => forallb (fun e => negb (text_eqb (en_path e) root)) c && nodup_b (paths c)) h.
Lemma hist_b_ok root h : hist_b root h = true -> Forall (fun c => NoDup (paths c) /\ Forall (fun e => en_path e <> root) c) h.
Proof.
  intros H. apply Forall_forall. intros c Hc. unfold hist_b in H. rewrite forallb_forall in H. specialize (H c Hc).
  apply andb_prop in H as [H1 H2]. apply nodup_b_ok in H2. split; [exact H2|].
  apply Forall_forall. intros e He. rewrite forallb_forall in H1. specialize (H1 e He). apply negb_true_iff, text_eqb_neq in H1. exact H1.
Qed.

(** ** C45 *)

(** A scan of a directory with contents [c], knowing [b]: shows a creation
    exactly for the regular files not known, a modification exactly for those
    known with another time (a destruction for one whose time can no longer be
    read), in the order of the walk, and nothing else; afterwards it knows the
    time of every regular file and has forgotten nothing else. *)
Theorem C45_scan_is_exact :
  forall s root c b tr, (forall o, rounds o = 0%nat -> agrees s (tr ++ o) root c) -> NoDup (paths c) ->
    exists o b', scan s root b tr = (o, Ok (true, b')) /\
      wshown o = flat_map (news (fun p => tfind p b)) c /\
      (forall e, In e c -> en_regular e = true -> tfind (en_path e) b' = en_time e) /\
      (forall p, (forall e, In e c -> en_regular e = true -> en_path e <> p) -> tfind p b' = tfind p b).
Proof.
  intros s root c b tr Hag Hnd. destruct (scan_contents s root c tr Hag b [] Hnd eq_refl) as (o & b' & E & _ & S & L & _).
  rewrite app_nil_r in E. exists o, b'. split; [exact E|]. split; [exact S|]. split.
  - intros e He Hr. rewrite L, (learns_in _ c e Hnd He). now rewrite Hr.
  - intros p Hp. rewrite L. unfold learns. destruct (find _ c) as [e|] eqn:Ef; [|reflexivity].
    apply find_some in Ef as [He Ef]. apply text_eqb_eq in Ef. destruct (en_regular e) eqn:Er; [|reflexivity].
    exfalso. now apply (Hp e He Er).
Qed.
Print Assumptions C45_scan_is_exact.
Definition c45 := [ent "/w/a" true 1; ent "/w/d" false 5; ent "/w/d/b" true 2; ent "/w/c" true 3].
Example C45_example :
  let s := hist (lit "/w") 1 [c45] in let b := [(lit "/w/a", 1%Z); (lit "/w/c", 7%Z); (lit "/w/z", 9%Z)] in
  (forall o, rounds o = 0%nat -> agrees s ([] ++ o) (lit "/w") c45) /\ NoDup (paths c45) /\
  wshown (fst (scan s (lit "/w") b [])) = [Sh (lit "/w/d/b") EtCreate PtFile None; Sh (lit "/w/c") EtModify PtFile None].
Proof.
  cbv zeta. destruct (hist_ok (lit "/w") 1 [c45]) as [H1 H2]; [now apply hist_b_ok|].
  split; [intros o Ho; specialize (H1 o); cbv beta in H1; rewrite Ho in H1; exact H1|]. split; [exact (H2 1%nat)|]. vm_compute. reflexivity.
Qed.

(** ** C46 *)

(** The claim fails always: whatever the filesystem does, a run in which no
    file's time was asked for in vain tells of no destruction. *)
Theorem C46_removals_never_reported_refuted :
  forall s fuel root e, let o := fst (warthog_watch s fuel root []) in
    In (WCb e) o -> ev_effect e = EtDestroy -> exists p, In (WTime p None) o.
Proof.
  intros s fuel root e o Hin He. destruct (warthog_no_loss s root fuel [] []) as [H|H]; [exact H|]. exfalso. exact (H e Hin He).
Qed.
Print Assumptions C46_removals_never_reported_refuted.
(** Two files, then one, then none: silence. *)
Example C46_example :
  let h := [[ent "/w/a" true 1; ent "/w/b" true 1]; [ent "/w/a" true 1]; []] in
  changes_between_rounds (hist (lit "/w") 4 h) (lit "/w") (fun i => nth (pred i) h (last h [])) /\
  warthog_watch (hist (lit "/w") 4 h) 9 (lit "/w") [] = (fst (warthog_watch (hist (lit "/w") 4 h) 9 (lit "/w") []), Ok true) /\
  rounds (fst (warthog_watch (hist (lit "/w") 4 h) 9 (lit "/w") [])) = 4%nat /\
  wshown (fst (warthog_watch (hist (lit "/w") 4 h) 9 (lit "/w") [])) = [].
Proof. cbv zeta. split; [apply hist_ok; now apply hist_b_ok|]. vm_compute. auto. Qed.

(** ** C47 *)

(** A regular file that is first there in round [j] is reported in every run
    that reaches round [j], if in some round before the directory had any entry
    (and no file vanishes in the middle of a scan). *)
Theorem C47_creations_reported_partial :
  forall s root h fuel j f t, changes_between_rounds s root h ->
    (forall i e, In e (h i) -> en_time e <> None) ->
    In {| en_path := f; en_regular := true; en_time := Some t |} (h j) ->
    (forall i, (0 < i < j)%nat -> ~ In f (paths (h i))) ->
    (exists i, (0 < i < j)%nat /\ h i <> []) ->
    let o := fst (warthog_watch s fuel root []) in (j <= rounds o)%nat ->
    In (Sh f EtCreate PtFile None) (wshown o).
Proof.
  intros s root h fuel j f t Hh Ht Hf Hno Haw o Hr. apply (loop_creates s root h Hh j f t Hf Ht); auto.
  cbn. destruct Haw as (i & Hi & _). lia.
Qed.
Print Assumptions C47_creations_reported_partial.
Example C47_example :
  let h := [[ent "/w/d" false 1]; []; [ent "/w/d" false 1; ent "/w/d/x" true 4]] in let s := hist (lit "/w") 4 h in
  changes_between_rounds s (lit "/w") (fun i => nth (pred i) h (last h [])) /\
  rounds (fst (warthog_watch s 9 (lit "/w") [])) = 4%nat /\
  wshown (fst (warthog_watch s 9 (lit "/w") [])) = [Sh (lit "/w/d/x") EtCreate PtFile None].
Proof. cbv zeta. split; [apply hist_ok; now apply hist_b_ok|]. vm_compute. auto. Qed.

(** It fails when the directory was empty before: whatever then appears, and
    stays, is never reported, however long the watcher runs. *)
Theorem C47_first_files_absorbed_refuted :
  forall s root h fuel j c, changes_between_rounds s root h ->
    (forall i, (i < j)%nat -> h i = []) -> (forall i, (j <= i)%nat -> h i = c) ->
    (forall e, In e c -> en_time e <> None) ->
    wshown (fst (warthog_watch s fuel root [])) = [].
Proof. intros s root h fuel j c Hh H1 H2 H3. apply (loop_absorbs s root h Hh j c H1 H2 H3). now left. Qed.
Print Assumptions C47_first_files_absorbed_refuted.
Example C47_refuted_example :
  let h := [[]; []; [ent "/w/a" true 3]] in let s := hist (lit "/w") 6 h in
  changes_between_rounds s (lit "/w") (fun i => nth (pred i) h (last h [])) /\
  (forall i, (i < 3)%nat -> nth (pred i) h (last h []) = []) /\ (forall i, (3 <= i)%nat -> nth (pred i) h (last h []) = [ent "/w/a" true 3]) /\
  rounds (fst (warthog_watch s 9 (lit "/w") [])) = 6%nat.
Proof.
  cbv zeta. split; [apply hist_ok; now apply hist_b_ok|]. split; [intros [|[|[|i]]] H; try reflexivity; lia|].
  split; [intros [|[|[|[|i]]]] H; try lia; try reflexivity; cbn; now destruct i|]. vm_compute. reflexivity.
Qed.
(** A file that was removed and comes back is reported as modified, or not at all. *)
Theorem C47_returning_files_refuted :
  let h t := [[ent "/w/a" true 1]; []; [ent "/w/a" true t]] in
  wshown (fst (warthog_watch (hist (lit "/w") 4 (h 2%Z)) 9 (lit "/w") [])) = [Sh (lit "/w/a") EtModify PtFile None] /\
  wshown (fst (warthog_watch (hist (lit "/w") 4 (h 1%Z)) 9 (lit "/w") [])) = [].
Proof. vm_compute. auto. Qed.
Print Assumptions C47_returning_files_refuted.

(** ** C63 *)
(** A question that was answered with an exception or an error. *)
Definition failed (x : wobs) : Prop :=
  match x with
  | WExists _ None | WIsDir _ None | WIsReg _ None | WIsLink _ None | WTime _ None | WWalk _ _ true => True
  | _ => False
  end.
Definition calm {A} (m : pm wobs A) : Prop := forall tr, snd (m tr) = Crash -> exists x, In x (fst (m tr)) /\ failed x.
Lemma calm_ret {A} (a : A) : calm (pret a). Proof. intros tr H. discriminate. Qed.
Lemma calm_bind {A B} (m : pm wobs A) (k : A -> pm wobs B) : calm m -> (forall a, calm (k a)) -> calm (pbind m k).
Proof.
  intros Hm Hk tr H. unfold pbind in *. specialize (Hm tr). destruct (m tr) as [o1 [a|u| |]]; try discriminate.
  - specialize (Hk a (tr ++ o1)). destruct (k a (tr ++ o1)) as [o2 r]. cbn [fst snd] in *. destruct (Hk H) as (x & Hx & Hf).
    exists x. split; [apply in_or_app; now right|exact Hf].
  - exact (Hm eq_refl).
Qed.
Lemma calm_ask {A} (f : list wobs -> A) ob : calm (ask f ob). Proof. intros tr H. discriminate. Qed.
Lemma calm_throw {A} (f : list wobs -> option A) ob : failed (ob None) -> calm (or_throw (ask f ob)).
Proof. intros Hf tr H. unfold or_throw, pbind, ask in *. destruct (f tr) as [a|] eqn:E; [discriminate|]. exists (ob None). split; [now left|exact Hf]. Qed.
Lemma calm_send s p f t : calm (w_send s p f t).
Proof. apply calm_bind; [apply calm_ask|]. intros now tr H. discriminate. Qed.
Lemma calm_walk s dir body b : (forall e b, calm (body e b)) -> calm (for_walk s dir body b).
Proof.
  intros Hb tr H. rewrite for_walk_eq in *. unfold pbind at 1, w_walk, ask in H. unfold pbind at 1, w_walk, ask.
  destruct (wf_walk s tr scan_dir_opts dir) as [es th]. cbn [fst snd] in *.
  assert (We : forall es b, calm (weach body es b)).
  { induction es0 as [|e es' IH]; intros b0; [apply calm_ret|]. apply calm_bind; [apply Hb|intros; apply IH]. }
  destruct th.
  - exists (WWalk dir es true). split; [|exact I]. destruct (pbind _ _ _). now left.
  - assert (Hc : calm (b' <- weach body es b ;; pret b')) by (apply calm_bind; [apply We|intros; apply calm_ret]).
    specialize (Hc (tr ++ [WWalk dir es false])). destruct ((b' <- weach body es b ;; pret b') (tr ++ [WWalk dir es false])) as [o2 r]. cbn [fst snd] in *.
    destruct (Hc H) as (x & Hx & Hf). exists x. split; [now right|exact Hf].
Qed.
Lemma calm_scan_file s f b : calm (scan_file s f b).
Proof.
  apply calm_bind; [apply calm_throw; exact I|]. intros ex. apply calm_bind; [destruct ex; [apply calm_throw; exact I|apply calm_ret]|].
  intros []; [|apply calm_ret]. apply calm_bind; [apply calm_ask|]. intros [t|].
  - destruct (tfind f b) as [t0|]; [destruct (t0 =? t)%Z; [apply calm_ret|]|]; (apply calm_bind; [apply calm_send|intros; apply calm_ret]).
  - apply calm_bind; [apply calm_send|intros; apply calm_ret].
Qed.
Lemma calm_scan s root b : calm (scan s root b).
Proof.
  apply calm_bind.
  - apply calm_bind; [apply calm_throw; exact I|]. intros []; [|apply calm_ret]. apply calm_bind; [|intros; apply calm_ret].
    apply calm_walk. intros e b0. apply calm_bind; [apply calm_scan_file|intros; apply calm_ret].
  - intros [[] b']; cbn [fst snd]; [apply calm_ret|apply calm_scan_file].
Qed.
Lemma calm_tend s root b : calm (tend_bucket s root b).
Proof.
  unfold tend_bucket. destruct b as [|y b]; [|apply calm_ret]. apply calm_bind.
  - apply calm_bind; [apply calm_throw; exact I|]. intros ex. destruct (negb ex); [apply calm_ret|].
    apply calm_bind; [apply calm_throw; exact I|]. intros d. destruct (negb d).
    + apply calm_bind; [apply calm_throw; exact I|]. intros t tr H. discriminate.
    + apply calm_bind; [|intros; apply calm_ret]. apply calm_walk. intros e b0. apply calm_bind; [apply calm_ask|].
      intros [t|]; [apply calm_ret|]. apply calm_bind; [apply calm_throw; exact I|intros; apply calm_ret].
  - intros [[] b']; cbn [fst snd]; [apply calm_ret|]. apply calm_bind; [|intros; apply calm_ret].
    assert (Hp : forall todo b0, calm (prune_from s root todo b0)); [|apply Hp].
    induction todo as [|[p t] todo IH]; intros b0; cbn [prune_from]; [apply calm_ret|].
    apply calm_bind; [apply calm_throw; exact I|]. intros []; [apply IH|].
    apply calm_bind; [apply calm_throw; exact I|]. intros reg. apply calm_bind.
    + destruct reg; [apply calm_ret|]. apply calm_bind; [apply calm_throw; exact I|]. intros []; [apply calm_ret|].
      apply calm_bind; [apply calm_throw; exact I|intros; apply calm_ret].
    + intros ty. apply calm_bind; [apply calm_send|intros; apply IH].
Qed.
(** The program is ended only after the filesystem answered a question with an
    error. *)
Theorem C63_no_errors_no_crash_partial :
  forall s fuel root, snd (warthog_watch s fuel root []) = Crash -> exists x, In x (fst (warthog_watch s fuel root [])) /\ failed x.
Proof.
  intros s fuel root. assert (H : forall n b, calm (warthog_loop s n root b)); [|apply H].
  induction n as [|n IH]; intros b; [intros tr H; discriminate|]. cbn [warthog_loop]. apply calm_bind; [apply calm_ask|]. intros p.
  destruct (negb p); [apply calm_ret|]. apply calm_bind; [apply calm_tend|]. intros r1. destruct (negb (fst r1)); [apply calm_ret|].
  apply calm_bind; [apply calm_scan|]. intros r2. destruct (negb (fst r2)); [apply calm_ret|apply IH].
Qed.
Print Assumptions C63_no_errors_no_crash_partial.
Definition settles {A} (m : pm wobs A) : Prop := forall tr, match snd (m tr) with Undef _ | Fuel => False | _ => True end.
Lemma settles_bind {A B} (m : pm wobs A) (k : A -> pm wobs B) : settles m -> (forall a, settles (k a)) -> settles (pbind m k).
Proof.
  intros Hm Hk tr. unfold pbind. specialize (Hm tr). destruct (m tr) as [o1 [a|u| |]]; try exact Hm.
  specialize (Hk a (tr ++ o1)). destruct (k a (tr ++ o1)) as [o2 r]. exact Hk.
Qed.
Lemma settles_each body es : (forall e b, settles (body e b)) -> forall b, settles (weach body es b).
Proof. intros Hb. induction es as [|e es IH]; intros b; [intros tr; exact I|]. apply settles_bind; [apply Hb|exact IH]. Qed.
(** A directory below the watched one that may not be read ends the program, in
    the first round. *)
Theorem C63_unreadable_directory_ends_the_program_refuted :
  forall s fuel root, (0 < fuel)%nat -> wf_pending s [] = true ->
    (forall tr, wf_exists s tr root = Some true /\ wf_isdir s tr root = Some true /\ denied s tr root) ->
    snd (warthog_watch s fuel root []) = Crash.
Proof.
  intros s [|n] root Hn Hp Hr; [lia|]. unfold warthog_watch. cbn [warthog_loop]. unfold pbind at 1, ask. rewrite Hp. cbn [negb].
  unfold pbind at 1, tend_bucket, populate, w_exists, w_isdir, or_throw, ask, pbind, pret. cbn [app].
  rewrite (proj1 (Hr _)). cbn [app negb]. rewrite (proj1 (proj2 (Hr _))). cbn [app negb].
  rewrite for_walk_eq. unfold pbind, w_walk, ask.
  match goal with |- context [wf_walk s ?t ?o root] => pose proof (proj2 (proj2 (Hr t)) o) as Hd; destruct (wf_walk s t o root) as [es th] end.
  cbn [snd] in Hd. change (negb (N.testbit scan_dir_opts 1)) with true in Hd. subst th. cbn [fst snd].
  match goal with |- context [weach ?b ?e ?m ?t] => assert (Hs : settles (weach b e m)); [|specialize (Hs t); destruct (weach b e m t) as [o [b'|u| |]]; try reflexivity; destruct Hs] end.
  apply settles_each. intros e b tr. unfold w_time_throwing, or_throw, w_time, ask, pbind, pret.
  destruct (wf_time s tr e); cbn; [exact I|]. destruct (wf_time s _ root); exact I.
Qed.
Print Assumptions C63_unreadable_directory_ends_the_program_refuted.
(** A directory with a file and a directory that may not be read. *)
Definition guarded : wfs := {|
  wf_now := fun tr => Z.of_nat (length tr); wf_pending := fun tr => true;
  wf_exists := fun _ _ => Some true; wf_isdir := fun _ p => Some (text_eqb p (lit "/w"));
  wf_isreg := fun _ p => Some (text_eqb p (lit "/w/a")); wf_islink := fun _ _ => Some false; wf_time := fun _ _ => Some 1%Z;
  wf_walk := fun _ opts _ => ([lit "/w/a"; lit "/w/secret"], negb (N.testbit opts 1)) |}.
Example C63_example : (forall tr, wf_exists guarded tr (lit "/w") = Some true /\ wf_isdir guarded tr (lit "/w") = Some true /\ denied guarded tr (lit "/w")) /\
  snd (warthog_watch guarded 3 (lit "/w") []) = Crash.
Proof. split; [|vm_compute; reflexivity]. intros tr. split; [reflexivity|]. split; [reflexivity|]. intros opts. reflexivity. Qed.

(** ** The adapter in the watch class *)
Import SemabinModel WatchModel WatchSpec.
(** Its runs as the class sees them. *)
Definition warthog_act (x : wobs) : act := match x with WCb e => ACb e | WState false => AStop | _ => AOther end.
Definition warthog_runs (path : text) (st : list act) (r : option bool) : Prop :=
  exists s fuel o, st = map warthog_act o /\
    match r with
    | Some b => warthog_watch s fuel path [] = (o, Ok b)
    | None => exists n, o = firstn n (fst (warthog_watch s fuel path []))
    end.
Theorem C01_warthog_adapter : adapter_ok warthog_runs.
Proof.
  split.
  - intros abs st r e (s & fuel & o & -> & Hr) Hin. apply in_map_iff in Hin as (x & Hx & Hin).
    assert (Ho : Forall about_paths o).
    { pose proof (warthog_about_paths s abs fuel [] []) as H. destruct r as [b|].
      - unfold warthog_watch in Hr. rewrite Hr in H. exact H.
      - destruct Hr as (n & ->). apply Forall_forall. intros y Hy. rewrite Forall_forall in H. apply H.
        rewrite <- (firstn_skipn n). apply in_or_app. now left. }
    rewrite Forall_forall in Ho. apply Ho in Hin. destruct x as [e'|t|[]| | | | | |]; cbn in Hx; try discriminate. injection Hx as <-.
    intros Hw. contradiction.
  - intros abs st (s & fuel & o & -> & Hr). unfold warthog_watch in Hr. apply warthog_true in Hr as (o1 & ->).
    rewrite map_app. apply in_or_app. right. now left.
Qed.
Print Assumptions C01_warthog_adapter.
Example C01_warthog_example : exists st, warthog_runs (lit "/w") st (Some true) /\ length (filter (fun a => match a with ACb _ => true | _ => false end) st) = 1%nat.
Proof.
  eexists. split.
  - exists (hist (lit "/w") 4 [[ent "/w/d" false 1]; [ent "/w/x" true 4]]), 9%nat. eexists. split; [reflexivity|]. vm_compute. reflexivity.
  - vm_compute. reflexivity.
Qed.

(** ** C66, C67: how it ends *)

(** It returns true exactly when a look at the stop flag found it raised; that
    look is the first such and the last thing it does. *)
Theorem C66_fallback_ends_on_request : forall s fuel path o b, warthog_watch s fuel path [] = (o, Ok b) ->
  (b = true <-> In (WState false) o) /\ (b = true -> exists o1, o = o1 ++ [WState false] /\ ~ In (WState false) o1).
Proof.
  intros s fuel path o b H. unfold warthog_watch in H. apply warthog_end in H. destruct b.
  - destruct H as (o1 & -> & H). split; [split; [intros _; apply in_or_app; right; now left|reflexivity]|intros _; eauto].
  - split; [split; [discriminate|contradiction]|discriminate].
Qed.
Print Assumptions C66_fallback_ends_on_request.
(** It fails only when the watched path was just found to be neither a directory nor a
    regular file, or not to exist. *)
Theorem C66_fallback_fails_only_without_a_path : forall s fuel path o, warthog_watch s fuel path [] = (o, Ok false) ->
  exists o1, o = o1 ++ [WIsDir path (Some false); WExists path (Some false)] \/
             o = o1 ++ [WIsDir path (Some false); WExists path (Some true); WIsReg path (Some false)].
Proof.
  intros s fuel path o H. unfold warthog_watch in H.
  assert (G : forall n b tr o, warthog_loop s n path b tr = (o, Ok false) ->
    exists o1, o = o1 ++ [WIsDir path (Some false); WExists path (Some false)] \/
               o = o1 ++ [WIsDir path (Some false); WExists path (Some true); WIsReg path (Some false)]).
  2: exact (G _ _ _ _ H).
  clear. induction n as [|n IH]; intros b tr o H; [discriminate H|]. cbn [warthog_loop] in H.
  apply pbind_inv in H as [(o1 & pe & o2 & E & H & ->)|[(u & _ & [=])|[[_ [=]]|[_ [=]]]]].
  unfold ask in E. injection E as <- <-. destruct (wf_pending s tr); cbn [negb] in H; [|discriminate H].
  apply pbind_inv in H as [(o3 & [ok b1] & o4 & E1 & H & ->)|[(u & _ & [=])|[[_ [=]]|[_ [=]]]]]. cbn [fst snd] in H.
  assert (ok = true).
  { destruct b as [|y b]; cbn [tend_bucket] in E1; [|now injection E1]. apply pbind_inv in E1 as [(a1 & [k b'] & a2 & _ & E1 & _)|[(u & _ & [=])|[[_ [=]]|[_ [=]]]]].
    cbn [fst snd] in E1. destruct k; [now injection E1|]. unfold prune in E1. apply pbind_inv in E1 as [(a3 & b2 & a4 & _ & E1 & _)|[(u & _ & [=])|[[_ [=]]|[_ [=]]]]]. now injection E1. }
  subst ok. cbn [negb] in H.
  apply pbind_inv in H as [(o5 & [ok b2] & o6 & E2 & H & ->)|[(u & _ & [=])|[[_ [=]]|[_ [=]]]]]. cbn [fst snd] in H. destruct ok; cbn [negb] in H.
  - apply IH in H as (o7 & [->| ->]); exists ([WState true] ++ o3 ++ o5 ++ o7); rewrite <- !app_assoc; [left|right]; reflexivity.
  - injection H as <-. rewrite app_nil_r. clear IH E1. unfold scan in E2.
    apply pbind_inv in E2 as [(a1 & [k b'] & a2 & E3 & E2 & ->)|[(u & _ & [=])|[[_ [=]]|[_ [=]]]]]. cbn [fst snd] in E2. destruct k; [discriminate E2|].
    unfold scan_directory in E3. apply pbind_inv in E3 as [(c1 & d & c2 & E4 & E3 & ->)|[(u & _ & [=])|[[_ [=]]|[_ [=]]]]].
    destruct d; [apply pbind_inv in E3 as [(c3 & d3 & c4 & _ & E3 & _)|[(u & _ & [=])|[[_ [=]]|[_ [=]]]]]; discriminate E3|]. injection E3 as <- <-.
    assert (c1 = [WIsDir path (Some false)]).
    { unfold w_isdir, or_throw, ask, pbind in E4. destruct (wf_isdir s _ path) as [v|]; [|discriminate E4]. cbn in E4. injection E4 as <- ->. reflexivity. }
    subst c1. unfold scan_file in E2. apply pbind_inv in E2 as [(c1 & ex & c2 & E5 & E2 & ->)|[(u & _ & [=])|[[_ [=]]|[_ [=]]]]].
    assert (c1 = [WExists path (Some ex)]).
    { unfold w_exists, or_throw, ask, pbind in E5. destruct (wf_exists s _ path) as [v|]; [|discriminate E5]. cbn in E5. injection E5 as <- ->. reflexivity. }
    subst c1. apply pbind_inv in E2 as [(c1 & reg & c3 & E6 & E2 & ->)|[(u & _ & [=])|[[_ [=]]|[_ [=]]]]]. exists ([WState true] ++ o3).
    destruct reg.
    { exfalso. apply pbind_inv in E2 as [(d1 & ts & d2 & _ & E2 & _)|[(u & _ & [=])|[[_ [=]]|[_ [=]]]]].
      destruct ts as [t|]; [destruct (tfind path _) as [t0|]; [destruct (t0 =? t)%Z; [discriminate E2|]|]|];
        (apply pbind_inv in E2 as [(d3 & ? & d4 & _ & E2 & _)|[(u & _ & [=])|[[_ [=]]|[_ [=]]]]]; discriminate E2). }
    injection E2 as <- <-. destruct ex.
    + assert (c1 = [WIsReg path (Some false)]).
      { unfold w_isreg, or_throw, ask, pbind in E6. destruct (wf_isreg s _ path) as [v|]; [|discriminate E6]. cbn in E6. injection E6 as <- ->. reflexivity. }
      subst c1. right. rewrite <- !app_assoc. reflexivity.
    + injection E6 as <-. left. rewrite <- !app_assoc. reflexivity.
Qed.
Print Assumptions C66_fallback_fails_only_without_a_path.
(** Met by the run of [C67_fallback_failures_unexplained_refuted]. *)
Example C66_fallback_example : exists o, warthog_watch (hist (lit "/w") 4 [[ent "/w/d" false 1]; [ent "/w/x" true 4]]) 9 (lit "/w") [] = (o, Ok true).
Proof. eexists. vm_compute. reflexivity. Qed.

(** It never says why it failed: no message of its own at all, in any run; and there
    are runs that fail (here the watched directory is replaced by something else). *)
Theorem C67_fallback_failures_unexplained_refuted :
  (forall s fuel path e, In (WCb e) (fst (warthog_watch s fuel path [])) -> ev_ptype e <> PtWatcher) /\
  exists s fuel o, warthog_watch s fuel (lit "/w") [] = (o, Ok false).
Proof.
  split.
  - intros s fuel path e Hin. pose proof (warthog_about_paths s path fuel [] []) as H. rewrite Forall_forall in H. exact (H _ Hin).
  - exists (let h := hist (lit "/w") 4 [[ent "/w/d" false 1]] in
      {| wf_now := wf_now h; wf_pending := wf_pending h; wf_exists := wf_exists h;
         wf_isdir := fun tr p => Some (text_eqb p (lit "/w") && Nat.ltb (rounds tr) 2);
         wf_isreg := wf_isreg h; wf_islink := wf_islink h; wf_time := wf_time h; wf_walk := wf_walk h |}), 9%nat.
    eexists. vm_compute. reflexivity.
Qed.
Print Assumptions C67_fallback_failures_unexplained_refuted.

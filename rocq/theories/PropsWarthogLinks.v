(** Theorem C137: the fallback adapter (include/wtr/watcher.hpp:1997-2157) and symbolic links
    to directories. *)
From Verif Require Import Base EventModel InotifySpec Mon WarthogModel WarthogSpec WarthogFacts WarthogRun PropsWarthog.

(** [behind_links through s]: [through] are the paths that lead through a symbolic link to a
    directory below the watched directory; a walk shows them only if it was asked to follow
    such links (bit 0 of std::filesystem::directory_options). *)
Definition behind_links (through : text -> Prop) (s : wfs) : Prop :=
  forall tr opts dir x, In x (fst (wf_walk s tr opts dir)) -> through x -> N.testbit opts 0 = true.

Section Links.
  Variables (s : wfs) (through : text -> Prop).
  Hypothesis links : behind_links through s.
  Definition fair (x : wobs) : Prop :=
    match x with
    | WCb e => ~ through (ev_path e)
    | WExists p _ | WIsDir p _ | WIsReg p _ | WIsLink p _ | WTime p _ => ~ through p
    | _ => True
    end.
  Lemma fair_ask A (f : list wobs -> A) ob : (forall a, fair (ob a)) -> adds (Forall fair) (ask f ob).
  Proof. intros H. now apply adds_all_ask. Qed.
  Lemma fair_throw A (f : list wobs -> option A) ob : (forall a, fair (ob a)) -> adds (Forall fair) (or_throw (ask f ob)).
  Proof. intros H. apply adds_all_bind; [now apply fair_ask|]. intros [a|]; [apply adds_all_ret|intros tr; constructor]. Qed.
  Lemma fair_send q f t : ~ through q -> adds (Forall fair) (w_send s q f t).
  Proof. intros Hq. apply adds_all_bind; [apply fair_ask; intros; exact I|]. intros n. apply adds_all_emit. exact Hq. Qed.
  Lemma fair_file q b : ~ through q -> adds (Forall fair) (scan_file s q b).
  Proof.
    intros Hq. apply adds_all_bind; [apply fair_throw; intros; exact Hq|]. intros ex. apply adds_all_bind; [destruct ex; [apply fair_throw; intros; exact Hq|apply adds_all_ret]|].
    intros [|]; [|apply adds_all_ret]. apply adds_all_bind; [apply fair_ask; intros; exact Hq|]. intros [t|].
    - destruct (tfind q b) as [t0|]; [destruct (t0 =? t)%Z; [apply adds_all_ret|]|]; (apply adds_all_bind; [now apply fair_send|intros; apply adds_all_ret]).
    - apply adds_all_bind; [now apply fair_send|intros; apply adds_all_ret].
  Qed.
  Lemma fair_walk dir body b : (forall e b, ~ through e -> adds (Forall fair) (body e b)) -> adds (Forall fair) (for_walk s dir body b).
  Proof.
    intros Hb tr. unfold for_walk. unfold pbind at 1, w_walk, ask. pose proof (links tr scan_dir_opts dir) as H.
    destruct (wf_walk s tr scan_dir_opts dir) as [es th]. cbn [fst snd] in *.
    assert (He : forall e, In e es -> ~ through e) by (intros e He Ht; specialize (H e He Ht); discriminate H).
    assert (Hw : forall tr b, Forall fair (fst (weach body es b tr))).
    { clear H. induction es as [|e es IH]; intros tr0 b0; [constructor|]. cbn [weach]. apply adds_all_bind; [apply Hb, He; now left|].
      intros a tr1. apply IH. intros e' H'. apply He. now right. }
    unfold pbind. specialize (Hw (tr ++ [WWalk dir es th]) b). destruct (weach body es b _) as [o [b'|u| |]]; cbn [fst] in *; try (constructor; [exact I|exact Hw]).
    destruct th; cbn [fst app pret pcrash]; rewrite ?app_nil_r; constructor; auto; exact I.
  Qed.
  Lemma fair_tend p b : ~ through p -> adds (Forall fair) (tend_bucket s p b).
  Proof.
    intros Hp. destruct b as [|x b]; [|apply adds_all_ret]. cbn [tend_bucket].
    assert (H : adds (Forall fair) (populate s p [])).
    { apply adds_all_bind; [apply fair_throw; intros; exact Hp|]. intros ex. destruct (negb ex); [apply adds_all_ret|].
      apply adds_all_bind; [apply fair_throw; intros; exact Hp|]. intros d. destruct (negb d).
      - apply adds_all_bind; [apply fair_throw; intros; exact Hp|]. intros _ tr. constructor.
      - apply adds_all_bind; [|intros; apply adds_all_ret]. apply fair_walk. intros e b' He. apply adds_all_bind; [apply fair_ask; intros; exact He|].
        intros [t|]; [apply adds_all_ret|]. apply adds_all_bind; [apply fair_throw; intros; exact Hp|intros; apply adds_all_ret]. }
    intros tr. specialize (H tr). unfold pbind at 1. destruct (populate s p [] tr) as [o [[ok b']|u| |]] eqn:E; try exact H.
    destruct ok; cbn [fst snd].
    - cbn. rewrite app_nil_r. exact H.
    - apply populate_false in E. subst b'. cbn. rewrite app_nil_r. exact H.
  Qed.
  Lemma fair_scan p b : ~ through p -> adds (Forall fair) (scan s p b).
  Proof.
    intros Hp. apply adds_all_bind.
    - apply adds_all_bind; [apply fair_throw; intros; exact Hp|]. intros [|]; [|apply adds_all_ret].
      apply adds_all_bind; [|intros; apply adds_all_ret]. apply fair_walk. intros e b' He. apply adds_all_bind; [now apply fair_file|intros; apply adds_all_ret].
    - intros [ok' b']. cbn. destruct ok'; [apply adds_all_ret|now apply fair_file].
  Qed.
  Lemma fair_loop p : ~ through p -> forall fuel b, adds (Forall fair) (warthog_loop s fuel p b).
  Proof.
    intros Hp. induction fuel as [|n IH]; intros b; cbn [warthog_loop]; [intros tr; constructor|].
    apply adds_all_bind; [apply fair_ask; intros; exact I|]. intros pe. destruct (negb pe); [apply adds_all_ret|].
    apply adds_all_bind; [now apply fair_tend|]. intros [ok b1]. cbn. destruct (negb ok); [apply adds_all_ret|].
    apply adds_all_bind; [now apply fair_scan|]. intros [ok' b2]. cbn. destruct (negb ok'); [apply adds_all_ret|apply IH].
  Qed.
End Links.

(** Whatever happens, nothing behind a symbolic link to a directory is ever told of, or so
    much as looked at. *)
Theorem C137_nothing_behind_links_is_watched_refuted :
  forall s through fuel root, behind_links through s -> ~ through root ->
    forall x, In x (fst (warthog_watch s fuel root [])) ->
      match x with
      | WCb e => ~ through (ev_path e)
      | WExists p _ | WIsDir p _ | WIsReg p _ | WIsLink p _ | WTime p _ => ~ through p
      | _ => True
      end.
Proof.
  intros s through fuel root Hl Hr x Hin. pose proof (fair_loop s through Hl root Hr fuel [] []) as H. rewrite Forall_forall in H. exact (H x Hin).
Qed.
Print Assumptions C137_nothing_behind_links_is_watched_refuted.
(** In round 2 there are two new files, one behind a link and one beside it; a walk that
    follows links shows both, and the one beside it is told of. *)
Definition linked : wfs := {|
  wf_now := fun tr => Z.of_nat (length tr); wf_pending := fun tr => Nat.ltb (rounds tr) 3;
  wf_exists := fun _ _ => Some true; wf_isdir := fun _ p => Some (text_eqb p (lit "/w") || text_eqb p (lit "/w/link"));
  wf_isreg := fun _ p => Some (negb (text_eqb p (lit "/w") || text_eqb p (lit "/w/link"))); wf_islink := fun _ p => Some (text_eqb p (lit "/w/link")); wf_time := fun _ _ => Some 1%Z;
  wf_walk := fun tr opts _ =>
    (lit "/w/link" :: (if Nat.ltb (rounds tr) 2 then [] else (if N.testbit opts 0 then [lit "/w/link/new"] else []) ++ [lit "/w/new"]), false) |}.
Example C137_example :
  behind_links (fun p => p = lit "/w/link/new") linked /\ lit "/w" <> lit "/w/link/new" /\
  snd (warthog_watch linked 9 (lit "/w") []) = Ok true /\
  wshown (fst (warthog_watch linked 9 (lit "/w") [])) = [Sh (lit "/w/new") EtCreate PtFile None].
Proof.
  split; [|split; [discriminate|vm_compute; auto]]. intros tr opts dir x. cbn [wf_walk linked fst]. intros [<-|H] Hx; [discriminate Hx|].
  destruct (Nat.ltb (rounds tr) 2); [destruct H|]. subst x. destruct (N.testbit opts 0); [reflexivity|]. destruct H as [H|[]]. discriminate H.
Qed.

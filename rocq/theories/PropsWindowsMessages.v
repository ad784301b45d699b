(** Theorem C67, what does hold on Windows: a watcher that listens says of every read that
    failed that it failed, and says nothing else about itself
    (include/wtr/watcher.hpp:1797-1840, :1842-1933, :1941-1968). *)
From Verif Require Import Base EventModel InotifySpec Mon WindowsModel WindowsSpec PropsWindows.
From Verif Require Sys.

(** The messages: the calls of the callback with an event about the watcher. *)
Definition about_watcher (x : shape) : bool := match x with Sh _ _ PtWatcher _ => true | _ => false end.
Definition messages (o : list nobs) : list shape := filter about_watcher (nshown o).
(** What has to be said: of each failed read, in their order, that it failed; and of those the
    system calls pending, that. *)
Fixpoint failed_reads (o : list nobs) : list shape :=
  match o with
  | [] => []
  | NRead RdFail :: o' => Sh (lit "e/sys/read") EtOther PtWatcher None :: failed_reads o'
  | NRead RdPending :: o' => Sh (lit "e/sys/read/pending") EtOther PtWatcher None :: failed_reads o'
  | _ :: o' => failed_reads o'
  end.

Lemma nshown_app a b : nshown (a ++ b) = nshown a ++ nshown b.
Proof. induction a as [|x a IH]; [reflexivity|]. destruct x; cbn; rewrite ?IH; reflexivity. Qed.
Lemma messages_app a b : messages (a ++ b) = messages a ++ messages b.
Proof. unfold messages. now rewrite nshown_app, filter_app. Qed.
Lemma failed_app a b : failed_reads (a ++ b) = failed_reads a ++ failed_reads b.
Proof. induction a as [|x a IH]; [reflexivity|]. destruct x as [| | | | | |[| |]| |]; cbn; rewrite ?IH; reflexivity. Qed.

(** A log in which each failed read is followed at once by a look at the clock and its message,
    and nothing else is a message. *)
Inductive said : list nobs -> Prop :=
| said_nil : said []
| said_quiet x o : messages [x] = [] -> failed_reads [x] = [] -> said o -> said (x :: o)
| said_failed r t e o : failed_reads [NRead r] = [shape_of e] -> about_watcher (shape_of e) = true -> said o -> said (NRead r :: NNow t :: NCb e :: o).
Lemma said_app a b : said a -> said b -> said (a ++ b).
Proof. induction 1; intros Hb; cbn [app]; [exact Hb|apply said_quiet; auto|apply said_failed; auto]. Qed.
Lemma said_one x : messages [x] = [] -> failed_reads [x] = [] -> said [x].
Proof. intros. now apply said_quiet; [| |apply said_nil]. Qed.
Lemma said_so_far o : said o -> messages o = failed_reads o /\
  forall k, exists late, failed_reads (firstn k o) = messages (firstn k o) ++ late /\ (length late <= 1)%nat.
Proof.
  induction 1 as [|x o Hm Hf H [IH1 IH2]|r t e o Hf Hm H [IH1 IH2]].
  - split; [reflexivity|]. intros k. exists []. rewrite firstn_nil. split; [reflexivity|cbn; lia].
  - change (x :: o) with ([x] ++ o). rewrite messages_app, failed_app, Hm, Hf. split; [exact IH1|]. intros [|k]; [exists []; split; [reflexivity|cbn; lia]|].
    cbn [firstn app]. change (x :: firstn k o) with ([x] ++ firstn k o). rewrite messages_app, failed_app, Hm, Hf. apply IH2.
  - assert (E1 : messages [NRead r; NNow t; NCb e] = [shape_of e]) by (unfold messages; cbn; now rewrite Hm).
    assert (E2 : failed_reads [NRead r; NNow t; NCb e] = [shape_of e]) by (rewrite <- Hf; destruct r; reflexivity).
    change (NRead r :: NNow t :: NCb e :: o) with ([NRead r; NNow t; NCb e] ++ o). rewrite messages_app, failed_app, E1, E2. split; [now f_equal|].
    intros [|[|[|k]]].
    + exists []. split; [reflexivity|cbn; lia].
    + exists [shape_of e]. cbn [firstn app]. rewrite Hf. split; [reflexivity|cbn; lia].
    + exists [shape_of e]. cbn [firstn app]. change [NRead r; NNow t] with ([NRead r] ++ [NNow t]). rewrite failed_app, Hf. split; [reflexivity|cbn; lia].
    + replace (firstn (S (S (S k))) ([NRead r; NNow t; NCb e] ++ o)) with ([NRead r; NNow t; NCb e] ++ firstn k o) by reflexivity. rewrite messages_app, failed_app, E1, E2.
      destruct (IH2 k) as (late & -> & L). exists late. now split.
Qed.

(** The same with a condition on the result. *)
Definition says_ok {A} (Q : A -> Prop) (m : pm nobs A) : Prop := forall tr, said (fst (m tr)) /\ match snd (m tr) with Ok a => Q a | _ => True end.
Lemma so_bind {A B} (Q : A -> Prop) (R : B -> Prop) (m : pm nobs A) (k : A -> pm nobs B) : says_ok Q m -> (forall a, Q a -> says_ok R (k a)) -> says_ok R (pbind m k).
Proof.
  intros Hm Hk tr. unfold pbind. destruct (Hm tr) as [H1 H2]. destruct (m tr) as [o1 [a|u| |]]; cbn [fst snd] in *; try (split; [exact H1|exact Coq.Init.Logic.I]).
  destruct (Hk a H2 (tr ++ o1)) as [H3 H4]. destruct (k a (tr ++ o1)) as [o2 r]. cbn [fst snd] in *. split; [now apply said_app|exact H4].
Qed.
Lemma so_ret {A} (Q : A -> Prop) (a : A) : Q a -> says_ok Q (@pret nobs A a).
Proof. intros H tr. split; [apply said_nil|exact H]. Qed.
Lemma so_end {A} (Q : A -> Prop) (r : out A) : (forall a, r <> Ok a) -> says_ok Q (fun _ : list nobs => ([], r)).
Proof. intros H tr. split; [apply said_nil|]. cbn. destruct r; try exact Coq.Init.Logic.I. now contradiction (H a). Qed.
Lemma so_ask {A} (Q : A -> Prop) (f : list nobs -> A) ob : (forall a, said [ob a] /\ Q a) -> says_ok Q (ask f ob).
Proof. intros H tr. apply (H (f tr)). Qed.
Lemma so_any {A} (Q : A -> Prop) (m : pm nobs A) : says_ok Q m -> says_ok (fun _ => True) m.
Proof. intros H tr. destruct (H tr) as [H1 _]. split; [exact H1|]. destruct (snd (m tr)); exact Coq.Init.Logic.I. Qed.

Section S.
  Variable s : nfs.
  Lemma so_send p f t : t <> PtWatcher -> says_ok (fun _ => True) (n_send s p f t).
  Proof.
    intros H. unfold n_send. apply so_bind with (Q := fun _ => True).
    - apply so_ask. intros a. split; [now apply said_one|exact Coq.Init.Logic.I].
    - intros now _ tr. split; [|exact Coq.Init.Logic.I]. apply said_one; [destruct t; now try reflexivity|reflexivity].
  Qed.
  Lemma so_bytes buf off len : says_ok (fun _ => True) (bytes_at buf off len).
  Proof. unfold bytes_at. destruct (Nat.eqb _ _); [now apply so_ret|now apply so_end]. Qed.
  Lemma so_dword buf off : says_ok (fun _ => True) (dword_at buf off).
  Proof. unfold dword_at. apply so_bind with (Q := fun _ => True); [apply so_bytes|]. intros. now apply so_ret. Qed.
  Lemma so_make path : says_ok (fun _ => True) (make_proxy s path).
  Proof.
    unfold make_proxy. destruct (nf_narrow s path) as [n|]; [|now apply so_end].
    destruct (_ <? _)%N; [now apply so_end|]. destruct (_ <? _)%N; [now apply so_end|].
    apply so_bind with (Q := fun _ => True); [apply so_ask; intros; split; [now apply said_one|exact Coq.Init.Logic.I]|]. intros h _.
    apply so_bind with (Q := fun _ => True).
    { destruct h; [now apply so_ret|apply so_ask; intros; split; [now apply said_one|exact Coq.Init.Logic.I]..]. }
    intros port _. apply so_bind with (Q := fun _ => True); [|intros; now apply so_ret].
    destruct port; [apply so_ask; intros; split; [now apply said_one|exact Coq.Init.Logic.I]|now apply so_ret].
  Qed.
  (** A read and what is said of it come together. *)
  Lemma so_recv w : says_ok (fun _ => True) (do_event_recv s w).
  Proof.
    unfold do_event_recv. destruct (px_valid w); [|now apply so_ret]. intros tr. unfold pbind, ask.
    destruct (nf_read s tr); cbn; (split; [|exact Coq.Init.Logic.I]); [now apply said_one|now apply said_failed; [| |apply said_nil]..].
  Qed.
  Definition typed (t : tracker) : Prop := match t with Some (_, k) => k <> PtWatcher | None => True end.
  Lemma so_ptype p : says_ok (fun t => t <> PtWatcher) (win_ptype s p).
  Proof.
    unfold win_ptype. apply so_bind with (Q := fun _ => True); [apply so_ask; intros; split; [now apply said_one|exact Coq.Init.Logic.I]|].
    intros [[|]|] _; apply so_ret; discriminate.
  Qed.
  Lemma so_rename from to : snd from <> PtWatcher -> says_ok (fun _ => True) (trigger_rename s from to).
  Proof.
    intros H. unfold trigger_rename, n_now. do 3 (apply so_bind with (Q := fun _ => True); [apply so_ask; intros; split; [now apply said_one|exact Coq.Init.Logic.I]|intros ? _]).
    intros tr. split; [|exact Coq.Init.Logic.I]. destruct from as [p k]. cbn in H |- *. apply said_one; [destruct k; now try reflexivity|reflexivity].
  Qed.
  Lemma so_record root action name old new : typed old -> typed new ->
    says_ok (fun x => typed (fst x) /\ typed (snd x)) (win_record s root action name old new).
  Proof.
    intros Ho Hn. unfold win_record. apply so_bind with (Q := fun t => t <> PtWatcher); [apply so_ptype|]. intros t Ht.
    destruct (action =? FILE_ACTION_RENAMED_OLD_NAME)%N.
    - destruct new as [n|]; [|now apply so_ret]. apply so_bind with (Q := fun _ => True); [now apply so_rename|]. intros. now apply so_ret.
    - destruct (action =? FILE_ACTION_RENAMED_NEW_NAME)%N.
      + destruct old as [[po ko]|]; [|now apply so_ret]. apply so_bind with (Q := fun _ => True); [now apply so_rename|]. intros. now apply so_ret.
      + apply so_bind with (Q := fun _ => True); [now apply so_send|]. intros. now apply so_ret.
  Qed.
  Lemma so_walk fuel root buf len : forall off old new, typed old -> typed new -> says_ok (fun _ => True) (send_loop s fuel root buf len off old new).
  Proof.
    induction fuel as [|n IH]; intros off old new Ho Hn; [now apply so_end|]. cbn [send_loop].
    destruct (_ <=? _)%N; [|now apply so_ret]. apply so_bind with (Q := fun _ => True); [apply so_dword|]. intros nl _.
    destruct (_ =? _)%N; [|now apply IH]. apply so_bind with (Q := fun _ => True); [apply so_bytes|]. intros name _.
    apply so_bind with (Q := fun _ => True); [apply so_dword|]. intros action _.
    eapply so_bind; [now apply so_record|]. intros [o' n'] [Ho' Hn']. cbn [fst snd] in *.
    apply so_bind with (Q := fun _ => True); [apply so_dword|]. intros next _. destruct (_ =? _)%N; [now apply so_ret|now apply IH].
  Qed.
  Lemma so_all_sent fuel w : says_ok (fun _ => True) (do_event_send s fuel w).
  Proof. unfold do_event_send. destruct (px_valid w); [now apply so_walk|now apply so_ret]. Qed.
  Lemma so_first k : forall w, says_ok (fun _ => True) (first_sends s k w).
  Proof.
    induction k as [|k IH]; intros w; [now apply so_end|]. cbn [first_sends]. destruct (_ && _); [|now apply so_ret].
    apply so_bind with (Q := fun _ => True); [apply so_all_sent|]. intros. now apply IH.
  Qed.
  Lemma so_again k : forall w, says_ok (fun _ => True) (send_recv s k w).
  Proof.
    induction k as [|k IH]; intros w; [now apply so_end|]. cbn [send_recv]. destruct (_ && _); [|now apply so_ret].
    apply so_bind with (Q := fun _ => True); [apply so_all_sent|]. intros. apply so_bind with (Q := fun _ => True); [apply so_recv|]. intros. now apply IH.
  Qed.
  Lemma so_loop k : forall w, says_ok (fun _ => True) (win_loop s k w).
  Proof.
    induction k as [|k IH]; intros w; [now apply so_end|]. cbn [win_loop].
    apply so_bind with (Q := fun _ => True); [apply so_ask; intros; split; [now apply said_one|exact Coq.Init.Logic.I]|]. intros [|] _; [|now apply so_ret].
    apply so_bind with (Q := fun _ => True).
    { destruct (px_port w); [apply so_ask; intros; split; [now apply said_one|exact Coq.Init.Logic.I]|now apply so_ret]. }
    intros [| |bs] _; [apply IH..|]. apply so_bind with (Q := fun _ => True); [apply so_again|]. intros. apply IH.
  Qed.
  Lemma so_watch fuel path : says_ok (fun _ => True) (win_watch s fuel path).
  Proof.
    unfold win_watch. apply so_bind with (Q := fun _ => True); [apply so_make|]. intros w _. unfold win_body.
    destruct (px_valid w); [|now apply so_ret]. apply so_bind with (Q := fun _ => True); [apply so_recv|]. intros w1 _.
    apply so_bind with (Q := fun _ => True); [now apply so_first|]. intros. apply so_loop.
  Qed.
End S.

(** In every run, however it goes on and wherever it is looked at between two steps ([k]
    observations; a failed read whose message is still to come is the only exception): the
    messages are one for each failed read, in order, each with the name of the failure. *)
Theorem C67_windows_failed_reads_are_told_partial : forall s fuel path,
  let o := fst (win_watch s fuel path []) in
  messages o = failed_reads o /\
  forall k, exists late, failed_reads (firstn k o) = messages (firstn k o) ++ late /\ (length late <= 1)%nat.
Proof. intros s fuel path o. apply said_so_far. apply (so_watch s fuel path []). Qed.
Print Assumptions C67_windows_failed_reads_are_told_partial.
(** One read that fails after changes were told, and one that the system calls pending. *)
Example C67_windows_told_example :
  messages (fst (win_watch (pc_honest WtNone [RdOk []; RdFail]) 9 (lit "C:\w") [])) = [Sh (lit "e/sys/read") EtOther PtWatcher None] /\
  messages (fst (win_watch (pc_honest WtNone [RdOk []; RdPending]) 9 (lit "C:\w") [])) = [Sh (lit "e/sys/read/pending") EtOther PtWatcher None] /\
  (length (nshown (fst (win_watch (pc_honest WtNone [RdOk []; RdPending]) 9 (lit "C:\w") []))) = 2)%nat.
Proof. vm_compute. auto. Qed.

(** Theorems C42-C44, C57, C61, C62, C66, C67: the Windows adapter; and that it is an adapter in the
    sense of C01. *)
From Verif Require Import Base EventModel InotifySpec Mon WindowsModel WindowsSpec WindowsFacts WindowsRun.
From Verif Require Sys SysFacts Utf8Spec SemabinModel WatchModel WatchSpec.

(** ** A concrete system *)
(** Reads succeed at once without bytes; the waits and the end are given;
    names ending in [d] are directories. *)
Definition count {A} (f : A -> bool) (l : list A) : nat := length (filter f l).
Definition is_wait (x : nobs) : bool := match x with NWait _ => true | _ => false end.
Definition is_state (x : nobs) : bool := match x with NState _ => true | _ => false end.
Definition winpc (waits : list waitans) (turns : nat) : nfs := {|
  nf_now := fun o => Z.of_nat (length o);
  nf_isdir := fun _ p => Some (N.eqb (last p 0%N) 100);
  nf_narrow := fun p => Some (N.of_nat (length p));
  nf_open := fun _ _ => HOk;
  nf_port := fun _ => true;
  nf_bind := fun _ _ => true;
  nf_read := fun _ => RdOk [];
  nf_wait := fun o => nth (count is_wait o) waits WtNone;
  nf_pending := fun o => Nat.ltb (count is_state o) turns |}.
Definition wr (a : N) (name : string) : wrec := {| w_action := a; w_name := lit name; w_pad := 0 |}.
(** The handled completions of a log: what comes before, the bytes, what was done. *)
Fixpoint doing (o : list nobs) : option (list nobs) :=
  match o with [] => None | NState _ :: _ => Some [] | x :: o' => option_map (cons x) (doing o') end.
Fixpoint completions (before o : list nobs) : list (list nobs * text * list nobs) :=
  match o with
  | [] => []
  | NWait (WtDone bs) as x :: o' => match doing o' with Some d => [(before, bs, d)] | None => [] end ++ completions (before ++ [x]) o'
  | x :: o' => completions (before ++ [x]) o'
  end.
Lemma doing_ok o d : doing o = Some d -> (exists b l, o = d ++ NState b :: l) /\ (forall b, ~ In (NState b) d).
Proof.
  revert d. induction o as [|x o IH]; intros d H; [discriminate|].
  destruct x; cbn in H; try (destruct (doing o) as [d'|] eqn:E; [|discriminate]; injection H as <-; destruct (IH d' eq_refl) as [(b & l & ->) Hn];
    split; [exists b, l; reflexivity|]; intros b' [Hb|Hb]; [discriminate|now apply (Hn b')]).
  injection H as <-. split; [exists pending, o; reflexivity|intros b []].
Qed.
Lemma completions_ok o : forall before l1 bs l2, In (l1, bs, l2) (completions before o) -> handled (before ++ o) l1 bs l2.
Proof.
  assert (Hskip : forall (x : nobs) (o : list nobs) before l1 bs l2, (forall before l1 bs l2, In (l1, bs, l2) (completions before o) -> handled (before ++ o) l1 bs l2) ->
    In (l1, bs, l2) (completions (before ++ [x]) o) -> handled (before ++ x :: o) l1 bs l2).
  { intros x o' before l1 bs l2 IH H. apply IH in H. now rewrite <- app_assoc in H. }
  induction o as [|x o IH]; intros before l1 bs l2 H; [destruct H|].
  destruct x as [| | | | | | |[| |b]|]; cbn [completions] in H; try (eapply Hskip; [exact IH|exact H]).
  apply in_app_iff in H as [H|H]; [|eapply Hskip; [exact IH|exact H]].
  destruct (doing o) as [d|] eqn:E; [|destruct H]. destruct H as [H|[]]. injection H as <- <- <-.
  apply doing_ok in E as ((b' & l & ->) & Hn). split; [|exact Hn]. exists b', l. reflexivity.
Qed.

Lemma nth_ok o k c : nth_error (completions [] o) k = Some c -> handled o (fst (fst c)) (snd (fst c)) (snd c).
Proof. intros H. destruct c as [[l1 bs] l2]. apply (completions_ok o []). eapply nth_error_In, H. Qed.
Definition pending_seen (o : list nobs) : bool := existsb (fun x => match x with NRead RdPending => true | _ => false end) o.
Lemma pending_not_seen o : pending_seen o = false -> ~ In (NRead RdPending) o.
Proof.
  intros H Hin. unfold pending_seen in H. assert (E : existsb (fun x => match x with NRead RdPending => true | _ => false end) o = true); [|congruence].
  apply existsb_exists. now exists (NRead RdPending).
Qed.
Definition none : list nobs * text * list nobs := ([], [], []).
(** ** C42 *)
(** A completion that brought records, each well formed and all together of at
    least sixteen bytes, is told: one report for each record, in order, with
    the path under the watched one, and for each record that is not half of a
    rename just one event, of the effect the action means and the type the
    system answers; a report of half of a rename shows rename events only; and
    no other events come in between. *)
Theorem C42_records_told_partial :
  forall s fuel path l1 rs l2, handled (fst (win_watch s fuel path [])) l1 (w_encode rs) l2 ->
    rs <> [] -> Forall wrec_ok rs -> (16 <= length (w_encode rs))%nat -> ~ In (NRead RdPending) l1 ->
    Forall2 (told path) rs (nreports (until_read l2)) /\
    nshown (until_read l2) = flat_map n_events (nreports (until_read l2)).
Proof.
  intros s fuel path l1 rs l2 H Hn Hok Hl Hp. apply watch_handled in H as (f' & w' & w'' & tr' & P & [V|?] & S); [|contradiction].
  apply send_recv_first in S; [|exact V|cbn; lia]. unfold do_event_send in S. cbn [px_set px_valid px_path px_buf px_len] in S. rewrite V, P in S.
  destruct (send_buffer s path rs Hn Hok f' [] (skipn (length (w_encode rs)) (px_buf w')) (N.of_nat (length (w_encode rs))) 0 None None tr') as (_ & _ & F & _); [lia|reflexivity|].
  cbn zeta in F. cbn [app] in F. unfold Sys.overwrite in S. rewrite S in F. cbn [fst snd] in F. destruct (F eq_refl) as (_ & Hf & Hs).
  split; [now apply flow_told in Hf|exact Hs].
Qed.
Print Assumptions C42_records_told_partial.
Definition pc_log (waits : list waitans) : list nobs := fst (win_watch (winpc waits 5) 9 (lit "C:\w") []).
Definition pc_done (waits : list waitans) (k : nat) := nth k (completions [] (pc_log waits)) none.
Lemma pc_done_ok waits k : Nat.ltb k (length (completions [] (pc_log waits))) = true ->
  handled (pc_log waits) (fst (fst (pc_done waits k))) (snd (fst (pc_done waits k))) (snd (pc_done waits k)).
Proof. intros H. apply (nth_ok _ k). apply nth_error_nth'. now apply Nat.ltb_lt. Qed.
Example C42_example :
  let rs := [wr 1 "a"; wr 3 "b.txt"; wr 2 "sub\d"] in
  let '(l1, bs, l2) := pc_done [WtNone; WtDone (w_encode rs)] 0 in
  handled (pc_log [WtNone; WtDone (w_encode rs)]) l1 bs l2 /\ bs = w_encode rs /\ ~ In (NRead RdPending) l1 /\
  nshown l2 = [Sh (lit "C:\w\a") EtCreate PtFile None; Sh (lit "C:\w\b.txt") EtModify PtFile None; Sh (lit "C:\w\sub\d") EtDestroy PtDir None] /\
  Forall wrec_ok rs /\ (16 <= length (w_encode rs))%nat.
Proof.
  cbv zeta. set (ws := [WtNone; WtDone _]). pose proof (pc_done_ok ws 0) as H.
  assert (H1 : pending_seen (fst (fst (pc_done ws 0))) = false) by (vm_compute; reflexivity).
  assert (H2 : snd (fst (pc_done ws 0)) = w_encode [wr 1 "a"; wr 3 "b.txt"; wr 2 "sub\d"]) by (vm_compute; reflexivity).
  assert (H3 : nshown (snd (pc_done ws 0)) = [Sh (lit "C:\w\a") EtCreate PtFile None; Sh (lit "C:\w\b.txt") EtModify PtFile None; Sh (lit "C:\w\sub\d") EtDestroy PtDir None]) by (vm_compute; reflexivity).
  destruct (pc_done ws 0) as [[l1 bs] l2]. cbn [fst snd] in *. split; [apply H; vm_compute; reflexivity|]. split; [exact H2|]. split; [now apply pending_not_seen|].
  split; [exact H3|]. split; [|apply Nat.leb_le; vm_compute; reflexivity]. repeat constructor; vm_compute; reflexivity.
Qed.

(** On every buffer that starts with records the walk over them ends: in as many
    turns as there are records, without reading outside of the buffer. *)
Theorem C42_walk_terminates :
  forall s fuel w rs post tr, px_buf w = w_encode rs ++ post -> rs <> [] -> Forall wrec_ok rs -> (length rs <= fuel)%nat ->
    snd (do_event_send s fuel w tr) = Ok tt.
Proof.
  intros s fuel w rs post tr E Hn Hok Hf. unfold do_event_send. destruct (px_valid w); [|reflexivity]. rewrite E.
  destruct (N.lt_ge_cases (px_len w) 16) as [Hl|Hl].
  - destruct fuel; [destruct rs; [congruence|cbn in Hf; lia]|]. cbn [send_loop]. replace (fni_size <=? px_len w)%N with false by (unfold fni_size; lia). reflexivity.
  - destruct (send_buffer s (px_path w) rs Hn Hok fuel [] post (px_len w) 0 None None tr Hl eq_refl) as (_ & _ & _ & S). now apply S.
Qed.
Print Assumptions C42_walk_terminates.

(** A completion of less than sixteen bytes is not told at all. *)
Theorem C42_short_records_lost_refuted :
  forall s fuel path l1 bs l2, handled (fst (win_watch s fuel path [])) l1 bs l2 -> (length bs < 16)%nat ->
    nreports (until_read l2) = [] /\ nshown (until_read l2) = [].
Proof.
  intros s fuel path l1 bs l2 H Hl. apply watch_handled in H as (f' & w' & w'' & tr' & P & _ & S).
  destruct f' as [|n]; [discriminate|].
  destruct (px_valid w') eqn:V; [destruct (N.eqb_spec (N.of_nat (length bs)) 0) as [Hz|Hz]|].
  - cbn [send_recv] in S. unfold has_event in S. cbn [px_set px_len px_valid] in S. rewrite Hz in S. cbn in S. injection S as <- _. auto.
  - apply send_recv_first in S; [|reflexivity|exact Hz]. unfold do_event_send in S. cbn [px_set px_valid px_path px_buf px_len send_loop] in S.
    replace (fni_size <=? N.of_nat (length bs))%N with false in S by (unfold fni_size; lia). injection S as <-. auto.
  - cbn [send_recv px_set px_valid andb] in S. injection S as <- _. auto.
Qed.
Print Assumptions C42_short_records_lost_refuted.
(** Such is the record of a file with a name of one unit, alone in its buffer. *)
Example C42_short_example :
  let rs := [wr 1 "a"] in
  let '(l1, bs, l2) := pc_done [WtDone (w_encode rs)] 0 in
  handled (pc_log [WtDone (w_encode rs)]) l1 bs l2 /\ bs = w_encode rs /\ Forall wrec_ok rs /\
  length (w_encode rs) = 14%nat /\ nshown (pc_log [WtDone (w_encode rs)]) = [].
Proof.
  cbv zeta. set (ws := [WtDone _]). pose proof (pc_done_ok ws 0) as H.
  assert (H2 : snd (fst (pc_done ws 0)) = w_encode [wr 1 "a"]) by (vm_compute; reflexivity).
  destruct (pc_done ws 0) as [[l1 bs] l2]. cbn [fst snd] in *. split; [apply H; vm_compute; reflexivity|]. split; [exact H2|].
  split; [repeat constructor; vm_compute; reflexivity|]. split; vm_compute; reflexivity.
Qed.

(** With an odd name length in a record the walk never ends. *)
Theorem C42_odd_length_hangs_refuted :
  forall s fuel w next action nl rest tr, px_valid w = true -> (16 <= px_len w)%N ->
    px_buf w = Sys.le_bytes 4 next ++ Sys.le_bytes 4 action ++ Sys.le_bytes 4 nl ++ rest ->
    (nl < 2 ^ 32)%N -> (nl mod 2 = 1)%N -> do_event_send s fuel w tr = ([], Fuel).
Proof.
  intros s fuel w next action nl rest tr V Hl E Hn Ho. unfold do_event_send. rewrite V. revert tr. induction fuel as [|n IH]; intros tr; [reflexivity|].
  cbn [send_loop]. replace (fni_size <=? px_len w)%N with true by (unfold fni_size; lia).
  rewrite (pbind_silent _ _ _ nl); [rewrite Ho; apply IH|]. rewrite E, (app_assoc (Sys.le_bytes 4 next)).
  apply dword_at_mid; [exact Hn|]. rewrite app_length, !SysFacts.le_bytes_len. reflexivity.
Qed.
Print Assumptions C42_odd_length_hangs_refuted.

(** ** C43 *)
Lemma handled_flow s fuel path l1 rs l2 : handled (fst (win_watch s fuel path [])) l1 (w_encode rs) l2 ->
  rs <> [] -> Forall wrec_ok rs -> (16 <= length (w_encode rs))%nat -> ~ In (NRead RdPending) l1 ->
  flow path None None rs (nreports (until_read l2)).
Proof.
  intros H Hn Hok Hl Hp. apply watch_handled in H as (f' & w' & w'' & tr' & P & [V|?] & S); [|contradiction].
  apply send_recv_first in S; [|exact V|cbn; lia]. unfold do_event_send in S. cbn [px_set px_valid px_path px_buf px_len] in S. rewrite V, P in S.
  destruct (send_buffer s path rs Hn Hok f' [] (skipn (length (w_encode rs)) (px_buf w')) (N.of_nat (length (w_encode rs))) 0 None None tr') as (_ & _ & F & _); [lia|reflexivity|].
  cbn zeta in F. cbn [app] in F. unfold Sys.overwrite in S. rewrite S in F. cbn [fst snd] in F. now destruct (F eq_refl) as (_ & Hf & _).
Qed.
(** Among the halves of renames in a completion, let [y] follow on [x], one an old
    name and one a new, [x] not having been joined with the half before: there is
    one event for them, the rename from the old name to the new. *)
Theorem C43_halves_joined_partial :
  forall s fuel path l1 rs l2, handled (fst (win_watch s fuel path [])) l1 (w_encode rs) l2 ->
    rs <> [] -> Forall wrec_ok rs -> (16 <= length (w_encode rs))%nat -> ~ In (NRead RdPending) l1 ->
    forall h1 x y h2, halves rs (nreports (until_read l2)) = h1 ++ x :: y :: h2 -> opposite x y -> n_events (snd x) = [] ->
      n_events (snd y) = [joined x y].
Proof.
  intros s fuel path l1 rs l2 H Hn Hok Hl Hp h1 x y h2 E Ho Hx. pose proof (handled_flow _ _ _ _ _ _ H Hn Hok Hl Hp) as F.
  change (x :: y :: h2) with ([x] ++ y :: h2) in E. rewrite app_assoc in E.
  rewrite (flow_halves path rs [] _ (Forall_nil _) F _ _ _ E). cbn [app]. unfold expect. rewrite rev_app_distr. cbn [rev app]. rewrite Hx.
  unfold opposite_b. destruct Ho as [[-> ->]|[-> ->]]; [reflexivity|]. now rewrite orb_true_r.
Qed.
Print Assumptions C43_halves_joined_partial.
(** Every event for a half of a rename comes from it and the half directly before
    it, which is the opposite half and has no event of its own: so no half is used
    in two events, and the event goes from the old name to the new. *)
Theorem C43_halves_used_once :
  forall s fuel path l1 rs l2, handled (fst (win_watch s fuel path [])) l1 (w_encode rs) l2 ->
    rs <> [] -> Forall wrec_ok rs -> (16 <= length (w_encode rs))%nat -> ~ In (NRead RdPending) l1 ->
    forall h1 y h2 e, halves rs (nreports (until_read l2)) = h1 ++ y :: h2 -> In e (n_events (snd y)) ->
      exists h1' x, h1 = h1' ++ [x] /\ opposite x y /\ n_events (snd x) = [] /\ n_events (snd y) = [e] /\ e = joined x y.
Proof.
  intros s fuel path l1 rs l2 H Hn Hok Hl Hp h1 y h2 e E He. pose proof (handled_flow _ _ _ _ _ _ H Hn Hok Hl Hp) as F.
  pose proof (flow_halves path rs [] _ (Forall_nil _) F _ _ _ E) as X. cbn [app] in X. unfold expect in X.
  destruct (rev h1) as [|x h'] eqn:Er; [rewrite X in He; destruct He|]. exists (rev h'), x.
  split; [rewrite <- (rev_involutive h1), Er; reflexivity|]. destruct (n_events (snd x)); [|rewrite X in He; destruct He].
  destruct (opposite_b x y) eqn:Eo; [|rewrite X in He; destruct He]. rewrite X in *. destruct He as [<-|[]].
  split; [|auto]. unfold opposite_b in Eo. apply orb_prop in Eo as [Eo|Eo]; apply andb_prop in Eo as [E1 E2]; [now left|now right].
Qed.
Print Assumptions C43_halves_used_once.
Example C43_example :
  let rs := [wr 4 "a"; wr 1 "x"; wr 5 "b"; wr 5 "d"; wr 4 "c"; wr 4 "left"] in
  let '(l1, bs, l2) := pc_done [WtDone (w_encode rs)] 0 in
  handled (pc_log [WtDone (w_encode rs)]) l1 bs l2 /\ bs = w_encode rs /\ ~ In (NRead RdPending) l1 /\
  map n_events (nreports (until_read l2)) =
      [[]; [Sh (lit "C:\w\x") EtCreate PtFile None];
       [Sh (lit "C:\w\a") EtRename PtFile (Some (Sh (lit "C:\w\b") EtRename PtFile None))]; [];
       [Sh (lit "C:\w\c") EtRename PtFile (Some (Sh (lit "C:\w\d") EtRename PtDir None))]; []] /\
  Forall wrec_ok rs /\ (16 <= length (w_encode rs))%nat.
Proof.
  cbv zeta. set (rs := [wr 4 "a"; _; _; _; _; _]). set (ws := [WtDone _]). pose proof (pc_done_ok ws 0) as H.
  assert (H1 : pending_seen (fst (fst (pc_done ws 0))) = false) by (vm_compute; reflexivity).
  assert (H2 : snd (fst (pc_done ws 0)) = w_encode rs) by (vm_compute; reflexivity).
  assert (H3 : map n_events (nreports (until_read (snd (pc_done ws 0)))) =
      [[]; [Sh (lit "C:\w\x") EtCreate PtFile None];
       [Sh (lit "C:\w\a") EtRename PtFile (Some (Sh (lit "C:\w\b") EtRename PtFile None))]; [];
       [Sh (lit "C:\w\c") EtRename PtFile (Some (Sh (lit "C:\w\d") EtRename PtDir None))]; []]) by (vm_compute; reflexivity).
  destruct (pc_done ws 0) as [[l1 bs] l2]. cbn [fst snd] in *. split; [apply H; vm_compute; reflexivity|]. split; [exact H2|]. split; [now apply pending_not_seen|].
  split; [exact H3|]. split; [|apply Nat.leb_le; vm_compute; reflexivity]. repeat constructor; vm_compute; reflexivity.
Qed.
(** A rename whose halves come in two completions is lost: if each of two
    completions is one half, no event shows for either. *)
Theorem C43_split_renames_lost_refuted :
  forall s fuel path l1 r l2, handled (fst (win_watch s fuel path [])) l1 (w_encode [r]) l2 ->
    wrec_ok r -> is_old r = true \/ is_new r = true -> nshown (until_read l2) = [].
Proof.
  intros s fuel path l1 r l2 H Hr Hh.
  destruct (Nat.lt_ge_cases (length (w_encode [r])) 16) as [Hs|Hl]; [now apply (C42_short_records_lost_refuted _ _ _ _ _ _ H)|].
  apply watch_handled in H as (f' & w' & w'' & tr' & P & _ & S). destruct (px_valid w') eqn:V.
  - apply send_recv_first in S; [|reflexivity|cbn [px_set px_len]; lia]. unfold do_event_send in S. cbn [px_set px_valid px_path px_buf px_len] in S. rewrite P in S.
    destruct (send_buffer s path [r] ltac:(discriminate) (Forall_cons _ Hr (Forall_nil _)) f' [] (skipn (length (w_encode [r])) (px_buf w')) (N.of_nat (length (w_encode [r]))) 0 None None tr') as (_ & _ & F & _); [lia|reflexivity|].
    cbn zeta in F. cbn [app] in F. unfold Sys.overwrite in S. rewrite S in F. cbn [fst snd] in F. destruct (F eq_refl) as (_ & Hf & ->).
    destruct (nreports (until_read l2)) as [|q [|q' qs]]; cbn [flow] in Hf; [reflexivity| |now destruct Hf as (_ & _ & [])].
    destruct Hf as (_ & He & _). cbn [flat_map]. rewrite He. unfold after.
    destruct Hh as [Hh|Hh]; rewrite Hh; [reflexivity|]. now destruct (is_old r).
  - destruct f' as [|n]; [discriminate|]. cbn [send_recv px_set px_valid andb] in S. injection S as <- _. reflexivity.
Qed.
Print Assumptions C43_split_renames_lost_refuted.
Example C43_split_example :
  let o := pc_log [WtDone (w_encode [wr 4 "old.txt"]); WtDone (w_encode [wr 5 "new.txt"])] in
  length (completions [] o) = 2%nat /\ nshown o = [].
Proof. vm_compute. auto. Qed.

(** ** C44 *)
(** As long as no read has failed and no completion was empty or a failure, a read
    is outstanding whenever the adapter waits. *)
Theorem C44_keeps_listening_partial :
  forall s fuel path o1 a o2, fst (win_watch s fuel path []) = o1 ++ NWait a :: o2 ->
    (forall x, In x o1 -> x <> NRead RdPending /\ x <> NRead RdFail /\ x <> NWait WtFail /\ x <> NWait (WtDone [])) ->
    armed o1 = true.
Proof.
  intros s fuel path o1 a o2 E G. apply watch_loop in E as (w & oo & r & o' & l1' & _ & Ho & Ht & _ & V & Hb & -> & E); [|cbn; tauto].
  change (oo ++ NRead r :: o' ++ l1') with (oo ++ (NRead r :: o') ++ l1'). rewrite app_assoc.
  assert (Hr : exists bs, r = RdOk bs).
  { destruct (G (NRead r)) as (G1 & G2 & _); [apply in_or_app; right; now left|]. destruct r; [now exists bs|congruence|congruence]. }
  destruct Hr as (bs & ->). eapply loop_armed; [exact E|exact V| |].
  - unfold armed. rewrite armed_app. cbn [armed_from]. now apply telling_armed.
  - apply Forall_forall. intros x Hx. assert (Hi : In x (oo ++ NRead (RdOk bs) :: o' ++ l1')) by (apply in_or_app; right; right; apply in_or_app; now right).
    destruct (G x Hi) as (G1 & G2 & G3 & G4). destruct x as [| | | | | |[]|[| |[|c cs]]|]; cbn; auto.
Qed.
Print Assumptions C44_keeps_listening_partial.
Example C44_example :
  let o := pc_log [WtDone (w_encode [wr 1 "ab"]); WtNone; WtDone (w_encode [wr 3 "ab"])] in
  exists o1 o2, o = o1 ++ NWait WtNone :: o2 /\ count is_wait o1 = 3%nat /\ armed o1 = true /\ length (nshown o1) = 2%nat.
Proof.
  cbv zeta. exists (firstn 19 (pc_log [WtDone (w_encode [wr 1 "ab"]); WtNone; WtDone (w_encode [wr 3 "ab"])])).
  eexists. split; [vm_compute; reflexivity|]. vm_compute. auto.
Qed.
(** On a system where only outstanding reads end, the watcher is deaf from the
    moment it waits with none: from then on it reads nothing and reports nothing,
    and only looks at the stop flag. *)
Theorem C44_deaf_for_ever_refuted :
  forall s fuel path o1 a o2, honest s -> fst (win_watch s fuel path []) = o1 ++ NWait a :: o2 -> armed o1 = false ->
    a = WtNone /\ nshown o2 = [] /\ forall x, In x o2 -> x = NWait WtNone \/ exists b, x = NState b.
Proof.
  intros s fuel path o1 a o2 Hh E A. apply watch_loop in E as (w & oo & r & o' & l1' & _ & _ & _ & _ & _ & _ & -> & E); [|cbn; tauto].
  change (oo ++ NRead r :: o' ++ l1') with (oo ++ (NRead r :: o') ++ l1') in A. rewrite app_assoc in A.
  pose proof (loop_stays_deaf s fuel Hh _ _ _ _ _ E A) as D. inversion D as [|? ? D1 D2]; subst.
  split; [destruct a; try contradiction; reflexivity|]. split.
  - clear - D2. induction D2 as [|x o Hx _ IH]; [reflexivity|]. destruct x as [| | | | | | |[]|]; try contradiction; exact IH.
  - intros x Hx. rewrite Forall_forall in D2. apply D2 in Hx. destruct x as [| | | | | | |[]|b]; try contradiction; [now left|right; now exists b].
Qed.
Print Assumptions C44_deaf_for_ever_refuted.
(** It comes to that when the system had too many changes to report (a completion
    without bytes), when a completion fails, and when a read fails once. *)
Theorem C44_overflow_not_rearmed_refuted :
  forall s fuel path l1 l2, handled (fst (win_watch s fuel path [])) l1 [] l2 -> l2 = [] /\ armed (l1 ++ NWait (WtDone []) :: l2) = false.
Proof.
  intros s fuel path l1 l2 H. apply watch_handled in H as (f' & w' & w'' & tr' & _ & _ & S). destruct f' as [|n]; [discriminate|].
  cbn [send_recv] in S. unfold has_event in S. cbn in S. rewrite andb_false_r in S. injection S as <- _. split; [reflexivity|].
  unfold armed. now rewrite armed_app.
Qed.
Print Assumptions C44_overflow_not_rearmed_refuted.
(** The system of the examples, with one overflow (a failed wait, a failed read);
    then changes come, but there is no read they could end. *)
Definition pc_honest (first : waitans) (reads : list rdans) : nfs := {|
  nf_now := fun o => Z.of_nat (length o);
  nf_isdir := fun _ _ => Some false;
  nf_narrow := fun p => Some (N.of_nat (length p));
  nf_open := fun _ _ => HOk;
  nf_port := fun _ => true;
  nf_bind := fun _ _ => true;
  nf_read := fun o => nth (count (fun x => match x with NRead _ => true | _ => false end) o) reads (RdOk []);
  nf_wait := fun o => if armed o then if Nat.eqb (count is_wait o) 0 then first else WtDone (w_encode [wr 1 "ab"]) else WtNone;
  nf_pending := fun o => Nat.ltb (count is_state o) 6 |}.
Lemma pc_honest_ok a reads : honest (pc_honest a reads).
Proof. intros o H. cbn. now rewrite H. Qed.
Example C44_refuted_example :
  nshown (fst (win_watch (pc_honest WtNone []) 9 (lit "C:\w") [])) = repeat (Sh (lit "C:\w\ab") EtCreate PtFile None) 5 /\
  nshown (fst (win_watch (pc_honest (WtDone []) []) 9 (lit "C:\w") [])) = [] /\
  nshown (fst (win_watch (pc_honest WtFail []) 9 (lit "C:\w") [])) = [] /\
  nshown (fst (win_watch (pc_honest WtNone [RdOk []; RdFail]) 9 (lit "C:\w") [])) =
    [Sh (lit "C:\w\ab") EtCreate PtFile None; Sh (lit "e/sys/read") EtOther PtWatcher None].
Proof. vm_compute. auto. Qed.
(** Without a completion port the watcher never listens, and does not fail either. *)
Lemma after_never_false A (m : NT A) (f : A -> NT bool) : (forall a tr, snd (f a tr) <> Ok false) -> forall tr, snd (pbind m f tr) <> Ok false.
Proof.
  intros H tr. unfold pbind. destruct (m tr) as [o1 [a|u| |]]; try discriminate. pose proof (H a (tr ++ o1)) as X.
  destruct (f a (tr ++ o1)) as [o2 r]. exact X.
Qed.
Lemma loop_never_false s : forall k w tr, snd (win_loop s k w tr) <> Ok false.
Proof.
  induction k as [|k IH]; intros w tr; [discriminate|]. cbn [win_loop]. apply after_never_false. intros [|] tr1; [|discriminate].
  apply after_never_false. intros [| |bs] tr2; [apply IH|apply IH|]. apply after_never_false. intros; apply IH.
Qed.
Lemma no_port_no_failure s fuel path : In (NPort false) (fst (win_watch s fuel path [])) -> snd (win_watch s fuel path []) <> Ok false.
Proof.
  intros Hin E. unfold win_watch, win_body in Hin, E. unfold pbind at 1 in Hin. unfold pbind at 1 in E.
  assert (M : match snd (make_proxy s path []) with Ok w => In (NPort false) (fst (make_proxy s path [])) -> px_valid w = true | _ => True end).
  { unfold make_proxy. destruct (nf_narrow s path) as [n|]; [|exact I]. destruct (_ <? _)%N; [exact I|]. destruct (_ <? _)%N; [exact I|]. unfold pbind, ask, pret.
    destruct (nf_open s [] path); cbn; try (destruct (nf_port s [NOpen path _]); cbn); intuition congruence. }
  destruct (make_proxy s path []) as [oo [w|u| |]]; cbn [fst snd] in *; try discriminate. destruct (px_valid w) eqn:V.
  - unfold pbind at 1 in E. destruct (do_event_recv s w _) as [o1 [w1|u| |]]; try discriminate. unfold pbind in E.
    destruct (first_sends _ _ _ _) as [o2 [b|u| |]]; try discriminate. pose proof (loop_never_false s fuel w1) as H.
    match type of E with context [win_loop s fuel w1 ?t] => specialize (H t); destruct (win_loop s fuel w1 t) as [o3 r3] end. exact (H E).
  - cbn [pret fst] in Hin. rewrite app_nil_r in Hin. specialize (M Hin). discriminate.
Qed.
Theorem C44_no_port_deaf_refuted :
  forall s fuel path, In (NPort false) (fst (win_watch s fuel path [])) ->
    (forall a, ~ In (NWait a) (fst (win_watch s fuel path []))) /\ snd (win_watch s fuel path []) <> Ok false.
Proof.
  intros s fuel path Hin. split; [|now apply no_port_no_failure]. intros a Ha. pose proof (make_spec s path []) as [Mo _]. unfold win_watch, win_body in Hin, Ha. unfold pbind at 1 in Hin. unfold pbind at 1 in Ha.
  assert (M : match snd (make_proxy s path []) with Ok w => In (NPort false) (fst (make_proxy s path [])) -> px_port w = false | _ => True end).
  { unfold make_proxy. destruct (nf_narrow s path) as [n|]; [|exact I]. destruct (_ <? _)%N; [exact I|]. destruct (_ <? _)%N; [exact I|]. unfold pbind, ask, pret.
    destruct (nf_open s [] path); cbn; try (destruct (nf_port s [NOpen path _]); cbn); intuition congruence. }
  destruct (make_proxy s path []) as [oo [w|u| |]]; cbn [fst snd] in *;
    try (rewrite Forall_forall in Mo; apply Mo in Ha; exact Ha).
  assert (Hl : forall k w tr, px_port w = false -> ~ In (NWait a) (fst (win_loop s k w tr))).
  { induction k as [|k IH]; intros w' tr P; [intros []|]. rewrite (loop_turn s k (S k) w' tr eq_refl), P. intros [?|H]; [discriminate|].
    destruct (nf_pending s tr); [now apply IH in H|destruct H]. }
  assert (Hs : forall o, Forall sending o -> ~ In (NWait a) o). { intros o Ho Hi. rewrite Forall_forall in Ho. now apply Ho in Hi. }
  assert (Ht : forall o, Forall telling o -> ~ In (NWait a) o). { intros o Ho. now apply Hs, telling_sending. }
  destruct (px_valid w) eqn:V.
  - destruct (recv_spec s w ([] ++ oo)) as (o1 & w1 & E1 & _ & P1 & R). rewrite V in R. destruct R as (r & o' & -> & _ & Tt & _).
    unfold pbind at 1 in Hin. unfold pbind at 1 in Ha. rewrite E1 in Hin, Ha. cbn [app] in *. unfold pbind in Hin, Ha.
    pose proof (adds_sending_first s fuel w1 (oo ++ NRead r :: o')) as F.
    destruct (first_sends s fuel w1 (oo ++ NRead r :: o')) as [o2 [b|u| |]]; cbn [fst] in F.
    + destruct (win_loop s fuel w1 ((oo ++ NRead r :: o') ++ o2)) as [o3 r3] eqn:E3. cbn [fst] in Hin, Ha.
      assert (Hp : px_port w1 = false).
      { rewrite P1. apply M. apply in_app_iff in Hin as [H|[H|H]]; [exact H|discriminate|]. exfalso.
        apply in_app_iff in H as [H|H]; [rewrite Forall_forall in Tt; now apply Tt in H|].
        apply in_app_iff in H as [H|H]; [rewrite Forall_forall in F; now apply F in H|].
        assert (Hq : forall k w tr, ~ In (NPort false) (fst (win_loop s k w tr))).
        { clear. induction k as [|k IH]; intros w' tr; [intros []|]. remember (S k) as f eqn:Ef. rewrite (loop_turn s k f w' tr Ef). intros [?|H]; [discriminate|].
          destruct (nf_pending s tr); [|destruct H]. destruct (px_port w'); [|now apply IH in H]. cbn zeta in H. destruct H as [?|H]; [discriminate|].
          destruct (nf_wait s (tr ++ [NState true])); try now apply IH in H. apply in_app_iff in H as [H|H].
          - match type of H with In _ (fst (send_recv s f ?v ?t)) => pose proof (send_recv_inside s f v t) as Hi end.
            rewrite Forall_forall in Hi. now apply Hi in H.
          - destruct (snd _); [now apply IH in H|destruct H..]. }
        eapply Hq. rewrite E3. exact H. }
      apply in_app_iff in Ha as [H|[H|H]]; [rewrite Forall_forall in Mo; now apply Mo in H|discriminate|].
      apply in_app_iff in H as [H|H]; [now apply (Ht _ Tt)|]. apply in_app_iff in H as [H|H]; [now apply (Hs _ F)|].
      apply (Hl fuel w1 ((oo ++ NRead r :: o') ++ o2) Hp). now rewrite E3.
    + cbn [fst] in Ha. apply in_app_iff in Ha as [H|[H|H]]; [rewrite Forall_forall in Mo; now apply Mo in H|discriminate|].
      apply in_app_iff in H as [H|H]; [now apply (Ht _ Tt)|now apply (Hs _ F)].
    + cbn [fst] in Ha. apply in_app_iff in Ha as [H|[H|H]]; [rewrite Forall_forall in Mo; now apply Mo in H|discriminate|].
      apply in_app_iff in H as [H|H]; [now apply (Ht _ Tt)|now apply (Hs _ F)].
    + cbn [fst] in Ha. apply in_app_iff in Ha as [H|[H|H]]; [rewrite Forall_forall in Mo; now apply Mo in H|discriminate|].
      apply in_app_iff in H as [H|H]; [now apply (Ht _ Tt)|now apply (Hs _ F)].
  - unfold pret in Ha. cbn [fst] in Ha. rewrite app_nil_r in Ha. rewrite Forall_forall in Mo. now apply Mo in Ha.
Qed.
Print Assumptions C44_no_port_deaf_refuted.
(** Should the first read come back with bytes at once, they are told again and
    again and the adapter never gets to look at the stop flag. *)
Theorem C44_first_bytes_for_ever_refuted :
  forall s fuel path l1 bs l2, fst (win_watch s fuel path []) = l1 ++ NRead (RdOk bs) :: l2 -> bs <> [] ->
    (forall r, ~ In (NRead r) l1) -> forall b, ~ In (NState b) l2.
Proof.
  intros s fuel path l1 bs l2 E Hb Hn b Hin. apply in_split in Hin as (l3 & l4 & ->).
  change (l1 ++ NRead (RdOk bs) :: l3 ++ NState b :: l4) with (l1 ++ (NRead (RdOk bs) :: l3) ++ NState b :: l4) in E. rewrite app_assoc in E.
  apply watch_loop in E as (w & oo & r & o' & l1' & _ & Ho & _ & _ & _ & Hr & E & _); [|cbn; tauto].
  assert (E' : oo = l1 /\ NRead r = NRead (RdOk bs)).
  { clear - Ho Hn E. revert l1 Hn E. induction oo as [|x oo IH]; intros [|y l1] Hn E; cbn in E; injection E as E1 E.
    - split; [reflexivity|congruence].
    - exfalso. apply (Hn r). subst y. now left.
    - inversion Ho; subst. contradiction.
    - inversion Ho; subst. destruct (IH H2 l1) as [-> ->]; auto. intros r' Hr'. apply (Hn r'). now right. }
  destruct E' as [_ [= ->]]. congruence.
Qed.
Print Assumptions C44_first_bytes_for_ever_refuted.

(** ** C57 *)
(** If the system hands over records or nothing, and the narrow form of the path
    has at most 512 bytes and no more than the wide form, the adapter neither reads nor writes out of bounds. *)
Theorem C57_memory_safe_partial :
  forall s fuel path n, nf_narrow s path = Some n -> (n <= 512)%N -> (n <= 2 * (N.of_nat (length path) + 1))%N ->
    (forall o bs, nf_read s o = RdOk bs -> bs = [] \/ exists rs, rs <> [] /\ Forall wrec_ok rs /\ bs = w_encode rs) ->
    (forall o bs, nf_wait s o = WtDone bs -> bs = [] \/ exists rs, rs <> [] /\ Forall wrec_ok rs /\ bs = w_encode rs) ->
    forall o u, win_watch s fuel path [] <> (o, Undef u).
Proof.
  intros s fuel path n Hn Hl Hl2 Hr Hw o u E. pose proof (watch_stops s fuel path n (conj Hr Hw) Hn Hl Hl2) as S. rewrite E in S. exact S.
Qed.
Print Assumptions C57_memory_safe_partial.
Example C57_example : exists o, win_watch (winpc [WtDone (w_encode [wr 1 "ab"])] 3) 9 (lit "C:\w") [] = (o, Ok true) /\ length (nshown o) = 1%nat.
Proof. eexists. split; vm_compute; reflexivity. Qed.
(** With a longer path the opening of the watcher writes out of bounds, before
    anything else. *)
Theorem C57_long_paths_refuted :
  forall s fuel path n, nf_narrow s path = Some n -> (512 < n)%N -> win_watch s fuel path [] = ([], Undef OobWrite).
Proof.
  intros s fuel path n Hn Hl. unfold win_watch, make_proxy, pbind. rewrite Hn. replace (win_path_bytes <? n)%N with true by (unfold win_path_bytes; lia). reflexivity.
Qed.
Print Assumptions C57_long_paths_refuted.

(** Where the narrow form of a path is its UTF-8 (the code page may be UTF-8),
    it can be longer than the wide form: then the opening reads behind it. *)
Theorem C57_wide_paths_refuted :
  forall s fuel cs n, let path := Utf8Spec.utf16 cs in
    nf_narrow s path = Some n -> n = N.of_nat (length (Utf8Spec.utf8 cs)) ->
    (2 * (N.of_nat (length path) + 1) < n <= 512)%N -> win_watch s fuel path [] = ([], Undef OobRead).
Proof.
  intros s fuel cs n path Hn _ Hl. unfold win_watch, make_proxy, pbind. rewrite Hn.
  replace (win_path_bytes <? n)%N with false by (unfold win_path_bytes; lia).
  replace (2 * (N.of_nat (length path) + 1) <? n)%N with true by lia. reflexivity.
Qed.
Print Assumptions C57_wide_paths_refuted.
(** Six Japanese characters are enough. *)
Example C57_wide_example :
  let cs := lit "C:\" ++ repeat 0x65E5%N 6 in let path := Utf8Spec.utf16 cs in
  Forall Utf8Spec.scalar cs /\ length path = 9%nat /\ length (Utf8Spec.utf8 cs) = 21%nat /\
  (2 * (N.of_nat (length path) + 1) < N.of_nat (length (Utf8Spec.utf8 cs)) <= 512)%N.
Proof. cbv zeta. split; [repeat (constructor; [vm_compute; auto|]); constructor|]. vm_compute. repeat split; auto; discriminate. Qed.

(** ** C61 *)
(** What the log says was opened: the directory, the port. *)
Lemma life_watch s fuel path o r hs : win_life s fuel path = (o, r, hs) -> win_watch s fuel path [] = (o, r).
Proof.
  unfold win_life, win_watch, pbind. destruct (make_proxy s path []) as [o1 [w|u| |]]; try (intros [= <- <- <-]; reflexivity).
  cbn [app]. destruct (win_body s fuel w o1). intros [= <- <- <-]. reflexivity.
Qed.
Lemma body_no_port s fuel w tr : forall b, ~ In (NPort b) (fst (win_body s fuel w tr)).
Proof.
  intros b. set (P := fun x => match x with NPort _ => False | _ => True end).
  assert (Hi : forall o, Forall inside o -> Forall P o) by (intros o; apply Forall_impl; intros []; cbn; auto).
  assert (Hs : forall o, Forall sending o -> Forall P o) by (intros o; apply Forall_impl; intros []; cbn; auto).
  assert (Hl : forall k w, adds (Forall P) (win_loop s k w)).
  { induction k as [|k IH]; intros w0; cbn [win_loop]; [apply adds_all_stop|]. apply adds_all_bind; [apply adds_all_ask; intros; exact I|].
    intros []; [|apply adds_all_ret]. apply adds_all_bind; [destruct (px_port w0); [apply adds_all_ask; intros; exact I|apply adds_all_ret]|].
    intros [| |bs]; try apply IH. apply adds_all_bind; [intros t; apply Hi, send_recv_inside|]. intros; apply IH. }
  assert (H : Forall P (fst (win_body s fuel w tr))).
  { revert tr. unfold win_body. destruct (px_valid w); [|apply adds_all_ret]. apply adds_all_bind; [intros t; apply Hi, recv_inside|]. intros w1.
    apply adds_all_bind; [intros t; apply Hs, adds_sending_first|]. intros _. apply Hl. }
  intros Hin. rewrite Forall_forall in H. exact (H _ Hin).
Qed.
(** When the adapter returns, its event token is closed, and so is the completion
    port if there is one: each exactly once. *)
Theorem C61_token_and_port_closed_partial :
  forall s fuel path o b hs, win_life s fuel path = (o, Ok b, hs) ->
    hs = [HToken] /\ ~ In (NPort true) o \/ hs = [HToken; HPort] /\ In (NPort true) o.
Proof.
  intros s fuel path o b hs H. unfold win_life in H.
  assert (M : match snd (make_proxy s path []) with Ok w => px_port w = true <-> In (NPort true) (fst (make_proxy s path [])) | _ => True end).
  { unfold make_proxy. destruct (nf_narrow s path) as [n|]; [|exact I]. destruct (_ <? _)%N; [exact I|]. destruct (_ <? _)%N; [exact I|]. unfold pbind, ask, pret.
    destruct (nf_open s [] path); cbn; try (destruct (nf_port s [NOpen path _]); cbn); intuition congruence. }
  destruct (make_proxy s path []) as [o1 [w|u| |]]; try discriminate. cbn [fst snd] in M.
  pose proof (body_no_port s fuel w o1 true) as Hb. destruct (win_body s fuel w o1) as [o2 r2]. injection H as <- -> <-. cbn [fst] in Hb.
  unfold close_proxy. destruct (px_port w); [right|left]; (split; [reflexivity|]).
  - apply in_or_app. left. now apply M.
  - intros Hin. apply in_app_iff in Hin as [Hin|Hin]; [apply M in Hin; discriminate|contradiction].
Qed.
Print Assumptions C61_token_and_port_closed_partial.
(** The handle of the directory never is. *)
Theorem C61_directory_handle_leaked_refuted :
  forall s fuel path o r hs, win_life s fuel path = (o, r, hs) -> ~ In HDir hs.
Proof.
  intros s fuel path o r hs H. unfold win_life in H. destruct (make_proxy s path []) as [o1 [w|u| |]]; try (injection H as <- <- <-; intros []).
  destruct (win_body s fuel w o1) as [o2 r2]. injection H as <- <- <-. destruct r2; [|intros []..]. unfold close_proxy. destruct (px_port w); cbn; intuition discriminate.
Qed.
Print Assumptions C61_directory_handle_leaked_refuted.
Example C61_example : exists o, win_life (winpc [WtDone (w_encode [wr 1 "ab"])] 3) 9 (lit "C:\w") = (o, Ok true, [HToken; HPort]) /\
  In (NOpen (lit "C:\w") HOk) o.
Proof. eexists. split; [vm_compute; reflexivity|]. now left. Qed.

(** ** C62 *)
(** When nothing is outstanding the system has no claim on the buffer any more. *)
Theorem C62_buffer_given_back_partial :
  forall s fuel path o, win_watch s fuel path [] = (o, Ok false) -> armed o = false.
Proof.
  intros s fuel path o H. unfold win_watch in H. apply pbind_inv in H as [(o1 & w & o2 & E & H & ->)|[(u & _ & ?)|[[_ ?]|[_ ?]]]]; try discriminate.
  unfold win_body in H. destruct (px_valid w).
  - apply pbind_inv in H as [(o3 & w1 & o4 & _ & H & ->)|[(u & _ & ?)|[[_ ?]|[_ ?]]]]; try discriminate.
    apply pbind_inv in H as [(o5 & w2 & o6 & _ & H & ->)|[(u & _ & ?)|[[_ ?]|[_ ?]]]]; try discriminate.
    apply loop_true in H as (? & _). discriminate.
  - injection H as <-. rewrite app_nil_r. destruct (make_spec s path []) as [M _]. rewrite E in M. cbn [fst] in M. unfold armed.
    assert (Ha : forall a, armed_from a o1 = a); [|apply Ha]. clear E. induction M as [|x o Hx _ IH]; intros a; [reflexivity|]. destruct x; try contradiction; cbn; apply IH.
Qed.
Print Assumptions C62_buffer_given_back_partial.
(** But a watcher that was closed in the normal way, no read and no completion
    having failed or come back empty, returns with a read outstanding: the system
    may go on to write into the buffer and the overlap, which are gone. *)
Theorem C62_read_outstanding_refuted :
  forall s fuel path o, win_watch s fuel path [] = (o, Ok true) ->
    (forall x, In x o -> x <> NRead RdPending /\ x <> NRead RdFail /\ x <> NWait WtFail /\ x <> NWait (WtDone [])) ->
    armed o = true.
Proof.
  intros s fuel path o H G. assert (Gs : Forall good_sign o).
  { apply Forall_forall. intros x Hx. destruct (G x Hx) as (G1 & G2 & G3 & G4). destruct x as [| | | | | |[]|[| |[|c cs]]|]; cbn; auto. }
  clear G. unfold win_watch in H. apply pbind_inv in H as [(o1 & w & o2 & E & H & ->)|[(u & _ & ?)|[[_ ?]|[_ ?]]]]; try discriminate.
  unfold win_body in H. destruct (px_valid w) eqn:V; [|discriminate].
  apply pbind_inv in H as [(o3 & w1 & o4 & E3 & H & ->)|[(u & _ & ?)|[[_ ?]|[_ ?]]]]; try discriminate.
  apply pbind_inv in H as [(o5 & w2 & o6 & E5 & H & ->)|[(u & _ & ?)|[[_ ?]|[_ ?]]]]; try discriminate.
  rewrite !Forall_app in Gs. destruct Gs as (_ & G3 & _ & G6).
  destruct (recv_spec s w ([] ++ o1)) as (o3' & w1' & E3' & _ & _ & R). rewrite E3 in E3'. injection E3' as <- <-. rewrite V in R.
  destruct R as (r & o' & -> & _ & Ht & Vw & _). inversion G3 as [|? ? Gr _]; subst. destruct r as [bs| |]; try contradiction.
  rewrite !app_assoc. eapply loop_armed_end; [exact H|exact Vw| |exact G6]. cbn [app]. unfold armed. rewrite !armed_app.
  pose proof (adds_sending_first s fuel w1 (([] ++ o1) ++ NRead (RdOk bs) :: o')) as F. rewrite E5 in F. cbn [fst] in F.
  rewrite (sending_armed _ F). cbn [armed_from]. now apply telling_armed.
Qed.
Print Assumptions C62_read_outstanding_refuted.
Example C62_example :
  let s := winpc [WtDone (w_encode [wr 1 "ab"])] 3 in
  exists o, win_watch s 9 (lit "C:\w") [] = (o, Ok true) /\ length (nshown o) = 1%nat /\ armed o = true.
Proof. eexists. split; [vm_compute; reflexivity|]. vm_compute. auto. Qed.
Example C62_partial_example :
  exists o, win_watch {| nf_now := fun _ => 0%Z; nf_isdir := fun _ _ => None; nf_narrow := fun p => Some (N.of_nat (length p)); nf_open := fun _ _ => HInvalid;
    nf_port := fun _ => true; nf_bind := fun _ _ => false; nf_read := fun _ => RdFail; nf_wait := fun _ => WtNone; nf_pending := fun _ => true |} 9 (lit "C:\w") [] = (o, Ok false).
Proof. eexists. vm_compute. reflexivity. Qed.

(** ** C66, C67: how it ends *)

(** It returns true exactly when a look at the stop flag found it raised; that
    look is the first such and the last thing it does. *)
Theorem C66_windows_ends_on_request : forall s fuel path o b, win_watch s fuel path [] = (o, Ok b) ->
  (b = true <-> In (NState false) o) /\ (b = true -> exists o1, o = o1 ++ [NState false] /\ ~ In (NState false) o1).
Proof.
  intros s fuel path o b H. unfold win_watch in H. apply pbind_inv in H as [(o1 & w & o2 & E & H & ->)|[(u & _ & ?)|[[_ ?]|[_ ?]]]]; try discriminate.
  assert (H1 : ~ In (NState false) o1).
  { destruct (make_spec s path []) as [M _]. rewrite E in M. cbn [fst] in M. intros Hin. rewrite Forall_forall in M. exact (M _ Hin). }
  unfold win_body in H. destruct (px_valid w).
  - apply pbind_inv in H as [(o3 & w1 & o4 & E3 & H & ->)|[(u & _ & ?)|[[_ ?]|[_ ?]]]]; try discriminate.
    apply pbind_inv in H as [(o5 & w2 & o6 & E5 & H & ->)|[(u & _ & ?)|[[_ ?]|[_ ?]]]]; try discriminate.
    pose proof (recv_inside s w ([] ++ o1)) as M3. rewrite E3 in M3. cbn [fst] in M3.
    pose proof (adds_sending_first s fuel w1 (([] ++ o1) ++ o3)) as M5. rewrite E5 in M5. cbn [fst] in M5.
    apply loop_end in H as (-> & o7 & -> & H7).
    assert (E' : o1 ++ o3 ++ o5 ++ o7 ++ [NState false] = (o1 ++ o3 ++ o5 ++ o7) ++ [NState false]) by now rewrite <- !app_assoc.
    rewrite E'. split.
    + split; [intros _; apply in_or_app; right; now left|reflexivity].
    + intros _. eexists. split; [reflexivity|]. rewrite !in_app_iff. rewrite Forall_forall in M3, M5.
      intros [Hc|[Hc|[Hc|Hc]]]; [auto|exact (M3 _ Hc)|exact (M5 _ Hc)|auto].
  - injection H as <- <-. rewrite app_nil_r. split; [split; [discriminate|contradiction]|discriminate].
Qed.
Print Assumptions C66_windows_ends_on_request.
Example C66_windows_example : exists o, win_watch (winpc [WtDone (w_encode [wr 1 "ab"])] 3) 9 (lit "C:\w") [] = (o, Ok true).
Proof. eexists. vm_compute. reflexivity. Qed.

(** A run that fails calls the callback not once; and there are runs that fail
    (here the directory cannot be opened). *)
Theorem C67_windows_failures_unexplained_refuted :
  (forall s fuel path o e, win_watch s fuel path [] = (o, Ok false) -> ~ In (NCb e) o) /\
  exists s fuel o, win_watch s fuel (lit "C:\w") [] = (o, Ok false).
Proof.
  split.
  - intros s fuel path o e H. unfold win_watch in H. apply pbind_inv in H as [(o1 & w & o2 & E & H & ->)|[(u & _ & ?)|[[_ ?]|[_ ?]]]]; try discriminate.
    unfold win_body in H. destruct (px_valid w).
    + apply pbind_inv in H as [(o3 & w1 & o4 & _ & H & ->)|[(u & _ & ?)|[[_ ?]|[_ ?]]]]; try discriminate.
      apply pbind_inv in H as [(o5 & w2 & o6 & _ & H & ->)|[(u & _ & ?)|[[_ ?]|[_ ?]]]]; try discriminate.
      apply loop_end in H as (? & _). discriminate.
    + injection H as <-. rewrite app_nil_r. destruct (make_spec s path []) as [M _]. rewrite E in M. cbn [fst] in M.
      intros Hin. rewrite Forall_forall in M. exact (M _ Hin).
  - exists {| nf_now := fun _ => 0%Z; nf_isdir := fun _ _ => None; nf_narrow := fun p => Some (N.of_nat (length p)); nf_open := fun _ _ => HInvalid;
      nf_port := fun _ => true; nf_bind := fun _ _ => false; nf_read := fun _ => RdFail; nf_wait := fun _ => WtNone; nf_pending := fun _ => true |}, 9%nat.
    eexists. vm_compute. reflexivity.
Qed.
Print Assumptions C67_windows_failures_unexplained_refuted.

(** ** The adapter in the watch class *)
Import SemabinModel WatchModel WatchSpec.
Definition win_act (x : nobs) : act := match x with NCb e => ACb e | NState false => AStop | _ => AOther end.
Definition win_runs (path : text) (st : list act) (r : option bool) : Prop :=
  exists s fuel o, st = map win_act o /\
    match r with
    | Some b => win_watch s fuel path [] = (o, Ok b)
    | None => exists n, o = firstn n (fst (win_watch s fuel path []))
    end.
Theorem C01_windows_adapter : adapter_ok win_runs.
Proof.
  split.
  - intros abs st r e (s & fuel & o & -> & Hr) Hin. apply in_map_iff in Hin as (x & Hx & Hin).
    assert (Ho : Forall modest o).
    { pose proof (watch_modest s fuel abs) as H. destruct r as [b|].
      - rewrite Hr in H. exact H.
      - destruct Hr as (n & ->). apply Forall_forall. intros y Hy. rewrite Forall_forall in H. apply H.
        rewrite <- (firstn_skipn n). apply in_or_app. now left. }
    rewrite Forall_forall in Ho. apply Ho in Hin. destruct x as [e'| | | | | | | |[]]; cbn in Hx; try discriminate. injection Hx as ->.
    intros Hw. rewrite (Hin Hw). split; discriminate.
  - intros abs st (s & fuel & o & -> & Hr). apply watch_true in Hr as (o1 & ->). rewrite map_app. apply in_or_app. right. now left.
Qed.
Print Assumptions C01_windows_adapter.
Example C01_windows_example : exists st, win_runs (lit "C:\w") st (Some true) /\ length (filter (fun a => match a with ACb _ => true | _ => false end) st) = 1%nat.
Proof.
  eexists. split.
  - exists (winpc [WtDone (w_encode [wr 1 "ab"])] 3), 9%nat. eexists. split; [reflexivity|]. vm_compute. reflexivity.
  - vm_compute. reflexivity.
Qed.

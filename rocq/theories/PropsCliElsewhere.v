(** Theorems C157: the command line program while it watches, where the fallback adapter or
    Darwin's is used: src/wtr/watcher/main.cpp:92-122 on class watch and those adapters. *)
From Verif Require Import Base EventModel EventSpec Mon WarthogModel WarthogSpec WarthogFacts PropsWarthog PropsWarthogWhole.
From Verif Require Import DarwinModel DarwinSpec DarwinFacts DarwinLife DarwinWorldSpec DarwinWorldFacts PropsDarwin PropsDarwinWorld PropsDarwinWhole.
From Verif Require Import BindSpec InotifySpec SemabinModel WatchModel WatchSpec WatchFacts WholeLife WatchExamples Names CliModel CliLifeSpec PropsEvent PropsCliLife.
From Verif Require Import PropsChain.
From Verif Require PropsDarwinChain PropsWarthogChain.
Import EventSpec.

Notation plain_shape := (good_shape (fun p => EventSpec.plain p = true)).
(** What the callback received, from the lines of the output. *)
Definition lines_tell (w : world) : Prop :=
  map read_json (lines (cli_output (log w))) = map (fun ev => Some (event_as_cli_json ev)) (received (log w)).

Lemma told_on_lines w : Forall modern_event (received (log w)) -> (forall ev, In ev (received (log w)) -> ev_ptype ev = PtWatcher -> plain_event ev) ->
  Forall (fun ev => plain_shape (shape_of ev)) (about_files (received (log w))) -> lines_tell w.
Proof.
  intros M W F. assert (A : Forall plain_event (received (log w))).
  { apply Forall_forall. intros ev Hev. destruct (match ev_ptype ev with PtWatcher => true | _ => false end) eqn:T; [apply W; [exact Hev|]; now destruct (ev_ptype ev)|].
    apply shape_plain. rewrite Forall_forall in F. apply F, filter_In. split; [exact Hev|]. now destruct (ev_ptype ev). }
  unfold lines_tell. rewrite output_lines by (eapply Forall_impl; [|exact A]; apply plain_one_line). rewrite map_map. apply map_ext_in. intros ev Hev.
  rewrite Forall_forall in A, M. apply C17_cli_json_is_faithful_partial; auto.
Qed.

(** ** The fallback *)
Definition plain_history (h : nat -> contents) : Prop := forall i e, In e (h i) -> EventSpec.plain (en_path e) = true.

(** At any point of any life of the program's watcher, in a tree whose paths a JSON string can
    hold, with clocks between 2001 and 2262 and no message about a path that is not plain: each
    line is JSON; together they are the events the callback received, in order; those about
    files are a beginning of what the scans begun so far say, with all that the earlier ones
    said, and all of it when close() has returned true. *)
Theorem C157_fallback_lines_tell_the_changes_partial :
  forall pl s root h re w, changes_between_rounds s root h -> (forall i e, In e (h i) -> en_time e <> None) -> plain_history h ->
    reach pl (fallback_on s) re constructed w -> (forall p, In (LWatch p) (log w) -> p = root) ->
    Forall modern_event (received (log w)) ->
    (forall ev, In ev (received (log w)) -> ev_ptype ev = PtWatcher -> plain_event ev) ->
    let evs := about_files (received (log w)) in
    map read_json (lines (cli_output (log w))) = map (fun ev => Some (event_as_cli_json ev)) (received (log w)) /\
    ((evs = [] /\ (forall p, ~ In (LWatch p) (log w)) /\ (forall v, ~ In (LClosed v true) (log w))) \/
     exists k,
       (exists rest, rounds_say h k (map shape_of evs ++ rest)) /\
       (forall i, k = S i -> exists before since, map shape_of evs = before ++ since /\ rounds_say h i before) /\
       forall l1 v l2, log w = l1 ++ LClosed v true :: l2 -> rounds_say h k (map shape_of evs)).
Proof.
  intros pl s root h re w Hh Ht P R Hroot M W evs.
  destruct (C105_fallback_a_watchers_life pl s root h re w Hh Ht R Hroot) as [(H1 & H2 & H3)|(k & live & evs' & die & E & Hl & Hd & (rest & T) & B & C)].
  { assert (Ee : evs = []) by (apply PropsDarwinChain.no_files, H1). split; [apply (told_on_lines w M W)|left; auto]. change (Forall (fun ev => plain_shape (shape_of ev)) evs). rewrite Ee. constructor. }
  assert (G : forall e, In e evs' -> plain_shape (shape_of e) /\ ev_ptype e <> PtWatcher).
  { intros e He. destruct (PropsWarthogChain.rounds_files h k _ (shape_of e) T) as (i & en & f & Hen & Es).
    - apply in_or_app. left. now apply in_map.
    - rewrite Es. split; [split; [now apply (P i)|exact Coq.Init.Logic.I]|]. destruct e as [p f' t tm a]. cbn in Es. injection Es as _ _ -> _. discriminate. }
  assert (Ee : evs = evs').
  { unfold evs. rewrite E. change (live :: ?x ++ die) with ([live] ++ x ++ die). rewrite !PropsDarwinChain.files_app, (PropsDarwinChain.no_files [live]), (PropsDarwinChain.no_files die), app_nil_r.
    - cbn [app]. apply PropsDarwinChain.all_files, Forall_forall. intros e He. now apply G.
    - destruct Hd as [-> |(x & -> & [Hx|Hx])]; [constructor|constructor; [apply Hx|constructor]..].
    - constructor; [apply Hl|constructor]. }
  split.
  - apply (told_on_lines w M W). change (Forall (fun ev => plain_shape (shape_of ev)) evs). rewrite Ee. apply Forall_forall. intros e He. now apply G.
  - right. rewrite Ee. exists k. split; [eauto|]. split; [exact B|]. intros l1 v l2 El. apply (C l1 v l2 El).
Qed.
Print Assumptions C157_fallback_lines_tell_the_changes_partial.

(** The history of C104's example, with a clock of our time: the watcher is asked to stop after
    five rounds. *)
Definition clocked_hist : wfs :=
  let s := hist (lit "/w") 5 c104_h in
  {| wf_now := fun tr => (now + wf_now s tr)%Z; wf_pending := wf_pending s; wf_exists := wf_exists s; wf_isdir := wf_isdir s; wf_isreg := wf_isreg s;
     wf_islink := wf_islink s; wf_time := wf_time s; wf_walk := wf_walk s |}.
Lemma clocked_hist_ok : changes_between_rounds clocked_hist (lit "/w") (fun i => nth (pred i) c104_h (last c104_h [])).
Proof.
  assert (H : changes_between_rounds (hist (lit "/w") 5 c104_h) (lit "/w") (fun i => nth (pred i) c104_h (last c104_h []))) by apply C104_example.
  destruct H as [A B]. split; [|exact B]. intros tr. destruct (A tr) as [A1 A2 A3 A4 A5 A6]. now split.
Qed.
Definition at_w (p : string) : text := lit "/w/" ++ lit p.
Lemma clocked_hist_events : received (acts_log (map warthog_act (fst (warthog_watch clocked_hist 9 (lit "/w") [])))) =
  [Ev (at_w "a") EtModify PtFile (now + 29) None; Ev (at_w "n") EtCreate PtFile (now + 36) None; Ev (at_w "a") EtModify PtFile (now + 52) None].
Proof. vm_compute. reflexivity. Qed.
Lemma plain_message p eff t tm : EventSpec.plain p = true -> plain_event (Ev p eff t tm None).
Proof. intros H. now constructor. Qed.
Example C157_fallback_example : exists w,
  changes_between_rounds clocked_hist (lit "/w") (fun i => nth (pred i) c104_h (last c104_h [])) /\
  (forall i e, In e (nth (pred i) c104_h (last c104_h [])) -> en_time e <> None) /\
  plain_history (fun i => nth (pred i) c104_h (last c104_h [])) /\
  reach (Linux true) (fallback_on clocked_hist) false constructed w /\ (forall p, In (LWatch p) (log w) -> p = lit "/w") /\
  Forall modern_event (received (log w)) /\ (forall ev, In ev (received (log w)) -> ev_ptype ev = PtWatcher -> plain_event ev) /\
  ow w = OGone /\ cli_closes (log w) = [(released, true); (released, false)] /\
  lines (cli_output (log w)) =
    [lit "{""path_type"":""watcher"",""path_name"":""s/self/live@/w"",""effect_type"":""create"",""effect_time"":1700000000000000001,""associated"":null}";
     lit "{""path_type"":""file"",""path_name"":""/w/a"",""effect_type"":""modify"",""effect_time"":1700000000000000029,""associated"":null}";
     lit "{""path_type"":""file"",""path_name"":""/w/n"",""effect_type"":""create"",""effect_time"":1700000000000000036,""associated"":null}";
     lit "{""path_type"":""file"",""path_name"":""/w/a"",""effect_type"":""modify"",""effect_time"":1700000000000000052,""associated"":null}";
     lit "{""path_type"":""watcher"",""path_name"":""s/self/die@/w"",""effect_type"":""destroy"",""effect_time"":1700000000000000099,""associated"":null}"].
Proof.
  assert (V : snd (warthog_watch clocked_hist 9 (lit "/w") []) = Ok true) by (vm_compute; reflexivity).
  pose proof clocked_hist_events as Ce. pose proof (fallback_day _ _ V) as R.
  assert (Na : forall p, ~ In (LWatch p) (acts_log (map warthog_act (fst (warthog_watch clocked_hist 9 (lit "/w") []))))) by (intros; apply acts_no_watch).
  assert (Nc : cli_closes (acts_log (map warthog_act (fst (warthog_watch clocked_hist 9 (lit "/w") [])))) = []) by (vm_compute; reflexivity).
  remember (map warthog_act (fst (warthog_watch clocked_hist 9 (lit "/w") []))) as o eqn:Ho. clear Ho.
  pose proof (program_life true (fallback_on clocked_hist) false _ _ (now + 1) (now + 99) R) as H.
  assert (Er : received (whole_log (lit "/w") o (now + 1) (now + 99)) = live_event true (lit "/w") (now + 1) ::
    [Ev (at_w "a") EtModify PtFile (now + 29) None; Ev (at_w "n") EtCreate PtFile (now + 36) None; Ev (at_w "a") EtModify PtFile (now + 52) None] ++ [die_event true (lit "/w") (now + 99)]).
  { unfold whole_log. rewrite !received_app, Ce. reflexivity. }
  eexists. split; [exact clocked_hist_ok|]. split; [apply C104_example|]. split.
  { assert (Hp : Forall (Forall (fun e => EventSpec.plain (en_path e) = true)) c104_h) by (repeat constructor).
    intros i e Hi. rewrite Forall_forall in Hp. assert (Hc : In (nth (pred i) c104_h (last c104_h [])) c104_h).
    { destruct (Nat.lt_ge_cases (pred i) (length c104_h)) as [Hl|Hl]; [now apply nth_In|]. rewrite nth_overflow by exact Hl. vm_compute. tauto. }
    apply Hp in Hc. rewrite Forall_forall in Hc. now apply Hc. }
  split; [exact H|]. cbn [log ow]. split; [|split; [|split; [|split; [reflexivity|split]]]].
  - intros p Hp. unfold whole_log in Hp. rewrite !in_app_iff in Hp. cbn [In] in Hp. specialize (Na p).
    clear -Hp Na. destruct Hp as [Hp|[Hp|Hp]]; [decompose [or] Hp; first [discriminate|contradiction|congruence]|contradiction|decompose [or] Hp; first [discriminate|contradiction]].
  - rewrite Er. cbn [app]. repeat (apply Forall_cons; [modern|]). constructor.
  - intros ev Hev T. rewrite Er in Hev. clear -Hev T. cbn [app In] in Hev. destruct Hev as [<-|[<-|[<-|[<-|[<-|[]]]]]]; try discriminate T; now apply plain_message.
  - unfold whole_log. rewrite !closes_app, Nc. reflexivity.
  - rewrite output_received, Er. vm_compute. reflexivity.
Qed.

(** ** Darwin *)
(** The paths that FSEvents gives can be held by a JSON string. *)
Definition plainly_named (o : list dobs) : Prop :=
  forall i rs p fl, In (DOccur i (Some rs)) o -> In (p, fl) rs -> EventSpec.plain p = true.
Definition darwin_plain (w0 : tree) (path : text) (st : list act) (r : option bool) : Prop :=
  exists s d hist, dreach s dstart d /\ honest w0 hist (dlog d) /\ plainly_named (dlog d) /\ st = map darwin_act (dlog d) /\
    match r with Some b => In (DRet b) (dlog d) | None => True end.
Lemma darwin_plain_ok w0 : adapter_ok (darwin_plain w0).
Proof.
  destruct (darwin_on_ok w0) as [Q S]. split.
  - intros abs st r ev (s & d & h & R & H & _ & E). apply (Q abs st r). exists s, d, h. auto.
  - intros abs st (s & d & h & R & H & _ & E). apply (S abs). exists s, d, h. auto.
Qed.
Lemma cb_plain s d : dreach s dstart d -> plainly_named (dlog d) -> forall e, In (DCb e) (dlog d) -> plain_shape (shape_of e) /\ ev_ptype e <> PtWatcher.
Proof.
  intros R H e He. apply in_split in He as (o1 & o2 & E). destruct (cb_from s d R _ _ _ E) as (c & a & p & fl & m & o' & c' & -> & Er & Dc).
  assert (Hr : forall q f, In (DRec q f) (a ++ [DRec p fl]) -> EventSpec.plain q = true).
  { intros q f Hq. assert (Hd : In (DRec q f) (dlog d)) by (rewrite E; rewrite in_app_iff in Hq |- *; rewrite in_app_iff; destruct Hq as [Hq|[Hq|[]]]; [auto|left; right; now left]).
    apply in_split in Hd as (x & y & Ed). destruct (rec_from s d R _ _ _ _ Ed) as (i & rs & Ho & Hp). apply (H i rs q f); [rewrite Ed, in_app_iff; now left|exact Hp]. }
  assert (Hp : EventSpec.plain p = true) by (apply (Hr p fl), in_elt).
  destruct (recv_one_spec s c p fl (a ++ [DRec p fl])) as (oo & cc & there & E1 & P1 & _ & M1 & _). rewrite Er in E1. injection E1 as <- <-.
  assert (Hin : In (shape_of e) (pure_events c p fl there)) by (rewrite <- M1; apply cb_in_mine; [exact P1|apply in_elt]).
  assert (Ty : forall f a', shape_of e = Sh p f (b_type fl) a' \/ shape_of e = Sh (last_rename c) f (b_type fl) a' -> ev_ptype e <> PtWatcher).
  { intros f a' X. assert (ev_ptype e = b_type fl) as -> by (destruct e; cbn in X; destruct X as [X|X]; injection X; auto). unfold b_type. repeat (destruct (N.testbit _ _) || destruct (_ || _)%bool); discriminate. }
  unfold pure_events in Hin. destruct (b_known fl).
  2:{ destruct Hin as [Hin|[]]. split; [rewrite <- Hin; cbn; auto|eapply Ty; left; symmetry; exact Hin]. }
  rewrite !in_app_iff in Hin. destruct Hin as [Hin|[Hin|[Hin|Hin]]].
  1-3: match type of Hin with In _ (if ?b then _ else _) => destruct b; [|destruct Hin] end; destruct Hin as [Hin|[]]; split; [rewrite <- Hin; cbn; auto|eapply Ty; left; symmetry; exact Hin].
  destruct (pure_ren c p fl there) eqn:Pr; [|destruct Hin]. destruct Hin as [Hin|[]]. split; [|eapply Ty; right; symmetry; exact Hin].
  rewrite <- Hin. cbn. split; [|auto]. unfold pure_ren in Pr. rewrite !andb_true_iff in Pr. destruct Pr as [[[_ Pr] _] _].
  assert (Hl : last_rename c <> []) by (intros X; rewrite X in Pr; discriminate Pr). rewrite (di_last _ _ Dc) in *.
  destruct (left_flagged _ Hl) as (r & Hi & <- & _). apply in_reports in Hi. apply (Hr _ (r_flags r)). rewrite in_app_iff. now left.
Qed.

(** At any point of any life of the program's watcher on Darwin, with such paths and such
    clocks and messages: each line is JSON; together they are the events the callback
    received, in order; each of those about files was true when it was made (C115), and when
    close() has returned true they tell, of changes that came one at a time and gave no
    trouble (C116), each once and in order. *)
Theorem C157_darwin_lines_tell_the_changes_partial :
  forall pl w0 re w, reach pl (darwin_plain w0) re constructed w ->
    Forall modern_event (received (log w)) ->
    (forall ev, In ev (received (log w)) -> ev_ptype ev = PtWatcher -> plain_event ev) ->
    let evs := about_files (received (log w)) in
    map read_json (lines (cli_output (log w))) = map (fun ev => Some (event_as_cli_json ev)) (received (log w)) /\
    ((evs = [] /\ (forall p, ~ In (LWatch p) (log w)) /\ (forall v, ~ In (LClosed v true) (log w))) \/
     exists path s d hist a b,
       In (LWatch path) (log w) /\ dreach s dstart d /\ honest w0 hist (dlog d) /\ dlog d = a ++ b /\
       map shape_of evs = dshown a /\
       (forall o1 e o2, a = o1 ++ DCb e :: o2 -> true_event w0 hist o1 (shape_of e)) /\
       forall l1 v l2, log w = l1 ++ LClosed v true :: l2 -> b = [] /\
         forall cs, typed w0 -> cans w0 cs -> easy_going cs -> paced w0 cs (reports a) -> map shape_of evs = events_for w0 cs).
Proof.
  intros pl w0 re w R M W evs.
  destruct (whole_life _ pl re w R) as [(H1 & H2 & H3)|(path & dn & rest & r & Hin & Hr & (live & die & E & Hl & Hd & Hc))].
  { assert (Ee : evs = []) by (apply PropsDarwinChain.no_files, H1). split; [|left; auto]. apply (told_on_lines w M W). change (Forall (fun ev => plain_shape (shape_of ev)) evs). rewrite Ee. constructor. }
  destruct Hr as (s & d & hist & Rd & Ho & Nm & Em & Hret). symmetry in Em.
  assert (Sp : exists a b, dlog d = a ++ b /\ map darwin_act a = dn /\ map darwin_act b = rest).
  { clear -Em. revert dn Em. generalize (dlog d) as o. induction o as [|x o IH]; intros [|y dn] Em; cbn in Em.
    - exists [], []. auto.
    - discriminate.
    - exists [], (x :: o). auto.
    - injection Em as <- Em. destruct (IH _ Em) as (a & b & -> & <- & <-). exists (x :: a), b. auto. }
  destruct Sp as (a & b & Ed & <- & <-).
  assert (G : forall e, In e (received (acts_log (map darwin_act a))) -> plain_shape (shape_of e) /\ ev_ptype e <> PtWatcher).
  { intros e He. apply (cb_plain s d Rd Nm). rewrite Ed, in_app_iff. left. now apply PropsDarwinChain.received_acts. }
  assert (Ee : evs = received (acts_log (map darwin_act a))).
  { unfold evs. rewrite E. change (live :: ?x ++ die) with ([live] ++ x ++ die). rewrite !PropsDarwinChain.files_app, (PropsDarwinChain.no_files [live]), (PropsDarwinChain.no_files die), app_nil_r.
    - cbn [app]. apply PropsDarwinChain.all_files, Forall_forall. intros e He. now apply G.
    - destruct Hd as [-> |(x & -> & [Hx|Hx])]; [constructor|constructor; [apply Hx|constructor]..].
    - constructor; [apply Hl|constructor]. }
  split.
  { apply (told_on_lines w M W). change (Forall (fun ev => plain_shape (shape_of ev)) evs). rewrite Ee. apply Forall_forall. intros e He. now apply G. }
  right. exists path, s, d, hist, a, b. rewrite Ee, received_darwin. repeat (split; [assumption || reflexivity|]). split.
  - intros o1 e o2 Ea. eapply (C115_darwin_no_event_without_a_change_partial s d); eauto. rewrite Ed, Ea, <- app_assoc. reflexivity.
  - intros l1 v l2 El. destruct (Hc _ _ _ El) as (Hb & -> & _). destruct b; [|discriminate]. rewrite app_nil_r in Ed. split; [reflexivity|].
    intros cs T C Ea P. rewrite <- Ed in *. now apply (C116_darwin_one_event_per_change_partial s d w0 cs).
Qed.
Print Assumptions C157_darwin_lines_tell_the_changes_partial.

(** The changes of C116's example, told as they come; the watcher is still running. *)
Definition mac_clocked : dfs := {| df_now := fun tr => (now + df_now (mac ["/w/y"%string]) tr)%Z; df_access := df_access (mac ["/w/y"%string]) |}.
Example C157_darwin_example : exists w,
  reach Darwin (darwin_plain quiet_tree) false constructed w /\
  Forall modern_event (received (log w)) /\ (forall ev, In ev (received (log w)) -> ev_ptype ev = PtWatcher -> plain_event ev) /\
  lines (cli_output (log w)) =
    [lit "{""path_type"":""watcher"",""path_name"":""s/self/live@/w"",""effect_type"":""create"",""effect_time"":1700000000000000001,""associated"":null}";
     lit "{""path_type"":""file"",""path_name"":""/w/a"",""effect_type"":""create"",""effect_time"":1700000000000000004,""associated"":null}";
     lit "{""path_type"":""file"",""path_name"":""/w/a"",""effect_type"":""modify"",""effect_time"":1700000000000000007,""associated"":null}";
     lit "{""path_type"":""dir"",""path_name"":""/w/x"",""effect_type"":""rename"",""effect_time"":1700000000000000016,""associated"":" ++
     lit "{""path_type"":""dir"",""path_name"":""/w/y"",""effect_type"":""rename"",""effect_time"":1700000000000000015,""associated"":null}}";
     lit "{""path_type"":""file"",""path_name"":""/w/a"",""effect_type"":""destroy"",""effect_time"":1700000000000000019,""associated"":null}";
     lit "{""path_type"":""sym_link"",""path_name"":""/w/a"",""effect_type"":""create"",""effect_time"":1700000000000000022,""associated"":null}"].
Proof.
  set (s := mac_clocked). set (d := PropsDarwinWhole.ended s quiet_records). pose proof (ended_reach s quiet_records) as R. fold d in R.
  assert (Ho : honest quiet_tree (at_once quiet_changes) (dlog d)).
  { set (o := tl (dlog d)). change (dlog d) with (DStream true :: o). apply honest_at_once. vm_compute in o. unfold o. pose proof quiet_flags as Fl.
    repeat (apply Forall_cons; [first [exact Fl|exact I|left; reflexivity|right; reflexivity]|]). constructor. }
  assert (Nm : plainly_named (dlog d)).
  { assert (B : forallb (fun x => match x with DOccur _ (Some rs) => forallb (fun r => EventSpec.plain (fst r)) rs | _ => true end) (dlog d) = true) by (vm_compute; reflexivity).
    intros i rs p fl Hi Hp. rewrite forallb_forall in B. apply B in Hi. rewrite forallb_forall in Hi. now apply Hi in Hp. }
  assert (Hr : darwin_plain quiet_tree (lit "/w") (map darwin_act (life1 s quiet_records) ++ map darwin_act [DLeave 0; DStop; DLock; DFlushed; DClosed; DRet true]) None).
  { exists s, d, (at_once quiet_changes). split; [exact R|]. split; [exact Ho|]. split; [exact Nm|]. split; [rewrite <- map_app; reflexivity|exact I]. }
  assert (Ns : ~ In AStop (map darwin_act (life1 s quiet_records))).
  { intros X. assert (Y : existsb (fun x => match x with AStop => true | _ => false end) (map darwin_act (life1 s quiet_records)) = true) by (apply existsb_exists; exists AStop; auto). vm_compute in Y. discriminate Y. }
  assert (Ce : received (acts_log (map darwin_act (life1 s quiet_records))) =
    [Ev (at_w "a") EtCreate PtFile (now + 4) None; Ev (at_w "a") EtModify PtFile (now + 7) None; Ev (at_w "x") EtRename PtDir (now + 16) (Some (Ev (at_w "y") EtRename PtDir (now + 15) None));
     Ev (at_w "a") EtDestroy PtFile (now + 19) None; Ev (at_w "a") EtCreate PtSymLink (now + 22) None]) by (vm_compute; reflexivity).
  assert (H : reach Darwin (darwin_plain quiet_tree) false constructed constructed) by constructor. unfold constructed at 2 in H.
  eapply reach_w in H; [|apply (W_good _ _ _ _ _ (lit "/w"))].
  assert (Hq : sem_step Darwin sem_new QStart sem_new (Ret pending)) by (constructor; reflexivity).
  eapply reach_w in H; [|apply W_check, Hq].
  eapply reach_w in H; [|apply W_checked].
  eapply reach_w in H; [|apply (W_live _ _ _ _ _ _ _ (now + 1)%Z)].
  eapply reach_w in H; [|apply W_return].
  eapply reach_w in H; [|apply W_adapt, Hr].
  apply run_on in H; [|exact Ns]. clear Hr Ns R Ho Nm. subst d. remember (map darwin_act (life1 s quiet_records)) as o eqn:Eo. clear Eo.
  eexists. split; [exact H|]. cbn [log]. clear H.
  match goal with |- Forall _ (received ?l) /\ _ => assert (Er : received l = live_event true (lit "/w") (now + 1) ::
    [Ev (at_w "a") EtCreate PtFile (now + 4) None; Ev (at_w "a") EtModify PtFile (now + 7) None; Ev (at_w "x") EtRename PtDir (now + 16) (Some (Ev (at_w "y") EtRename PtDir (now + 15) None));
     Ev (at_w "a") EtDestroy PtFile (now + 19) None; Ev (at_w "a") EtCreate PtSymLink (now + 22) None]) by (rewrite !received_app, Ce; reflexivity) end.
  split; [|split].
  - rewrite Er. repeat (apply Forall_cons; [first [modern | constructor; [unfold modern_time, now; lia|modern]]|]). constructor.
  - intros ev Hev T. rewrite Er in Hev. clear -Hev T. cbn [In] in Hev. destruct Hev as [<-|[<-|[<-|[<-|[<-|[<-|[]]]]]]]; try discriminate T; now apply plain_message.
  - rewrite output_received, Er. vm_compute. reflexivity.
Qed.

(** Theorem C140: from a change of the filesystem of [WinWorldSpec] to the user of a binding on
    Windows: C102 with watcher-c and the Rust, Python and Node bindings on top
    (watcher-c/src/watcher-c.cpp:14-65, watcher-rs/src/lib.rs:56-101,
    watcher-py/watcher/watcher.py:62-110, watcher-nodejs/lib/watcher-napi.cpp:25-49). *)
From Verif Require Import WatchFacts.
From Verif Require Import Base EventModel Utf8Spec BindModel BindSpec BindFacts PropsBind.
From Verif Require Import InotifySpec Mon WindowsModel WindowsSpec WindowsRun WinWorldSpec WinWorldFacts WinTrue PropsWindows PropsWinWorld PropsWinWhole.
From Verif Require Import SemabinModel WatchModel WatchSpec WholeLife WatchExamples.
From Verif Require Sys.

(** ** What is assumed of the names *)
(** UTF-16 without NUL, of fewer than 4095 bytes as UTF-8 (see C48). *)
Definition showable (us : text) : Prop := exists cs, is_utf16 us cs /\ ~ In 0%N cs /\ (N.of_nat (length (utf8 cs)) < 4095)%N.
(** The names in a change. *)
Definition names_of (c : wop) : list text :=
  match c with WMake _ n | WWrite n | WRemove n => [n] | WRename n n' => [n; n'] end.
(** ** What the user must be told *)
(** The event of Rust or Python has the scalar values of the UTF-16 paths of the C++ event;
    that of JavaScript the paths themselves (its strings are UTF-16), and a time that is the
    nearest a double can hold. *)
Definition mirrors_win (b : bevent) (e : event) : Prop :=
  b_time b = ev_time e /\ is_utf16 (ev_path e) (b_path b) /\ opt_rel is_utf16 (assoc_path e) (b_assoc b) /\
  b_effect b = ev_effect e /\ b_ptype b = ev_ptype e.
Definition js_mirrors_win (j : jsevent) (e : event) : Prop :=
  j_path j = ev_path e /\ j_assoc j = assoc_path e /\
  j_effect j = Some (effect_ts (ev_effect e)) /\ j_ptype j = Some (ptype_ts (ev_ptype e)) /\
  (Z.abs (j_time j - ev_time e) * 2 <= 2 ^ Z.max 0 (Z.log2 (Z.abs (ev_time e)) - 52))%Z.

(** ** From the view to the bindings *)
(** An event with the paths of the view. *)
Definition in_utf8 (v : cview) (e : event) : event :=
  match e with Ev _ f t tm a => Ev (v_path v) f t tm (match v_assoc v, a with Some q, Some (Ev _ f' t' tm' a') => Some (Ev q f' t' tm' a') | _, _ => None end) end.
Lemma in_utf8_mirrors v e : c_mirrors_win v e -> c_mirrors v (in_utf8 v e) /\ paths_ok valid_utf8 (in_utf8 v e) /\ ev_time (in_utf8 v e) = ev_time e /\ ev_effect (in_utf8 v e) = ev_effect e /\ ev_ptype (in_utf8 v e) = ev_ptype e.
Proof.
  destruct v as [vt vp va vf vy], e as [p f t tm a]. intros (M1 & (cs & Mu & _) & M3 & M4 & M5). cbn [v_time v_path v_assoc v_effect v_ptype ev_time ev_path ev_effect ev_ptype] in *.
  assert (A : assoc_path (in_utf8 (Build_cview vt vp va vf vy) (Ev p f t tm a)) = va).
  { unfold assoc_path, opt_rel in *. cbn in *. destruct va as [q|], a as [[p' f' t' tm' a']|]; try contradiction M3; reflexivity. }
  split; [|split; [|auto]].
  - unfold c_mirrors. rewrite A. cbn. auto.
  - split; [exists cs; exact Mu|]. rewrite A. intros q ->. unfold opt_rel in M3. destruct (assoc_path _); [|contradiction M3]. destruct M3 as (ds & Du & _). now exists ds.
Qed.
Lemma same_scalars bs us cs : win_text bs us -> is_utf8 bs cs -> is_utf16 us cs.
Proof.
  intros (ds & [Sd Ed] & U) [Sc Ec]. assert (E : ds = cs); [|now subst]. assert (D : decode (utf8 ds) = decode (utf8 cs)) by congruence. rewrite !decode_utf8 in D by assumption. congruence.
Qed.
Lemma mirrors_of_view v e b : c_mirrors_win v e -> mirrors b (in_utf8 v e) -> mirrors_win b e.
Proof.
  intros M H. destruct (in_utf8_mirrors _ _ M) as ((_ & Ep & Ea & _ & _) & _ & E1 & E2 & E3). destruct H as (H1 & H2 & H3 & H4 & H5). destruct M as (_ & W & Wa & _ & _).
  unfold mirrors_win. rewrite <- E1, <- E2, <- E3. split; [exact H1|]. split; [rewrite <- Ep in H2; now apply (same_scalars (v_path v))|]. split; [|auto].
  rewrite <- Ea in H3. unfold opt_rel in *. destruct (v_assoc v), (assoc_path e), (b_assoc b); try contradiction; try exact I. eapply same_scalars; eassumption.
Qed.
Lemma js_win lossy v e : c_mirrors_win v e -> js_mirrors_win (js_event lossy v) e.
Proof.
  intros (M1 & (cs & [Sc Uc] & [_ E]) & M3 & M4 & M5). unfold js_mirrors_win, js_event. cbn [j_path j_assoc j_effect j_ptype j_time].
  rewrite M1, M4, M5, key_effect, key_ptype, E, Uc. unfold js_str at 1. rewrite decode_utf8 by exact Sc.
  split; [reflexivity|]. split; [|split; [reflexivity|split; [reflexivity|apply to_double_near]]].
  unfold opt_rel in M3. destruct (v_assoc v) as [q|], (assoc_path e) as [u|]; try contradiction M3; [|reflexivity].
  destruct M3 as (ds & [Sd ->] & [_ ->]). cbn. unfold js_str. now rewrite decode_utf8.
Qed.

(** ** What was noted was changed by others *)
Lemma logged_ops e D F : we_start e = world_start D F -> forall tr c, In c (ww_log (state e tr)) -> exists tr', In c (we_ops e tr') /\ fine c.
Proof.
  intros S. induction tr as [|x tr IH] using rev_ind; intros c Hc; [unfold state in Hc; cbn in Hc; rewrite S in Hc; destruct Hc|].
  assert (H : In c (ww_log (at_call e tr)) -> exists tr', In c (we_ops e tr') /\ fine c).
  { clear Hc x. intros Hc. unfold at_call, happens in Hc.
    assert (G : forall l w, In c (ww_log (fold_left happen l w)) -> In c (ww_log w) \/ (In c l /\ fine c)).
    { clear. induction l as [|o l IHl]; intros w Hc; [now left|]. cbn [fold_left] in Hc. destruct (IHl _ Hc) as [H|[H H']]; [|right; split; [now right|exact H']].
      unfold happen in H. destruct (possible w o) eqn:P; [|now left]. cbn [ww_log] in H. destruct (ww_on w); [|now left].
      apply in_app_iff in H as [H|[<-|[]]]; [now left|]. right. split; [now left|]. now apply possible_fine in P. }
    destruct (G _ _ Hc) as [H|[H H']]; [now apply IH|]. exists tr. auto. }
  rewrite state_snoc in Hc. destruct x as [| | | | | | |[]|]; exact (H Hc).
Qed.
Lemma entry_some root n : n <> [] -> win_entry root n <> [].
Proof. intros H E. unfold win_entry in E. destruct (existsb _ _); apply app_eq_nil in E as [_ E]; [contradiction|discriminate E]. Qed.
Lemma fine_names c n : fine c -> In n (names_of c) -> n <> [].
Proof.
  unfold fine. intros H Hn ->. destruct c; cbn in *; decompose [or] Hn; try contradiction; subst; repeat match goal with H : Forall _ (_ :: _) |- _ => apply Forall_cons_iff in H as [? H] end;
    cbn in *; repeat match goal with H : _ /\ _ |- _ => destruct H end; discriminate.
Qed.
Lemma tells_paths root c ev : tells root c (shape_of ev) -> fine c -> (forall n, In n (names_of c) -> showable (win_entry root n)) ->
  paths_ok showable ev /\ assoc_path ev <> Some [].
Proof.
  intros T Fc H. destruct ev as [p f t tm a]. unfold paths_ok, assoc_path.
  destruct c as [d n|n|n|n n']; cbn [tells] in T; destruct T as (t1 & T); try destruct T as (t2 & T); cbn [shape_of] in T; cbn [ev_path ev_assoc].
  1-3: destruct a; [discriminate T|]; injection T as -> _ _; (split; [split; [apply H; now left|discriminate]|discriminate]).
  destruct a as [[p' f' t' tm' a']|]; [|discriminate T]. cbn in T. injection T as -> _ _ -> _ _ _. cbn [ev_path].
  split; [split; [apply H; now left|intros q [= <-]; apply H; right; now left]|].
  intros [= E]. revert E. apply entry_some. apply (fine_names _ n' Fc). right. now left.
Qed.

(** ** C140 *)
(** [wide]: WideCharToMultiByte; [lossy]: what V8 makes of bytes that are not UTF-8 (there are
    none).  At any point of any life of a watcher: the events about files ([evs]) tell of the
    changes noted so far, each once and in order (C102), and for each of them the C callback
    is called, with a view from which Rust, Python and Node make an event that says the same. *)
Theorem C140_windows_changes_reach_the_bindings :
  forall pl e D F re w wide lossy, we_start e = world_start D F -> reach pl (win_on e) re constructed w -> faithful wide ->
    (forall path tr c n, In (LWatch path) (log w) -> In c (we_ops e tr) -> In n (names_of c) -> showable (win_entry path n)) ->
    (Forall (fun ev => ev_ptype ev = PtWatcher) (received (log w)) /\ (forall p, ~ In (LWatch p) (log w)) /\ (forall v, ~ In (LClosed v true) (log w))) \/
    exists path fuel a b live evs die rest, let e' := at_path path e in
      In (LWatch path) (log w) /\ run e' fuel = a ++ b /\
      received (log w) = live :: evs ++ die /\ ev_ptype live = PtWatcher /\ Forall (fun ev => ev_ptype ev = PtWatcher) die /\
      Forall2 (tells path) (ww_log (state e' a)) (map shape_of evs ++ rest) /\
      (forall v, In (LClosed v true) (log w) -> b = [] /\ (ww_queue (state e' a) = [] -> rest = [])) /\
      Forall (fun ev => exists v, view_of_win wide ev = Ok (Some v) /\ c_mirrors_win v ev /\
        mirrors_win (rust_event v) ev /\ (exists p, py_event v = Some p /\ mirrors_win p ev) /\ js_mirrors_win (js_event lossy v) ev) evs.
Proof.
  intros pl e D F re w wide lossy S R W N'. destruct (C102_windows_a_watchers_life pl e D F re w S R) as [H|(path & fuel & a & b & H)]; [now left|right].
  cbv zeta in H. destruct H as (Hin & Er & live & evs & die & E & Hl & Hd & Es & (rest & T) & Hc).
  assert (X : Forall2 (tells path) (ww_log (state (at_path path e) a)) (map shape_of evs ++ (if existsb (fun x => match x with LClosed _ true => true | _ => false end) (log w) then match ww_queue (state (at_path path e) a) with [] => [] | _ => rest end else rest)) /\
    (forall v, In (LClosed v true) (log w) -> b = [] /\ (ww_queue (state (at_path path e) a) = [] -> (if existsb (fun x => match x with LClosed _ true => true | _ => false end) (log w) then match ww_queue (state (at_path path e) a) with [] => [] | _ => rest end else rest) = []))).
  { destruct (existsb _ (log w)) eqn:X.
    - split.
      + destruct (ww_queue _) eqn:Q; [|exact T]. apply existsb_exists in X as (x & Hx & X). destruct x as [| | | | | | | |]; try discriminate X. match goal with H : In (LClosed ?v ?b) _ |- _ => destruct b; [|discriminate X] end.
        apply in_split in Hx as (l1 & l2 & El). destruct (Hc _ _ _ El) as (_ & _ & _ & told & Et & Tt). rewrite app_nil_r in Et |- *. rewrite Et. exact Tt.
      + intros v Hv. apply in_split in Hv as (l1 & l2 & El). destruct (Hc _ _ _ El) as (Eb & _). split; [exact Eb|]. now intros ->.
    - split; [exact T|]. intros v Hv. exfalso. assert (Y : existsb (fun x => match x with LClosed _ true => true | _ => false end) (log w) = true) by (apply existsb_exists; exists (LClosed v true); auto).
      rewrite X in Y. discriminate Y. }
  destruct X as [X1 X2]. exists path, fuel, a, b, live, evs, die. eexists. cbv zeta. split; [exact Hin|]. split; [exact Er|]. split; [exact E|].
  split; [apply Hl|]. split.
  { destruct Hd as [->|(d & -> & [Hd|Hd])]; [constructor|constructor; [apply Hd|constructor]..]. }
  split; [exact X1|]. split; [exact X2|]. clear X1 X2.
  apply Forall_forall. intros ev Hev.
  assert (P : exists c, In c (ww_log (state (at_path path e) a)) /\ tells path c (shape_of ev)).
  { apply (in_map shape_of) in Hev. assert (Hi : In (shape_of ev) (map shape_of evs ++ rest)) by (apply in_app_iff; now left). clear - T Hi. revert T Hi. generalize (shape_of ev) as s.
    intros s T. induction T as [|x y l l' H _ IH]; intros Hi; [destruct Hi|]. destruct Hi as [<-|Hi]; [exists x; split; [now left|exact H]|]. destruct (IH Hi) as (c & Hc & Ht). exists c. split; [now right|exact Ht]. }
  destruct P as (c & Hcl & Tc). destruct (logged_ops (at_path path e) D F S a c Hcl) as (tr' & Ho & Fc).
  destruct (tells_paths path c ev Tc Fc (fun n => N' path tr' c n Hin Ho)) as [P1 P2].
  destruct (C48_windows_view_mirrors_partial wide ev W P1) as (v & Ev' & M). exists v. split; [exact Ev'|]. split; [exact M|].
  destruct (in_utf8_mirrors _ _ M) as (Mc & V & _). split; [eapply mirrors_of_view; [exact M|now apply rust_mirrors]|]. split; [|now apply js_win].
  assert (A : assoc_path (in_utf8 v ev) <> Some []).
  { intros A. destruct Mc as (_ & _ & Ea & _). rewrite A in Ea. destruct M as (_ & _ & Ma & _). rewrite Ea in Ma. unfold opt_rel in Ma. destruct (assoc_path ev) as [u|] eqn:Eu; [|contradiction Ma].
    destruct Ma as (ds & [Sd Ed] & [_ Eu']). assert (ds = []) by (destruct ds; [reflexivity|]; cbn in Ed; unfold utf8_char in Ed; repeat destruct (_ <? _)%N in Ed; discriminate Ed). subst ds. apply P2. now rewrite Eu'. }
  destruct (py_mirrors v _ Mc V A) as (p & Ep & Mp). exists p. split; [exact Ep|]. eapply mirrors_of_view; eassumption.
Qed.
Print Assumptions C140_windows_changes_reach_the_bindings.

(** Names of é and a, of a character outside the basic plane (two units) and of plain letters;
    the life is over. *)
Definition odd : text := [0xE9; 97]%N.
Definition pair : text := [0xD83D; 0xDE00]%N.
Definition odd_day : wenv := scripted [lit "dir"] [] [100]%nat [[WMake false odd; WRename odd pair; WRemove (lit "dir")]] 4.
Lemma ascii16 t : forallb (fun b => (1 <=? b) && (b <? 128))%N t = true -> (length t < 4000)%nat -> showable t.
Proof.
  intros H L. rewrite forallb_forall in H. exists t.
  assert (U : utf8 t = t /\ utf16 t = t /\ Forall scalar t).
  { clear L. induction t as [|b t IH]; [auto|]. destruct IH as (U1 & U2 & U3); [intros x Hx; apply H; now right|]. assert (Hb := H b (or_introl eq_refl)).
    cbn [utf8 utf16 flat_map]. fold (utf8 t). fold (utf16 t). rewrite U1, U2. unfold utf8_char, utf16_char. replace (b <? 0x80)%N with true by lia. replace (b <? 0x10000)%N with true by lia.
    split; [reflexivity|]. split; [reflexivity|]. constructor; [left; lia|exact U3]. }
  destruct U as (U1 & U2 & U3). split; [split; [exact U3|now rewrite U2]|]. split; [intros Hz; apply H in Hz; discriminate Hz|]. rewrite U1. lia.
Qed.
Lemma odd_day_names path tr c n : path = lit "C:\w" -> In c (we_ops odd_day tr) -> In n (names_of c) -> showable (win_entry path n).
Proof.
  intros -> Hc Hn. assert (K : n = odd \/ n = pair \/ n = lit "dir").
  { cbn [odd_day scripted we_ops] in Hc. destruct (rev tr) as [|[] l]; try destruct Hc. destruct (count is_read l) as [|[|i]]; cbn in Hc; try contradiction.
    decompose [or] Hc; subst; try contradiction; cbn in Hn; decompose [or] Hn; subst; auto; contradiction. }
  destruct K as [-> | [-> | ->]].
  - exists [67; 58; 92; 119; 92; 0xE9; 97]%N. split; [split; [repeat apply Forall_cons; try apply Forall_nil; unfold scalar; lia|reflexivity]|]. split; [cbn; intuition discriminate|reflexivity].
  - exists [67; 58; 92; 119; 92; 0x1F600]%N. split; [split; [|reflexivity]|split; [cbn; intuition discriminate|reflexivity]].
    repeat apply Forall_cons; try apply Forall_nil; unfold scalar; lia.
  - apply ascii16; [reflexivity|]. apply Nat.ltb_lt. vm_compute. reflexivity.
Qed.
Example C140_example : exists w, we_start odd_day = world_start [lit "dir"] [] /\ reach (Linux true) (win_on odd_day) false constructed w /\ faithful wide_of /\
  (forall path tr c n, In (LWatch path) (log w) -> In c (we_ops odd_day tr) -> In n (names_of c) -> showable (win_entry path n)) /\
  (exists v, In (LClosed v true) (log w)) /\
  map (fun ev => match view_of_win wide_of ev with Ok (Some v) => Some (let r := rust_event v in (b_path r, b_assoc r, b_effect r)) | _ => None end) (received (log w)) =
    [Some (lit "s/self/live@C:\w", None, EtCreate); Some ([67; 58; 92; 119; 92; 0xE9; 97]%N, None, EtCreate);
     Some ([67; 58; 92; 119; 92; 0xE9; 97]%N, Some [67; 58; 92; 119; 92; 0x1F600]%N, EtRename); Some (lit "C:\w\dir", None, EtDestroy); Some (lit "s/self/die@C:\w", None, EtDestroy)].
Proof.
  assert (R := win_on_day odd_day 9 ltac:(vm_compute; reflexivity)). set (o := run (at_path (lit "C:\w") odd_day) 9) in R.
  pose proof (full_life true _ false _ _ R) as H. eexists. split; [reflexivity|]. split; [exact H|]. split; [exact wide_of_faithful|]. cbn [log]. unfold full_log. split; [|split].
  - intros path tr c n Hp. apply odd_day_names. clear - Hp. repeat (rewrite ?in_app_iff in Hp; cbn [In] in Hp).
    assert (Hx : forall l, ~ In (LWatch path) (acts_log (map win_act l))).
    { intros l. induction l as [|x l IH]; [intros []|]. unfold acts_log in *. cbn [map concat]. rewrite in_app_iff. intros [Hx|Hx]; [|now apply IH].
      destruct x as [| | | | | | | |[]]; cbn in Hx; decompose [or] Hx; (discriminate || contradiction). }
    specialize (Hx o). clearbody o. decompose [or] Hp; try discriminate; try contradiction. congruence.
  - clear H R. clearbody o. exists released. apply in_app_iff. right. apply in_app_iff. right. right. now left.
  - clear H R. vm_compute. reflexivity.
Qed.

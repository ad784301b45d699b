(** Theorems C144: the command line program while it watches (Linux, without
    privileges): src/wtr/watcher/main.cpp:92-122 on class watch, the adapter, the kernel
    and a filesystem that others change.  Statements use CliModel, CliLifeSpec and the
    whole of C82 and C85. *)
From Verif Require Import Base EventModel EventSpec EventFacts Sys BindModel BindSpec BindLife.
From Verif Require Import LinuxWatch CliModel CliLifeSpec Names InotifySpec KernelSpec KernelFacts KernelRun SemabinModel WatchModel WatchSpec WatchFacts WatchExamples PropsEvent PropsCli PropsWatch PropsKernel PropsWhole PropsChain.
Import EventSpec.

(** ** The lines *)
Lemma lines_from_app a : forall cur t, ~ In 10%N a -> lines_from cur (a ++ t) = lines_from (cur ++ a) t.
Proof.
  induction a as [|c a IH]; intros cur t H; [now rewrite app_nil_r|]. cbn [app lines_from]. destruct (N.eqb_spec c 10) as [->|Hc]; [exfalso; apply H; now left|].
  rewrite IH by (intros Hi; apply H; now right). now rewrite <- app_assoc.
Qed.
Definition newlines (t : text) : nat := length (filter (fun c => c =? 10)%N t).
Lemma newlines_app a b : newlines (a ++ b) = (newlines a + newlines b)%nat.
Proof. unfold newlines. now rewrite filter_app, app_length. Qed.
Lemma lines_count t : forall cur, length (lines_from cur t) = newlines t.
Proof.
  induction t as [|c t IH]; intros cur; [reflexivity|]. cbn [lines_from]. unfold newlines in *. cbn [filter]. destruct (c =? 10)%N; cbn [length]; now rewrite IH.
Qed.
Lemma newlines_none t : newlines t = 0%nat <-> ~ In 10%N t.
Proof.
  unfold newlines. split.
  - intros H Hi. assert (Hf : In 10%N (filter (fun c => c =? 10)%N t)) by (apply filter_In; auto). destruct (filter _ t); [destruct Hf|discriminate].
  - intros H. destruct (filter _ t) as [|c l] eqn:E; [reflexivity|]. exfalso. apply H.
    assert (Hc : In c (filter (fun c => c =? 10)%N t)) by (rewrite E; now left). apply filter_In in Hc as [Hc Hn]. apply N.eqb_eq in Hn. now subst.
Qed.
Lemma digits_no_newline f : forall n, ~ In 10%N (digits_rev f n).
Proof.
  induction f as [|f IH]; intros n; cbn [digits_rev]; [intros []|].
  intros [H|H]; [lia|]. destruct (n / 10 =? 0)%N; [destruct H|]. now apply IH in H.
Qed.
Lemma number_no_newline z : ~ In 10%N (num_to_str z).
Proof.
  assert (D : forall n, ~ In 10%N (chars_of_N n)) by (intros n H; unfold chars_of_N in H; apply in_rev in H; now apply digits_no_newline in H).
  unfold num_to_str. destruct (Nat.ltb _ _); [intros []|]. rewrite in_app_iff. intros [H|H]; [|apply repeat_spec in H; discriminate].
  unfold chars_of_Z in H. destruct (z <? 0)%Z; [destruct H as [H|H]; [discriminate|]|]; now apply D in H.
Qed.
Lemma json_newlines : forall ev, newlines (cli_json ev) = 0%nat <-> one_line ev.
Proof.
  fix IH 1. intros [p f t tm a]. cbn [cli_json one_line]. unfold quoted. rewrite !newlines_app.
  replace (newlines (num_to_str tm)) with 0%nat by (symmetry; apply newlines_none, number_no_newline).
  replace (newlines (ptype_name t)) with 0%nat by (now destruct t).
  replace (newlines (effect_name f)) with 0%nat by (now destruct f).
  rewrite <- (newlines_none p).
  assert (A : newlines (match a with Some b => cli_json b | None => lit "null" end) = 0%nat <-> match a with Some b => one_line b | None => True end).
  { destruct a as [b|]; [apply IH|]. split; [auto|reflexivity]. }
  rewrite <- A.
  repeat match goal with |- context [newlines (lit ?s)] => let v := eval vm_compute in (newlines (lit s)) in change (newlines (lit s)) with v end.
  clear. lia.
Qed.
Lemma output_lines l : Forall one_line (received l) -> lines (cli_output l) = map cli_json (received l).
Proof.
  induction l as [|x l IH]; intros H; [reflexivity|]. destruct x; cbn [received] in H |- *; try exact (IH H).
  apply Forall_cons_iff in H as [H1 H2]. unfold lines, cli_output in *. cbn [flat_map map]. rewrite <- app_assoc.
  rewrite lines_from_app by (apply newlines_none, json_newlines, H1). cbn [app lines_from N.eqb Pos.eqb]. f_equal. exact (IH H2).
Qed.
Lemma output_newlines l : newlines (cli_output l) = list_sum (map (fun ev => S (newlines (cli_json ev))) (received l)).
Proof.
  induction l as [|x l IH]; [reflexivity|]. destruct x; cbn [received]; try exact IH.
  unfold cli_output in *. cbn [flat_map map list_sum fold_right]. rewrite !newlines_app, IH. cbn. unfold list_sum. lia.
Qed.
(** One line for each event, if and only if no path has a newline in it. *)
Theorem C144_one_line_per_event_when :
  forall l, length (lines (cli_output l)) = length (received l) <-> Forall one_line (received l).
Proof.
  intros l. unfold lines. rewrite lines_count, output_newlines.
  assert (G : forall evs, (length evs <= list_sum (map (fun ev => S (newlines (cli_json ev))) evs))%nat /\
                          (list_sum (map (fun ev => S (newlines (cli_json ev))) evs) = length evs <-> Forall one_line evs)); [|apply G].
  clear l. induction evs as [|ev evs [IH1 IH2]]; [split; [apply Nat.le_refl|split; [constructor|reflexivity]]|].
  cbn [map list_sum fold_right length]. fold (list_sum (map (fun ev => S (newlines (cli_json ev))) evs)). split; [lia|].
  rewrite Forall_cons_iff, <- IH2, <- json_newlines. lia.
Qed.
Print Assumptions C144_one_line_per_event_when.

(** ** The paths in the lines *)
Lemma plain_app a b : plain (a ++ b) = plain a && plain b.
Proof. unfold plain. apply forallb_app. Qed.
Lemma plain_entry p n : plain p = true -> plain n = true -> plain (InotifySpec.entry p n) = true.
Proof.
  intros P N. unfold InotifySpec.entry. destruct p; [exact N|]. destruct (_ =? _)%N; rewrite !plain_app, P, N; reflexivity.
Qed.
Notation plain_shape := (good_shape (fun p => plain p = true)).
Lemma reports_plain ev c : reports ev c -> plain_shape c -> plain_shape ev.
Proof. intros [E|(p & q & t & E1 & [E|E])] P; subst; cbn in *; tauto. Qed.
(** A Linux event has at most one level of association. *)
Lemma shape_plain : forall ev, plain_shape (shape_of ev) -> plain_event ev.
Proof.
  fix IH 1. intros [p f t tm [b|]]; cbn [shape_of good_shape].
  - intros [H1 H2]. constructor; [exact H1|apply IH, H2].
  - intros [H1 _]. now constructor.
Qed.
Lemma plain_one_line : forall ev, plain_event ev -> one_line ev.
Proof.
  assert (N : forall p, plain p = true -> ~ In 10%N p) by (intros p P H; unfold plain in P; rewrite forallb_forall in P; apply P in H; discriminate).
  fix IH 2. intros ev [p f t tm P|p f t tm a P A]; cbn; split; auto.
Qed.

(** ** What the lines tell *)
(** At any point of any life of the program's watcher, on a filesystem whose directories
    and names a JSON string can hold, with clocks between 2001 and 2262 and with no
    message of the watcher about a path that is not plain: each line of the output is
    JSON; together they are the events the callback received, in order; and those about
    files tell of the changes so far in watched directories, each once and in order
    ([tells], as for the bindings in C85). *)
Theorem C144_lines_tell_the_changes_partial :
  forall blk e il D F re w, e_start e = kern_start D F -> Forall (fun p => plain p = true) D -> unprivileged e ->
    (forall tr o, In o (e_ops e tr) -> plain_names o) ->
    reach (Linux blk) (watcher_on e il) re constructed w ->
    Forall modern_event (received (log w)) ->
    (forall ev, In ev (received (log w)) -> ev_ptype ev = PtWatcher -> plain_event ev) ->
    map read_json (lines (cli_output (log w))) = map (fun ev => Some (event_as_cli_json ev)) (received (log w)) /\
    tells e il w (about_files (received (log w))).
Proof.
  intros blk e il D F re w S P U N R M W.
  set (good := fun p => plain p = true).
  assert (P0 : qinv good (e_start e)) by (rewrite S; split; [exact P|constructor]).
  assert (N' : forall tr o, In o (e_ops e tr) -> Forall good (names_of o)).
  { intros tr o Ho. specialize (N _ _ Ho). destruct o; cbn in N |- *; repeat constructor; tauto. }
  assert (A : Forall plain_event (received (log w))).
  { apply Forall_forall. intros ev Hev. destruct (match ev_ptype ev with PtWatcher => true | _ => false end) eqn:T; [apply W; [exact Hev|]; now destruct (ev_ptype ev)|].
    assert (Ha : In ev (about_files (received (log w)))) by (apply filter_In; split; [exact Hev|]; now destruct (ev_ptype ev)).
    apply shape_plain.
    destruct (C82_a_watchers_life blk e il D F re w S U R) as [(B & _)|(path & fuel & a & b & _ & _ & _ & (rest & To) & _)].
    - rewrite <- files_shapes in B. destruct (about_files _); [destruct Ha|discriminate].
    - assert (Hin : In (shape_of ev) (fs_events (received (log w)) ++ rest)) by (apply in_app_iff; left; rewrite <- files_shapes; now apply in_map).
      destruct (told_reports _ _ To _ Hin) as (c & Hc & Hr). apply (reports_plain _ _ Hr).
      pose proof (qinv_owed good plain_entry e N' P0 a) as Q. rewrite Forall_forall in Q. now apply Q. }
  split.
  - rewrite output_lines by (eapply Forall_impl; [|exact A]; apply plain_one_line). rewrite map_map. apply map_ext_in. intros ev Hev.
    rewrite Forall_forall in A, M. apply C17_cli_json_is_faithful_partial; auto.
  - exact (chain_tells blk e il D F re w S U R).
Qed.
Print Assumptions C144_lines_tell_the_changes_partial.

(** ** The exit code *)
Lemma closes_app a b : cli_closes (a ++ b) = cli_closes a ++ cli_closes b.
Proof. unfold cli_closes. apply flat_map_app. Qed.
Lemma first_close l v b more : cli_closes l = (v, b) :: more -> exists l1 l2, l = l1 ++ LClosed v b :: l2 /\ cli_closes l1 = [].
Proof.
  induction l as [|x l IH]; [discriminate|]. intros E.
  destruct x; cbn in E; try (destruct (IH E) as (l1 & l2 & -> & H); eexists (_ :: l1), l2; split; [reflexivity|exact H]).
  injection E as -> -> _. exists [], l. auto.
Qed.
Definition gi (w : world) : Prop :=
  (match ow w with OFuture | OGone => cli_closes (log w) <> [] | _ => True end) /\
  forall l1 l2, log w = l1 ++ LGone :: l2 -> cli_closes l1 <> [].
Lemma no_gone_split (l l' l1 l2 : list WatchModel.entry) : ~ In LGone l' -> l ++ l' = l1 ++ LGone :: l2 -> exists l3, l = l1 ++ LGone :: l3.
Proof.
  revert l1. induction l as [|x l IH]; intros l1 N E; cbn in E.
  - exfalso. apply N. rewrite E. apply in_app_iff. right. now left.
  - destruct l1 as [|y l1]; cbn in E; injection E as -> E; [now exists l|]. destruct (IH _ N E) as (l3 & ->). now exists l3.
Qed.
Lemma gi_reach pl runs re w : reach pl runs re constructed w -> gi w.
Proof.
  intros R. remember constructed as w0 eqn:E0. induction R as [w|w0 w1 w2 R IH S]; [subst w|].
  - split; [exact Coq.Init.Logic.I|]. intros l1 l2 E. destruct l1; discriminate.
  - specialize (IH E0). destruct IH as [A B].
    assert (K : forall l l', (forall l1 l2, l = l1 ++ LGone :: l2 -> cli_closes l1 <> []) -> ~ In LGone l' ->
               forall l1 l2, l ++ l' = l1 ++ LGone :: l2 -> cli_closes l1 <> []).
    { intros l l' H N l1 l2 E. destruct (no_gone_split _ _ _ _ N E) as (l3 & El). eapply H. exact El. }
    inversion S as [m k o vd l m' k' l' T|m k o vd l m' o' vd' l' T]; subst w1 w2; cbn [ow log] in *.
    + split; cbn [ow log]; [destruct o; auto; rewrite closes_app; intros H; apply app_eq_nil in H as [H _]; now apply A|].
      apply K; [exact B|]. inversion T; subst; cbn; intuition discriminate.
    + split; cbn [ow log].
      * destruct T; auto; rewrite ?app_nil_r; try exact A; rewrite closes_app; cbn; intros X; apply app_eq_nil in X as [X X']; try discriminate; now apply A.
      * destruct (match l' with [LGone] => true | _ => false end) eqn:G.
        -- destruct l' as [|[] [|? ?]]; try discriminate. inversion T; subst. intros l1 l2 E.
           destruct (snoc_split _ _ _ _ _ E) as [(l3 & _ & El)|(_ & _ & ->)]; [eapply B; exact El|exact A].
        -- apply K; [exact B|]. inversion T; subst; cbn; try (intuition discriminate); discriminate.
Qed.
Lemma end_text t abs : exists rest, cli_json (Ev (lit "s/self/die@" ++ abs) EtDestroy PtWatcher t None) = lit "{""path_type"":""watcher"",""path_name"":""s" ++ rest.
Proof. eexists. cbn [cli_json]. unfold quoted. reflexivity. Qed.

(** What the events are when close() has answered: unless the request could not be made,
    they end with the message that the watcher ended, well if and only if the answer was
    true. *)
Lemma ends_how : forall pl runs w v b more, adapter_ok runs -> reach pl runs false constructed w -> cli_closes (log w) = (v, b) :: more ->
  if match v with error => true | _ => false end then b = false
  else exists abs e1 mid e2, received (log w) = e1 :: mid ++ [e2] /\ (if b then die_ok abs e2 else die_bad abs e2).
Proof.
  intros pl runs w v b more A R C.
  pose proof (gi_reach _ _ _ _ R) as [_ G]. pose proof (ji_reach _ _ _ _ R) as J.
  destruct (first_close _ _ _ _ C) as (l1 & l2 & E & E1).
  destruct (match v with error => true | _ => false end) eqn:V; [destruct v; try discriminate; eapply (j_err _ J); exact E|].
  assert (Hv : v <> error) by (intros ->; discriminate). clear V.
  assert (N1 : forall v' b', ~ In (LClosed v' b') l1).
  { intros v' b' H. apply in_split in H as (x & y & ->). rewrite closes_app in E1. cbn in E1. destruct (cli_closes x); discriminate. }
  assert (N2 : ~ In LGone l1).
  { intros H. apply in_split in H as (x & y & ->). rewrite <- app_assoc in E. cbn in E. apply (G _ _ E). rewrite closes_app in E1. now apply app_eq_nil in E1 as [E1 _]. }
  assert (Z : b = true <-> (exists abs e, In (LCb e) l1 /\ live_ok abs e) /\ (exists abs e, In (LCb e) l1 /\ die_ok abs e)).
  { eapply C03_close_agrees; eauto. intros v' b' H. now apply N1 in H. }
  assert (Q : wt w = WDone b).
  { eapply (j_first _ J); [exact E|exact Hv|]. destruct (any_good l1) eqn:X; [|reflexivity]. exfalso.
    apply existsb_exists in X as (x & Hx & X). destruct x; try discriminate; [now apply N1 in Hx|contradiction]. }
  assert (Re : received l2 = []) by (eapply (j_after _ J); [exact E|]; destruct v; auto; congruence).
  assert (Rl : received (log w) = received l1) by (rewrite E, received_app; cbn [received]; now rewrite Re, app_nil_r).
  assert (I1 : forall l ev, In (LCb ev) l -> In ev (received l)).
  { clear. intros l ev H. apply in_split in H as (x & y & ->). rewrite !received_app. cbn [received]. rewrite !in_app_iff. right. now left. }
  assert (Ra : forall l ev, In ev (received l) -> In (LCb ev) l).
  { clear. induction l as [|x l IH]; intros ev H; [destruct H|]. destruct x; cbn in H; try (right; now apply IH). destruct H as [->|H]; [now left|right; now apply IH]. }
  destruct (C01_live_first_die_last _ _ _ _ A R) as [[_ X]|[(? & ? & ? & _ & _ & _ & X)|(abs' & e1 & mid & e2 & Er & H1 & H2 & H3)]];
    try (exfalso; apply X; eexists; apply Q).
  assert (Hd : In e2 (received (log w))) by (rewrite Er; right; apply in_app_iff; right; now left).
  exists abs', e1, mid, e2. split; [exact Er|]. destruct b.
  - destruct (proj1 Z eq_refl) as [_ (abs & d & Hd' & D)]. apply I1 in Hd'. rewrite <- Rl, Er in Hd'. pose proof D as (D1 & D2 & D3 & D4).
    assert (Ed : d = e2).
    { cbn in Hd'. rewrite in_app_iff in Hd'. cbn in Hd'. destruct Hd' as [->|[Hd'|[->|[]]]]; [| |reflexivity].
      - exfalso. destruct H1 as [(_ & X & _)|(_ & X & _)]; congruence.
      - exfalso. rewrite Forall_forall in H2. apply (H2 _ Hd') in D3 as [_ D3]. contradiction. }
    subst d. destruct H3 as [H3|(X & _)]; [exact H3|]. rewrite D1 in X. discriminate X.
  - destruct H3 as [D|D]; [exfalso|exact D].
    assert (F : false = true); [|discriminate F]. apply Z. split; [|exists abs', e2; split; [apply Ra; now rewrite <- Rl|exact D]].
    destruct (C02_live_message _ _ _ _ _ _ A R Er) as [(abs2 & X & _)|(abs2 & _ & _ & [X|(e' & X & X')] & _)].
    + exists abs2, e1. split; [apply Ra; rewrite <- Rl, Er; now left|exact X].
    + destruct mid; discriminate.
    + exfalso. assert (e' = e2) by (destruct mid as [|? [|? ?]]; cbn in X; injection X; congruence). subst e'.
      destruct D as (D1 & _), X' as (D2 & _). rewrite D1 in D2. discriminate D2.
Qed.
(** When the program ends after watching, having called close() with the answer [b]
    ([v]: whether the request to stop could be made), its exit code is 0 if and only if
    the request could be made and the last line tells that the watcher ended well. *)
Theorem C144_exit_code :
  forall pl runs w os argv p time v b more code, adapter_ok runs -> reach pl runs false constructed w ->
    cli_closes (log w) = (v, b) :: more -> cli_main os b argv = Ok (Watched p time, code) -> Forall one_line (received (log w)) ->
    (code = 0%Z <-> v <> error /\ exists abs t before,
       lines (cli_output (log w)) = before ++ [cli_json (Ev (lit "s/self/die@" ++ abs) EtDestroy PtWatcher t None)]).
Proof.
  intros pl runs w os argv p time v b more code A R C M L.
  rewrite (C56_exit_code _ _ _ _ _ M), (output_lines _ L). pose proof (ends_how _ _ _ _ _ _ A R C) as H.
  destruct (match v with error => true | _ => false end) eqn:V; [destruct v; try discriminate|].
  - subst b. split; [intros [[=]|[_ [=]]]|intros [X _]; contradiction].
  - assert (Hv : v <> error) by (intros ->; discriminate). destruct H as (abs & e1 & mid & e2 & Er & D). rewrite Er, app_comm_cons, map_app. cbn [map].
    destruct e2 as [q f ty tm a]. destruct b.
    + split; [|intros _; right; eauto]. intros _. split; [exact Hv|]. destruct D as (D1 & D2 & D3 & D4). cbn in D1, D2, D3, D4. subst. now eexists _, _, _.
    + split; [intros [[=]|[_ [=]]]|]. intros [_ (abs' & t & before & El)]. exfalso. apply app_inj_tail in El as [_ El].
      destruct D as (D1 & D2 & D3 & D4). cbn [ev_path ev_effect ev_ptype ev_assoc] in *. subst.
      destruct (end_text t abs') as (rest & Et). rewrite Et in El. cbn [cli_json] in El. unfold quoted in El. discriminate El.
Qed.
Print Assumptions C144_exit_code.

(** ** Examples *)
(** The systems of C83, with a clock of our time. *)
Definition clocked_base (b : os) : os := {|
  os_now := fun tr => (1700000000000000000 + os_now b tr)%Z; os_geteuid := os_geteuid b; os_realpath := os_realpath b; os_is_dir := os_is_dir b; os_opendir := os_opendir b;
  os_inotify_init := os_inotify_init b; os_add_watch := os_add_watch b; os_fan_init := os_fan_init b; os_fan_mark := os_fan_mark b;
  os_epoll_create := os_epoll_create b; os_epoll_ctl := os_epoll_ctl b; os_epoll_wait := os_epoll_wait b;
  os_read := os_read b; os_open_handle := os_open_handle b; os_readlink := os_readlink b |}.
Definition clocked (ws : list (list op)) : env :=
  let e := true_env PropsKernel.w_dirs [] 1 ws in
  {| e_fd := e_fd e; e_start := e_start e; e_ops := e_ops e; e_deny := e_deny e; e_want := e_want e; e_base := fun k => clocked_base (e_base e k) |}.
(** The whole of main: watched, closed, destroyed. *)
Definition whole_log (abs : text) (st : list act) (t t' : Z) : list WatchModel.entry :=
  [LLook (Some abs) (Some true); LCheck pending; LRequest; LReleased released; LCb (live_event true abs t); LWatch abs] ++
  acts_log st ++ [LCb (die_event true abs t'); LClosed released true; LRequest; LReleased released; LClosed released false; LGone].
Lemma program_life b (runs : text -> list act -> option bool -> Prop) re abs st t t' : runs abs st (Some true) ->
  reach (Linux b) runs re constructed (World (Sem released 1 1) (WDone true) OGone false (whole_log abs st t t')).
Proof.
  intros Hr. assert (H : reach (Linux b) runs re constructed constructed) by constructor. unfold constructed at 2 in H.
  eapply reach_w in H; [|apply (W_good _ _ _ _ _ abs)].
  eapply reach_w in H; [|apply W_check, L_q_pending; reflexivity].
  eapply reach_w in H; [|apply W_checked].
  eapply reach_o in H; [|apply (O_begin _ _ _ _ false)].
  eapply reach_o in H; [|apply O_release, L_r_first; discriminate].
  eapply reach_o in H; [|apply O_release, L_r_write].
  eapply reach_o in H; [|apply O_release, L_r_store].
  eapply reach_o in H; [|apply O_wait; discriminate].
  eapply reach_w in H; [|apply (W_live _ _ _ _ _ _ _ t)].
  eapply reach_w in H; [|apply W_return].
  eapply reach_w in H; [|apply W_adapt, Hr].
  apply run_through in H; [|cbn; lia].
  eapply reach_w in H; [|apply W_ended].
  eapply reach_w in H; [|apply (W_die _ _ _ _ _ _ _ _ t')].
  eapply reach_w in H; [|apply W_return].
  eapply reach_o in H; [|apply O_get; reflexivity].
  eapply reach_o in H; [|apply O_closed].
  eapply reach_o in H; [|apply (O_begin _ _ _ _ true)].
  eapply reach_o in H; [|apply O_release, L_r_again; reflexivity].
  eapply reach_o in H; [|apply O_false; now right].
  eapply reach_o in H; [|apply O_dtor].
  eapply reach_o in H; [|apply O_future; now left].
  unfold whole_log. cbn in *. rewrite ?app_nil_r in H. rewrite <- !app_assoc in H. exact H.
Qed.
Lemma program_life_on e fuel path t t' : snd (linux_watch (system e) fuel path 5 []) = Ok true ->
  let l := whole_log path (map (act_of 5) (run e fuel path 5)) t t' in
  reach (Linux true) (watcher_on e 5) false constructed (World (Sem released 1 1) (WDone true) OGone false l) /\
  received l = live_event true path t :: callbacks (run e fuel path 5) ++ [die_event true path t'].
Proof.
  intros H l.
  assert (R : watcher_on e 5 path (map (act_of 5) (run e fuel path 5)) (Some true)).
  { exists fuel, (run e fuel path 5), (Ok true). split; [|split; [reflexivity|eauto]]. unfold run. destruct (linux_watch _ _ _ _ _) as [o' r]. cbn in H. now subst r. }
  split; [exact (program_life true _ false _ _ t t' R)|]. unfold l, whole_log. rewrite !received_app, received_acts. reflexivity.
Qed.
Lemma output_app a b : cli_output (a ++ b) = cli_output a ++ cli_output b.
Proof. unfold cli_output. apply flat_map_app. Qed.
Lemma output_received l : cli_output l = flat_map (fun ev => cli_json ev ++ [10]%N) (received l).
Proof. induction l as [|x l IH]; [reflexivity|]. destruct x; cbn [received]; try exact IH. unfold cli_output in *. cbn [flat_map]. now rewrite IH. Qed.

(** A file is made and renamed, and the program is stopped: four lines. *)
Definition now : Z := 1700000000000000000.
Definition calm : env := clocked [[Make false (lit "/w") (lit "a"); Rename (lit "/w") (lit "a") (lit "b c")]].
Lemma calm_ends : snd (linux_watch (system calm) 20 (lit "/w") 5 []) = Ok true.
Proof. vm_compute. reflexivity. Qed.
Lemma calm_calls : callbacks (run calm 20 (lit "/w") 5) =
  [Ev (lit "/w/a") EtCreate PtFile (now + 19) None; Ev (lit "/w/a") EtRename PtFile (now + 23) (Some (Ev (lit "/w/b c") EtRename PtFile (now + 22) None))].
Proof. vm_compute. reflexivity. Qed.
Ltac modern := constructor; unfold modern_time, now; lia.
Example C144_example : exists w,
  e_start calm = kern_start PropsKernel.w_dirs [] /\ Forall (fun p => plain p = true) PropsKernel.w_dirs /\ unprivileged calm /\
  (forall tr o, In o (e_ops calm tr) -> plain_names o) /\
  reach (Linux true) (watcher_on calm 5) false constructed w /\ ow w = OGone /\ Forall modern_event (received (log w)) /\
  (forall ev, In ev (received (log w)) -> ev_ptype ev = PtWatcher -> plain_event ev) /\
  cli_closes (log w) = [(released, true); (released, false)] /\
  lines (cli_output (log w)) =
    [lit "{""path_type"":""watcher"",""path_name"":""s/self/live@/w"",""effect_type"":""create"",""effect_time"":1700000000000000001,""associated"":null}";
     lit "{""path_type"":""file"",""path_name"":""/w/a"",""effect_type"":""create"",""effect_time"":1700000000000000019,""associated"":null}";
     lit "{""path_type"":""file"",""path_name"":""/w/a"",""effect_type"":""rename"",""effect_time"":1700000000000000023,""associated"":" ++
     lit "{""path_type"":""file"",""path_name"":""/w/b c"",""effect_type"":""rename"",""effect_time"":1700000000000000022,""associated"":null}}";
     lit "{""path_type"":""watcher"",""path_name"":""s/self/die@/w"",""effect_type"":""destroy"",""effect_time"":1700000000000000099,""associated"":null}"].
Proof.
  destruct (program_life_on calm 20 (lit "/w") (now + 1) (now + 99) calm_ends) as [R Er]. rewrite calm_calls in Er.
  assert (Ec : cli_closes (whole_log (lit "/w") (map (act_of 5) (run calm 20 (lit "/w") 5)) (now + 1) (now + 99)) = [(released, true); (released, false)]).
  { unfold whole_log. rewrite !closes_app. replace (cli_closes (acts_log _)) with (@nil (sst * bool)); [reflexivity|].
    clear. induction (run calm 20 (lit "/w") 5) as [|x o IH]; [reflexivity|]. unfold acts_log in *. cbn [map concat]. rewrite closes_app, <- IH.
    destruct x; try reflexivity. cbn. destruct r as [l|]; [destruct (existsb _ l)|]; reflexivity. }
  revert R Er Ec. generalize (whole_log (lit "/w") (map (act_of 5) (run calm 20 (lit "/w") 5)) (now + 1) (now + 99)). intros l R Er Ec.
  eexists. split; [reflexivity|]. split; [repeat constructor|]. split; [intros k tr; discriminate|]. split; [|split; [exact R|]].
  { intros tr o Ho. unfold calm, clocked, true_env, scripted_env in Ho. cbn [e_ops] in Ho. destruct (ExampleOs.count _ _) as [|i]; [destruct Ho|].
    destruct (rev tr) as [|[] ?]; try destruct Ho; destruct i as [|[|i]]; cbn in Ho; try contradiction.
    all: decompose [or] Ho; subst; try contradiction; cbn; auto. }
  split; [reflexivity|]. cbn [log]. rewrite Er. cbn [app]. split; [|split; [|split; [exact Ec|]]].
  - apply Forall_cons; [modern|]. apply Forall_cons; [modern|]. apply Forall_cons; [constructor; [unfold modern_time, now; lia|modern]|]. apply Forall_cons; [modern|constructor].
  - intros ev Hev T. cbn [In] in Hev. decompose [or] Hev; subst; try discriminate; try contradiction; constructor; reflexivity.
  - rewrite output_received, Er. vm_compute. reflexivity.
Qed.

(** Every name: not so.  A file whose name has a quotation mark gives a line that is not
    JSON, one whose name has a newline gives two lines. *)
Definition odd_name (n : text) : env := clocked [[Make false (lit "/w") n]].
Theorem C144_lines_tell_the_changes_refuted :
  exists e D w1 e' w2, e_start e = kern_start D [] /\ unprivileged e /\ reach (Linux true) (watcher_on e 5) false constructed w1 /\ Forall modern_event (received (log w1)) /\
    length (received (log w1)) = 3%nat /\ map read_json (lines (cli_output (log w1))) <> map (fun ev => Some (event_as_cli_json ev)) (received (log w1)) /\
    (exists line, nth_error (lines (cli_output (log w1))) 1 = Some line /\ read_json line = None) /\
    e_start e' = kern_start D [] /\ unprivileged e' /\ reach (Linux true) (watcher_on e' 5) false constructed w2 /\ Forall modern_event (received (log w2)) /\
    length (received (log w2)) = 3%nat /\ length (lines (cli_output (log w2))) = 4%nat.
Proof.
  set (n1 := lit "a""b"). set (n2 := [97; 10; 98]%N).
  assert (K : forall n, n = n1 \/ n = n2 ->
    snd (linux_watch (system (odd_name n)) 20 (lit "/w") 5 []) = Ok true /\ callbacks (run (odd_name n) 20 (lit "/w") 5) = [Ev (lit "/w/" ++ n) EtCreate PtFile (now + 19) None]).
  { intros n [-> | ->]; split; vm_compute; reflexivity. }
  destruct (K n1 (or_introl eq_refl)) as [A1 B1]. destruct (K n2 (or_intror eq_refl)) as [A2 B2].
  destruct (program_life_on _ _ _ (now + 1) (now + 99) A1) as [R1 E1]. destruct (program_life_on _ _ _ (now + 1) (now + 99) A2) as [R2 E2].
  rewrite B1 in E1. rewrite B2 in E2. revert R1 E1 R2 E2.
  generalize (whole_log (lit "/w") (map (act_of 5) (run (odd_name n1) 20 (lit "/w") 5)) (now + 1) (now + 99)).
  generalize (whole_log (lit "/w") (map (act_of 5) (run (odd_name n2) 20 (lit "/w") 5)) (now + 1) (now + 99)). intros l2 l1 R1 E1 R2 E2.
  exists (odd_name n1), PropsKernel.w_dirs. eexists. exists (odd_name n2). eexists.
  split; [reflexivity|]. split; [intros k tr; discriminate|]. split; [exact R1|]. cbn [log].
  assert (Fm : forall n l, received l = live_event true (lit "/w") (now + 1) :: [Ev (lit "/w/" ++ n) EtCreate PtFile (now + 19) None] ++ [die_event true (lit "/w") (now + 99)] -> Forall modern_event (received l)).
  { intros n l ->. cbn [app]. apply Forall_cons; [modern|]. apply Forall_cons; [modern|]. apply Forall_cons; [modern|constructor]. }
  split; [now apply Fm with n1|]. split; [rewrite E1; reflexivity|]. split; [|split].
  - rewrite output_received, E1. vm_compute. discriminate.
  - rewrite output_received, E1. eexists. split; [vm_compute; reflexivity|]. vm_compute. reflexivity.
  - split; [reflexivity|]. split; [intros k tr; discriminate|]. split; [exact R2|]. cbn [log]. split; [now apply Fm with n2|]. split; [rewrite E2; reflexivity|].
    rewrite output_received, E2. vm_compute. reflexivity.
Qed.
Print Assumptions C144_lines_tell_the_changes_refuted.

(** Theorems C147: the small example program while it watches (Linux, without
    privileges): src/wtr/tiny_watcher/main.cpp on class watch, the adapter, the kernel and
    a filesystem that others change. *)
From Verif Require Import Base EventModel EventSpec Sys BindModel BindSpec BindLife TinyModel TinyLifeSpec PropsTiny.
From Verif Require Import LinuxWatch CliLifeSpec Names InotifySpec KernelSpec KernelFacts KernelRun SemabinModel WatchModel WatchSpec WatchFacts WatchExamples PropsWatch PropsKernel PropsWhole PropsChain PropsCliLife.
Import EventSpec.

(** ** The lines *)
Lemma sep_free x y n : ~ (exists u v, n = u ++ lit " ->" ++ v) -> ~ (exists u v, x = u ++ lit " ->" ++ v) ->
  y <> 32%N -> y <> 45%N -> y <> 62%N -> ~ exists u v, x ++ y :: n = u ++ lit " ->" ++ v.
Proof.
  intros Hn Hx A B C (u & v & E). change (lit " ->" ++ v) with (32 :: 45 :: 62 :: v)%N in E.
  revert u E Hx. induction x as [|c x IH]; intros u E Hx.
  - destruct u as [|a u]; cbn in E; [congruence|]. injection E as _ E. apply Hn. exists u, v. exact E.
  - destruct u as [|a u]; cbn in E.
    + injection E as -> E. destruct x as [|c1 x]; cbn in E; [injection E; congruence|]. injection E as -> E.
      destruct x as [|c2 x]; cbn in E; [injection E; congruence|]. injection E as -> E. apply Hx. exists [], x. reflexivity.
    + injection E as -> E. apply (IH u E). intros (u' & v' & ->). apply Hx. now exists (a :: u'), v'.
Qed.
Lemma clear_entry p n : clear p -> clear n -> clear (InotifySpec.entry p n).
Proof.
  intros [P1 P2] [N1 N2]. unfold InotifySpec.entry. destruct p as [|c p]; [split; assumption|].
  destruct (_ =? _)%N eqn:L.
  - apply N.eqb_eq in L. destruct (exists_last (l := c :: p)) as (q & z & E); [discriminate|]. rewrite E in *. rewrite last_last in L. subst z. rewrite <- app_assoc. cbn [app].
    assert (Q : ~ exists u v, q = u ++ lit " ->" ++ v).
    { intros (u & v & ->). apply P2. exists u, (v ++ [47%N]). now rewrite <- !app_assoc. }
    split; [|apply sep_free; auto; discriminate].
    rewrite in_app_iff. intros [H|[H|H]]; [apply P1, in_app_iff; auto|discriminate|auto].
  - split; [|apply (sep_free (c :: p) 47%N n); auto; discriminate].
    rewrite in_app_iff. intros [H|[H|H]]; auto. discriminate.
Qed.
Notation clear_shape := (good_shape clear).
Lemma shape_clear ev : clear_shape (shape_of ev) -> clear_paths ev.
Proof.
  destruct ev as [p f t tm a]. cbn [shape_of good_shape]. intros [[H1 H2] H]. split; [exact H1|]. split; [|exact H2].
  intros b E. cbn in E. subst a. destruct b as [q ? ? ? ?]. cbn in H. now destruct H as [[H _] _].
Qed.
Lemma reports_clear ev c : reports ev c -> clear_shape c -> clear_shape ev.
Proof. intros [E|(p & q & t & E1 & [E|E])] P; subst; cbn in *; tauto. Qed.

(** At any point of any life of the program's watcher, on a filesystem whose directories
    and names have neither newline nor " ->", and with no message of the watcher about
    another path: the lines can be read; what they tell is what the events tell that the
    callback received, in order; and those about files tell of the changes so far in
    watched directories, each once and in order ([PropsChain.tells], as in C85). *)
Theorem C147_small_program_tells_the_changes_partial :
  exists reader,
  forall blk e il D F re w, e_start e = kern_start D F -> Forall clear D -> unprivileged e ->
    (forall tr o, In o (e_ops e tr) -> clear_names o) ->
    reach (Linux blk) (watcher_on e il) re constructed w ->
    (forall ev, In ev (received (log w)) -> ev_ptype ev = PtWatcher -> clear_paths ev) ->
    reader (tiny_output (received (log w))) =
      map (fun ev => Some (ev_effect ev, ev_ptype ev, ev_path ev, option_map ev_path (ev_assoc ev))) (received (log w)) /\
    PropsChain.tells e il w (about_files (received (log w))).
Proof.
  destruct C71_lines_can_be_read_partial as (reader & Hr). exists reader.
  intros blk e il D F re w S P U N R W.
  assert (P0 : qinv clear (e_start e)) by (rewrite S; split; [exact P|constructor]).
  assert (N' : forall tr o, In o (e_ops e tr) -> Forall clear (names_of o)).
  { intros tr o Ho. specialize (N _ _ Ho). destruct o; cbn in N |- *; repeat constructor; try apply N. }
  split; [|exact (chain_tells blk e il D F re w S U R)].
  rewrite Hr; [reflexivity|]. apply Forall_forall. intros ev Hev.
  destruct (match ev_ptype ev with PtWatcher => true | _ => false end) eqn:T; [apply W; [exact Hev|]; now destruct (ev_ptype ev)|].
  assert (Ha : In ev (about_files (received (log w)))) by (apply filter_In; split; [exact Hev|]; now destruct (ev_ptype ev)).
  apply shape_clear.
  destruct (C82_a_watchers_life blk e il D F re w S U R) as [(B & _)|(path & fuel & a & b & _ & _ & _ & (rest & To) & _)].
  - rewrite <- files_shapes in B. destruct (about_files _); [destruct Ha|discriminate].
  - assert (Hin : In (shape_of ev) (fs_events (received (log w)) ++ rest)) by (apply in_app_iff; left; rewrite <- files_shapes; now apply in_map).
    destruct (told_reports _ _ To _ Hin) as (c & Hc & Hx). apply (reports_clear _ _ Hx).
    pose proof (qinv_owed clear clear_entry e N' P0 a) as Q. rewrite Forall_forall in Q. now apply Q.
Qed.
Print Assumptions C147_small_program_tells_the_changes_partial.

(** ** The exit code *)
Lemma tiny_body ev : tiny_line ev = body ev ++ [10%N].
Proof. apply line_body. Qed.
Lemma body_no_newline ev : ~ In 10%N (ev_path ev) -> (forall a, ev_assoc ev = Some a -> ~ In 10%N (ev_path a)) -> ~ In 10%N (body ev).
Proof.
  intros H1 H2. unfold body. rewrite !in_app_iff. intros [H|[H|[H|[H|[H|H]]]]].
  - destruct (ev_effect ev); cbn in H; intuition discriminate.
  - cbn in H; intuition discriminate.
  - destruct (ev_ptype ev); cbn in H; intuition discriminate.
  - cbn in H; intuition discriminate.
  - auto.
  - destruct (ev_assoc ev) as [a|]; [|destruct H]. apply in_app_iff in H as [H|H]; [cbn in H; intuition discriminate|]. exact (H2 a eq_refl H).
Qed.
Lemma tiny_lines evs : (forall ev, In ev evs -> ~ In 10%N (ev_path ev) /\ forall a, ev_assoc ev = Some a -> ~ In 10%N (ev_path a)) ->
  lines (tiny_output evs) = map body evs.
Proof.
  induction evs as [|ev evs IH]; intros H; [reflexivity|]. unfold lines, tiny_output in *. cbn [flat_map map]. rewrite tiny_body, <- app_assoc.
  destruct (H ev (or_introl eq_refl)) as [H1 H2]. rewrite lines_from_app by (now apply body_no_newline). cbn [app lines_from N.eqb Pos.eqb]. f_equal.
  apply IH. intros ev' Hev. apply H. now right.
Qed.

Lemma end_line abs tm : body (Ev (lit "s/self/die@" ++ abs) EtDestroy PtWatcher tm None) = lit "destroy watcher s/self/die@" ++ abs.
Proof. unfold body. cbn [ev_effect ev_ptype ev_path ev_assoc]. rewrite app_nil_r. reflexivity. Qed.
Lemma bad_line abs tm : body (Ev (lit "e/self/die@" ++ abs) EtDestroy PtWatcher tm None) = lit "destroy watcher e/self/die@" ++ abs.
Proof. unfold body. cbn [ev_effect ev_ptype ev_path ev_assoc]. rewrite app_nil_r. reflexivity. Qed.

(** When the program ends, having called close() with the answer [b] ([v]: whether the
    request to stop could be made), its exit code is 0 if and only if the request could be
    made and the last line tells that the watcher ended well; otherwise it is 1. *)
Theorem C147_exit_code :
  forall pl runs w v b more, adapter_ok runs -> reach pl runs false constructed w -> cli_closes (log w) = (v, b) :: more ->
    (forall ev, In ev (received (log w)) -> ~ In 10%N (ev_path ev) /\ forall a, ev_assoc ev = Some a -> ~ In 10%N (ev_path a)) ->
    (tiny_main b = 0%Z \/ tiny_main b = 1%Z) /\ (tiny_main b = 0%Z <-> v <> error /\ exists abs before,
       lines (tiny_output (received (log w))) = before ++ [lit "destroy watcher s/self/die@" ++ abs]).
Proof.
  intros pl runs w v b more A R C L. split; [destruct b; auto|]. rewrite (tiny_lines _ L). pose proof (ends_how _ _ _ _ _ _ A R C) as H.
  destruct (match v with error => true | _ => false end) eqn:V; [destruct v; try discriminate|].
  - subst b. split; [discriminate|intros [X _]; contradiction].
  - assert (Hv : v <> error) by (intros ->; discriminate). destruct H as (abs & e1 & mid & e2 & Er & D). rewrite Er, app_comm_cons, map_app. cbn [map].
    destruct e2 as [q f ty tm a]. destruct b; destruct D as (D1 & D2 & D3 & D4); cbn [ev_path ev_effect ev_ptype ev_assoc] in *.
    + split; [|intros _; reflexivity]. intros _. split; [exact Hv|]. subst. exists abs, (map body (e1 :: mid)). now rewrite end_line.
    + split; [discriminate|]. intros [_ (abs' & before & El)]. exfalso. apply app_inj_tail in El as [_ El]. subst. rewrite bad_line in El. discriminate El.
Qed.
Print Assumptions C147_exit_code.

(** ** Examples *)
Lemma tiny_example_clear : forall n, In n [lit "/w"; lit "/w/d"; lit "a"; lit "b - c"; lit "s/self/live@/w"; lit "s/self/die@/w"] -> clear n.
Proof.
  intros n H. cbn [In] in H. split.
  - decompose [or] H; subst; try contradiction; cbn; intuition discriminate.
  - decompose [or] H; subst; try contradiction; intros (x & y & E);
      (cbn in E; repeat (destruct x as [|? x]; [discriminate E|injection E as _ E]); destruct x; discriminate E).
Qed.
Definition quiet_day : env := true_env PropsKernel.w_dirs [] 1 [[Make false (lit "/w") (lit "a"); Rename (lit "/w") (lit "a") (lit "b - c")]].
Lemma quiet_day_ends : snd (linux_watch (system quiet_day) 20 (lit "/w") 5 []) = Ok true.
Proof. vm_compute. reflexivity. Qed.
Lemma quiet_day_calls : callbacks (run quiet_day 20 (lit "/w") 5) =
  [Ev (lit "/w/a") EtCreate PtFile 19 None; Ev (lit "/w/a") EtRename PtFile 23 (Some (Ev (lit "/w/b - c") EtRename PtFile 22 None))].
Proof. vm_compute. reflexivity. Qed.
Lemma output_life e t t' : received (whole_log (lit "/w") (map (act_of 5) (run e 20 (lit "/w") 5)) t t') = live_event true (lit "/w") t :: callbacks (run e 20 (lit "/w") 5) ++ [die_event true (lit "/w") t'].
Proof. unfold whole_log. rewrite !received_app, received_acts. reflexivity. Qed.
Example C147_example : exists w,
  e_start quiet_day = kern_start PropsKernel.w_dirs [] /\ Forall clear PropsKernel.w_dirs /\ unprivileged quiet_day /\
  (forall tr o, In o (e_ops quiet_day tr) -> clear_names o) /\
  reach (Linux true) (watcher_on quiet_day 5) false constructed w /\
  (forall ev, In ev (received (log w)) -> ev_ptype ev = PtWatcher -> clear_paths ev) /\
  cli_closes (log w) = [(released, true); (released, false)] /\
  lines (tiny_output (received (log w))) =
    [lit "create watcher s/self/live@/w"; lit "create file /w/a"; lit "rename file /w/a -> /w/b - c"; lit "destroy watcher s/self/die@/w"].
Proof.
  destruct (program_life_on quiet_day 20 (lit "/w") 1 99 quiet_day_ends) as [R Er]. rewrite quiet_day_calls in Er.
  assert (Ec : cli_closes (whole_log (lit "/w") (map (act_of 5) (run quiet_day 20 (lit "/w") 5)) 1 99) = [(released, true); (released, false)]).
  { unfold whole_log. rewrite !closes_app. replace (cli_closes (acts_log _)) with (@nil (sst * bool)); [reflexivity|].
    clear. induction (run quiet_day 20 (lit "/w") 5) as [|x o IH]; [reflexivity|]. unfold acts_log in *. cbn [map concat]. rewrite closes_app, <- IH.
    destruct x; try reflexivity. cbn. destruct r as [l|]; [destruct (existsb _ l)|]; reflexivity. }
  revert R Er Ec. generalize (whole_log (lit "/w") (map (act_of 5) (run quiet_day 20 (lit "/w") 5)) 1 99). intros l R Er Ec.
  eexists. split; [reflexivity|]. split; [repeat constructor; apply tiny_example_clear; cbn; auto|]. split; [intros k tr; discriminate|]. split; [|split; [exact R|]].
  { intros tr o Ho. unfold quiet_day, true_env, scripted_env in Ho. cbn [e_ops] in Ho. destruct (ExampleOs.count _ _) as [|i]; [destruct Ho|].
    destruct (rev tr) as [|[] ?]; try destruct Ho; destruct i as [|[|i]]; cbn in Ho; try contradiction.
    all: decompose [or] Ho; subst; try contradiction; cbn [clear_names]; try split; apply tiny_example_clear; cbn; auto. }
  cbn [log]. rewrite Er. cbn [app]. split; [|split; [exact Ec|reflexivity]].
  intros ev Hev T. cbn [In] in Hev. decompose [or] Hev; subst; try discriminate; try contradiction.
  all: match goal with |- clear_paths ?x => assert (K : clear (ev_path x)) by (apply tiny_example_clear; cbn; auto 10) end.
  all: destruct K as [K1 K2]; split; [exact K1|split; [intros a X; discriminate X|exact K2]].
Qed.

(** Every name: not so.  Of two filesystems, alike at the start, one has two files made and
    the other one; the program's output is the same. *)
Definition odd_dir : text := lit "/w/a" ++ [10%N] ++ lit "create file ".
Definition odd_dirs : list text := [lit "/w"; odd_dir; odd_dir ++ lit "/w"].
Definition two_made : env := true_env odd_dirs [] 1 [[Make false (lit "/w") (lit "a"); Make false (lit "/w") (lit "b")]].
Definition one_made : env := true_env odd_dirs [] 1 [[Make false (odd_dir ++ lit "/w") (lit "b")]].
Lemma two_made_run : snd (linux_watch (system two_made) 20 (lit "/w") 5 []) = Ok true /\
  map shape_of (callbacks (run two_made 20 (lit "/w") 5)) = [Sh (lit "/w/a") EtCreate PtFile None; Sh (lit "/w/b") EtCreate PtFile None].
Proof. split; vm_compute; reflexivity. Qed.
Lemma one_made_run : snd (linux_watch (system one_made) 20 (lit "/w") 5 []) = Ok true /\
  map shape_of (callbacks (run one_made 20 (lit "/w") 5)) = [Sh (odd_dir ++ lit "/w/b") EtCreate PtFile None].
Proof. split; vm_compute; reflexivity. Qed.
Definition shape_line (s : InotifySpec.shape) : text :=
  match s with Sh p f t a => effect_name f ++ lit " " ++ ptype_name t ++ lit " " ++ p ++ (match a with Some (Sh q _ _ _) => lit " -> " ++ q | None => [] end) ++ [10%N] end.
Lemma output_shapes evs : tiny_output evs = flat_map shape_line (map shape_of evs).
Proof.
  induction evs as [|[p f t tm [[q f' t' tm' a']|]] evs IH]; [reflexivity| |]; unfold tiny_output in *; cbn [flat_map map]; rewrite IH; reflexivity.
Qed.
Theorem C147_small_program_tells_the_changes_refuted :
  exists D e e' w w', e_start e = kern_start D [] /\ e_start e' = kern_start D [] /\ unprivileged e /\ unprivileged e' /\
    reach (Linux true) (watcher_on e 5) false constructed w /\ reach (Linux true) (watcher_on e' 5) false constructed w' /\
    ow w = OGone /\ ow w' = OGone /\
    map shape_of (about_files (received (log w))) = [Sh (lit "/w/a") EtCreate PtFile None; Sh (lit "/w/b") EtCreate PtFile None] /\
    (exists p, map shape_of (about_files (received (log w'))) = [Sh p EtCreate PtFile None]) /\
    tiny_output (received (log w)) = tiny_output (received (log w')).
Proof.
  destruct two_made_run as [A1 B1], one_made_run as [A2 B2].
  destruct (program_life_on _ _ _ 1 99 A1) as [R1 E1]. destruct (program_life_on _ _ _ 1 99 A2) as [R2 E2].
  revert R1 E1 R2 E2.
  generalize (whole_log (lit "/w") (map (act_of 5) (run two_made 20 (lit "/w") 5)) 1 99).
  generalize (whole_log (lit "/w") (map (act_of 5) (run one_made 20 (lit "/w") 5)) 1 99).
  revert B1 B2. generalize (callbacks (run two_made 20 (lit "/w") 5)) (callbacks (run one_made 20 (lit "/w") 5)). intros c1 c2 B1 B2 l2 l1 R1 E1 R2 E2.
  exists odd_dirs, two_made, one_made. eexists. eexists. split; [reflexivity|]. split; [reflexivity|]. split; [intros k tr; discriminate|]. split; [intros k tr; discriminate|].
  split; [exact R1|]. split; [exact R2|]. cbn [ow log]. split; [reflexivity|]. split; [reflexivity|].
  assert (Q1 : map shape_of (received l1) = Sh (lit "s/self/live@/w") EtCreate PtWatcher None :: map shape_of c1 ++ [Sh (lit "s/self/die@/w") EtDestroy PtWatcher None])
    by (rewrite E1; cbn [map]; now rewrite map_app).
  assert (Q2 : map shape_of (received l2) = Sh (lit "s/self/live@/w") EtCreate PtWatcher None :: map shape_of c2 ++ [Sh (lit "s/self/die@/w") EtDestroy PtWatcher None])
    by (rewrite E2; cbn [map]; now rewrite map_app).
  rewrite !files_shapes, !output_shapes. unfold fs_events. rewrite Q1, Q2, B1, B2.
  split; [reflexivity|]. split; [eexists; reflexivity|]. reflexivity.
Qed.
Print Assumptions C147_small_program_tells_the_changes_refuted.

(** Theorem C141: watchers in one program do not disturb one another (Linux): class watch runs
    the adapter (include/wtr/watcher.hpp:823-1726) in a thread per watcher, and they share the
    program's descriptors. *)
From Verif Require Import Base EventModel Sys LinuxModel LinuxWatch LinuxSpec LinuxFds ExampleOs LinuxExamples OwnSpec OwnFacts.

(** ** One watcher *)
(** Every call is on the stop descriptor it was given, or on a descriptor that it has opened
    more often than closed; and only such are closed. *)
Theorem C141_calls_on_own_descriptors :
  forall s fuel path il o r, linux_watch s fuel path il [] = (o, r) ->
    forall o1 x o2 fd, o = o1 ++ x :: o2 -> In fd (uses x) ->
      (fd = il \/ 0 < open_count fd o1)%Z /\ (fd_closed x = Some fd -> (0 < open_count fd o1)%Z).
Proof.
  intros s fuel path il o r E o1 x o2 fd Eo U. pose proof (t_linux s il fuel path []) as [N T]. rewrite E in N, T. cbn [fst] in N, T.
  split; [destruct (T _ _ _ _ Eo U) as [[<-|[]]|H]; auto|]. intros C. pose proof (N fd (o1 ++ [x]) o2 ltac:(now rewrite <- app_assoc)) as H. rewrite count_app in H. cbn in H. rewrite C in H.
  assert (O : fd_opened x = None) by (destruct x; try discriminate C; reflexivity). rewrite O in H. cbn in H. rewrite Z.eqb_refl in H. lia.
Qed.
Print Assumptions C141_calls_on_own_descriptors.

(** ** Many *)
Lemma calls_of_app i a b : calls_of i (a ++ b) = calls_of i a ++ calls_of i b.
Proof. unfold calls_of. now rewrite filter_app, map_app. Qed.
Lemma calls_of_split i x g1 g2 : calls_of i (g1 ++ (i, x) :: g2) = calls_of i g1 ++ x :: calls_of i g2.
Proof. rewrite calls_of_app. unfold calls_of at 2. cbn [filter fst]. now rewrite Nat.eqb_refl. Qed.
Definition others (i : nat) (g : calls) : calls := filter (fun c => negb (Nat.eqb (fst c) i)) g.
Lemma count_split fd i g : open_count fd (map snd g) = (open_count fd (calls_of i g) + open_count fd (map snd (others i g)))%Z.
Proof.
  unfold calls_of, others. induction g as [|[j x] g IH]; [reflexivity|]. cbn [map snd filter fst open_count]. rewrite IH. destruct (Nat.eqb j i); cbn [negb map snd open_count]; lia.
Qed.
Lemma calls_of_others i j g : i <> j -> calls_of j (others i g) = calls_of j g.
Proof.
  intros H. unfold calls_of, others. induction g as [|[k x] g IH]; [reflexivity|]. cbn [filter fst]. destruct (Nat.eqb_spec k i) as [->|Hi]; cbn [negb].
  - replace (Nat.eqb i j) with false; [exact IH|]. symmetry. now apply Nat.eqb_neq.
  - cbn [filter fst]. destruct (Nat.eqb k j); cbn [map]; now rewrite IH.
Qed.
Section Many.
  Variables (il : nat -> Z) (g : calls).
  Hypothesis watch : all_watch il g.
  Hypothesis free : handed_out_free il g.
  Lemma mine_nonneg i fd g1 g2 : g = g1 ++ g2 -> (0 <= open_count fd (calls_of i g1))%Z.
  Proof.
    intros E. destruct (watch i) as (s & fuel & path & rest & R). pose proof (t_linux s (il i) fuel path []) as [N _]. apply (N fd _ (calls_of i g2 ++ rest)). now rewrite R, E, calls_of_app, app_assoc.
  Qed.
  (** The sum over the watchers. *)
  Lemma all_nonneg fd : forall n (h : calls), (length h <= n)%nat -> (forall i, (0 <= open_count fd (calls_of i h))%Z) -> (0 <= open_count fd (map snd h))%Z.
  Proof.
    induction n as [|n IH]; intros h L H; [destruct h; [cbn; lia|cbn in L; lia]|]. destruct h as [|[i x] h]; [cbn; lia|].
    rewrite (count_split fd i). assert (0 <= open_count fd (map snd (others i ((i, x) :: h))))%Z; [|specialize (H i); lia].
    apply IH.
    - unfold others. cbn [filter fst]. rewrite Nat.eqb_refl. cbn [negb]. cbn in L. clear - L. assert (length (filter (fun c => negb (Nat.eqb (fst c) i)) h) <= length h)%nat; [|lia].
      induction h as [|c h IHh]; cbn; [lia|]. destruct (negb _); cbn; cbn in L; specialize (IHh ltac:(lia)); lia.
    - intros j. destruct (Nat.eq_dec i j) as [<-|Hj]; [|rewrite calls_of_others by exact Hj; apply H].
      replace (calls_of i (others i ((i, x) :: h))) with (@nil obs); [cbn; lia|]. unfold calls_of, others. generalize ((i, x) :: h) as l. clear. induction l as [|c l IHl]; [reflexivity|].
      cbn [filter]. destruct (Nat.eqb (fst c) i) eqn:E; cbn [negb]; [exact IHl|]. cbn [filter]. now rewrite E.
  Qed.
  Lemma others_nonneg i fd g1 g2 : g = g1 ++ g2 -> (0 <= open_count fd (map snd (others i g1)))%Z.
  Proof.
    intros E. apply (all_nonneg fd (length (others i g1))); [lia|]. intros j. destruct (Nat.eq_dec i j) as [<-|Hj]; [|rewrite calls_of_others by exact Hj; eapply mine_nonneg, E].
    replace (calls_of i (others i g1)) with (@nil obs); [cbn; lia|]. unfold calls_of, others. clear. induction g1 as [|c l IHl]; [reflexivity|].
    cbn [filter]. destruct (Nat.eqb (fst c) i) eqn:E; cbn [negb]; [exact IHl|]. cbn [filter]. now rewrite E.
  Qed.
  (** Open at most once in the whole program. *)
  Lemma once fd : forall g1 g2, g = g1 ++ g2 -> (open_count fd (map snd g1) <= 1)%Z.
  Proof.
    induction g1 as [|[i x] g1 IH] using rev_ind; intros g2 E; [cbn; lia|]. rewrite <- app_assoc in E. cbn [app] in E. specialize (IH _ E).
    rewrite map_app, count_app. cbn. destruct (fd_opened x) as [d|] eqn:O; cbn.
    - destruct (free _ _ _ _ _ E O) as [Z _]. assert (C : fd_closed x = None) by (destruct x; try discriminate O; reflexivity). rewrite C. cbn. destruct (Z.eqb_spec d fd) as [->|]; lia.
    - destruct (fd_closed x) as [d|]; cbn; [destruct (d =? fd)%Z|]; lia.
  Qed.
  (** What watcher [i] has open it opened itself, and nobody touched it since. *)
  Lemma held_opened i fd : forall g1 g2, g = g1 ++ g2 -> (0 < open_count fd (calls_of i g1))%Z -> opened_by i fd g1.
  Proof.
    induction g1 as [|[j x] g1 IH] using rev_ind; intros g2 E H; [cbn in H; lia|]. rewrite <- app_assoc in E. cbn [app] in E.
    assert (Keep : (0 < open_count fd (calls_of i g1))%Z -> fd_opened x <> Some fd -> fd_closed x <> Some fd -> opened_by i fd (g1 ++ [(j, x)])).
    { intros H1 O C. destruct (IH _ E H1) as (a & y & b & -> & Oy & Fb). exists a, y, (b ++ [(j, x)]). split; [now rewrite <- app_assoc|]. split; [exact Oy|].
      apply Forall_app. split; [exact Fb|]. constructor; [split; assumption|constructor]. }
    destruct (Nat.eq_dec j i) as [->|Hj].
    - rewrite calls_of_app in H. unfold calls_of at 2 in H. cbn [filter fst] in H. rewrite Nat.eqb_refl in H. cbn [map snd] in H. rewrite count_app in H. cbn in H.
      destruct (fd_opened x) as [d|] eqn:O.
      + destruct (Z.eq_dec d fd) as [->|Hd]; [exists g1, x, []; repeat split; auto|]. apply Keep; [|congruence|destruct x; discriminate O || discriminate].
        assert (C : fd_closed x = None) by (destruct x; try discriminate O; reflexivity). rewrite C in H. cbn in H. rewrite (proj2 (Z.eqb_neq d fd) Hd) in H. lia.
      + cbn in H. apply Keep; [|discriminate|].
        * destruct (fd_closed x) as [d|]; cbn in H; [destruct (d =? fd)%Z|]; lia.
        * intros C. rewrite C in H. cbn in H. rewrite Z.eqb_refl in H. pose proof (once fd _ _ E) as L. rewrite (count_split fd i) in L. pose proof (others_nonneg i fd _ _ E). lia.
    - assert (H1 : (0 < open_count fd (calls_of i g1))%Z).
      { rewrite calls_of_app in H. unfold calls_of at 2 in H. cbn [filter fst] in H. rewrite (proj2 (Nat.eqb_neq j i) Hj) in H. cbn [map] in H. now rewrite app_nil_r in H. }
      pose proof (once fd _ _ E) as L. rewrite (count_split fd i) in L. pose proof (others_nonneg i fd _ _ E) as Z.
      apply Keep; [exact H1| |].
      + intros O. destruct (free _ _ _ _ _ E O) as [Z0 _]. rewrite (count_split fd i) in Z0. lia.
      + intros C. destruct (watch j) as (s & fuel & path & rest & R). destruct (linux_watch s fuel path (il j) []) as [o r] eqn:W. cbn [fst] in R.
        destruct (C141_calls_on_own_descriptors _ _ _ _ _ _ W (calls_of j g1) x (calls_of j g2 ++ rest) fd) as [_ K].
        { rewrite R, E, calls_of_split, <- app_assoc. reflexivity. }
        { destruct x; try discriminate C. cbn in *. destruct (0 <=? fd0)%Z; [injection C as <-; now left|discriminate C]. }
        specialize (K C). pose proof (all_nonneg fd (length (others j (others i g1))) (others j (others i g1)) ltac:(lia)) as Z2.
        rewrite (count_split fd j (others i g1)), calls_of_others in L by auto.
        assert (0 <= open_count fd (map snd (others j (others i g1))))%Z; [|lia]. apply Z2. intros k.
        destruct (Nat.eq_dec j k) as [<-|Hk].
        { replace (calls_of j (others j (others i g1))) with (@nil obs); [cbn; lia|]. unfold calls_of, others at 1. generalize (others i g1) as l. clear. induction l as [|c l IHl]; [reflexivity|].
          cbn [filter]. destruct (Nat.eqb (fst c) j) eqn:E; cbn [negb]; [exact IHl|]. cbn [filter]. now rewrite E. }
        rewrite calls_of_others by exact Hk. destruct (Nat.eq_dec i k) as [<-|Hk'].
        { replace (calls_of i (others i g1)) with (@nil obs); [cbn; lia|]. unfold calls_of, others. clear. induction g1 as [|c l IHl]; [reflexivity|].
          cbn [filter]. destruct (Nat.eqb (fst c) i) eqn:E; cbn [negb]; [exact IHl|]. cbn [filter]. now rewrite E. }
        rewrite calls_of_others by exact Hk'. eapply mine_nonneg, E.
  Qed.
End Many.

(** However the calls of any number of watchers follow one another: each call of a watcher is
    on its own stop descriptor or on a descriptor that this watcher opened and that nobody has
    closed or opened since; and no watcher closes a descriptor of another or a stop
    descriptor. *)
Theorem C141_watchers_do_not_disturb_one_another :
  forall il g, all_watch il g -> handed_out_free il g ->
    forall g1 i x g2 fd, g = g1 ++ (i, x) :: g2 -> In fd (uses x) ->
      (fd = il i \/ opened_by i fd g1) /\
      (fd_closed x = Some fd -> opened_by i fd g1 /\ forall j, fd <> il j).
Proof.
  intros il g W H g1 i x g2 fd E U. destruct (W i) as (s & fuel & path & rest & R). destruct (linux_watch s fuel path (il i) []) as [o r] eqn:El. cbn [fst] in R.
  destruct (C141_calls_on_own_descriptors _ _ _ _ _ _ El (calls_of i g1) x (calls_of i g2 ++ rest) fd) as [A B]; [rewrite R, E, calls_of_split, <- app_assoc; reflexivity|exact U|].
  split; [destruct A as [A|A]; [now left|right; eapply held_opened; eassumption]|].
  intros C. assert (O : opened_by i fd g1) by (eapply held_opened; eauto). split; [exact O|]. destruct O as (a & y & b & -> & Oy & _). rewrite <- app_assoc in E. exact (proj2 (H _ _ _ _ _ E Oy)).
Qed.
Print Assumptions C141_watchers_do_not_disturb_one_another.

(** Three watchers: the calls of the first two alternate; the third starts when they are done
    and is handed the descriptors of the first again. *)
Definition on_fds (fd ep stop : Z) : os :=
  let s := scripted 1000 tree_w [Some [fd]] [] in
  {| os_now := os_now s; os_geteuid := os_geteuid s; os_realpath := os_realpath s; os_is_dir := os_is_dir s; os_opendir := os_opendir s;
     os_inotify_init := fun _ => fd; os_add_watch := os_add_watch s; os_fan_init := os_fan_init s; os_fan_mark := os_fan_mark s;
     os_epoll_create := fun _ => ep; os_epoll_ctl := os_epoll_ctl s;
     os_epoll_wait := fun tr _ => nth (count is_wait tr) [Some [fd]] (Some [stop]); os_read := os_read s; os_open_handle := os_open_handle s; os_readlink := os_readlink s |}.
Definition run_on (fd ep stop : Z) : trace := fst (linux_watch (on_fds fd ep stop) 20 (lit "/w") stop []).
Fixpoint zip (a b : calls) : calls := match a, b with x :: a', y :: b' => x :: y :: zip a' b' | a', [] => a' | [], b' => b' end.
Definition three : calls := zip (map (Datatypes.pair 0%nat) (run_on 3 4 5)) (map (Datatypes.pair 1%nat) (run_on 7 8 6)) ++ map (Datatypes.pair 2%nat) (run_on 3 4 9).
Definition stops (i : nat) : Z := nth i [5; 6; 9]%Z 0%Z.
Fixpoint free_b (pre : trace) (g : calls) : bool :=
  match g with
  | [] => true
  | (_, x) :: g' => match fd_opened x with Some fd => (open_count fd pre =? 0)%Z && negb (existsb (Z.eqb fd) [5; 6; 9; 0]%Z) | None => true end && free_b (pre ++ [x]) g'
  end.
Lemma free_sound g : forall pre, free_b (map snd pre) g = true -> forall g1 i x g2 fd, g = g1 ++ (i, x) :: g2 -> fd_opened x = Some fd ->
  open_count fd (map snd (pre ++ g1)) = 0%Z /\ forall j, fd <> stops j.
Proof.
  induction g as [|[j y] g IH]; intros pre H g1 i x g2 fd E O; [destruct g1; discriminate E|]. cbn [free_b] in H. apply andb_true_iff in H as [H1 H2].
  destruct g1 as [|c g1].
  - injection E as <- <- <-. rewrite O in H1. apply andb_true_iff in H1 as [H1 H3]. rewrite app_nil_r. split; [now apply Z.eqb_eq|]. intros k ->. apply negb_true_iff in H3.
    assert (T : existsb (Z.eqb (stops k)) [5; 6; 9; 0]%Z = true); [|congruence]. destruct k as [|[|[|k]]]; try reflexivity. unfold stops. destruct k; reflexivity.
  - injection E as <- ->. change (pre ++ (j, y) :: g1) with (pre ++ [(j, y)] ++ g1). rewrite app_assoc. eapply IH; [|reflexivity|exact O]. rewrite map_app. exact H2.
Qed.
Example C141_example : all_watch stops three /\ handed_out_free stops three /\ (60 < length three)%nat /\
  In (0%nat, ORead 3 again) three /\ In (1%nat, ORead 7 again) three /\ In (2%nat, ORead 3 again) three /\ In (0%nat, OClose 3) three.
Proof.
  split; [|split].
  - intros i. destruct i as [|[|[|i]]].
    + exists (on_fds 3 4 5), 20%nat, (lit "/w"), []. vm_compute. reflexivity.
    + exists (on_fds 7 8 6), 20%nat, (lit "/w"), []. vm_compute. reflexivity.
    + exists (on_fds 3 4 9), 20%nat, (lit "/w"), []. vm_compute. reflexivity.
    + exists (on_fds 3 4 0), 20%nat, (lit "/w"), (run_on 3 4 0). replace (stops (S (S (S i)))) with 0%Z by (destruct i; reflexivity). replace (calls_of _ three) with (@nil obs); [reflexivity|].
      assert (A : Forall (fun c : nat * obs => Nat.ltb (fst c) 3 = true) three) by (apply Forall_forall; intros c; revert c; apply Forall_forall; vm_compute; repeat constructor).
      unfold calls_of. revert A. generalize three as l. induction l as [|c l IH]; intros A; [reflexivity|]. apply Forall_cons_iff in A as [A1 A2]. cbn [filter].
      destruct (Nat.eqb_spec (fst c) (S (S (S i)))) as [Ec|]; [rewrite Ec in A1; discriminate A1|now apply IH].
  - intros g1 i x g2 fd E O. apply (free_sound three [] ltac:(vm_compute; reflexivity) g1 i x g2 fd E O).
  - split; [apply Nat.ltb_lt; vm_compute; reflexivity|]. vm_compute. repeat split; tauto.
Qed.

(** Lemmas for C100: the Windows adapter on the filesystem of [WinWorldSpec]. *)
From Verif Require Import Base EventModel InotifySpec Mon WindowsModel WindowsSpec WindowsFacts WindowsRun WinWorldSpec.
From Verif Require Sys SysFacts.

(** ** Records of changes *)
Definition key (r : wrec) : N * text := (w_action r, w_name r).
Lemma aligned_key l : map key (aligned l) = l.
Proof. induction l as [|[a n] [|y l] IH]; [reflexivity..|]. cbn [aligned map] in *. rewrite IH. reflexivity. Qed.
Lemma flow_changes root : forall cs rs qs, map key rs = flat_map noted cs -> flow root None None rs qs ->
  Forall2 (tells root) cs (flat_map n_events qs).
Proof.
  induction cs as [|c cs IH]; intros rs qs E H.
  { destruct rs; [|discriminate]. destruct qs; [constructor|contradiction]. }
  assert (One : forall a n, map key rs = (a, n) :: flat_map noted cs -> (a =? 4)%N = false -> (a =? 5)%N = false ->
    exists t y l, flat_map n_events qs = Sh (win_entry root n) (action_effect a) t None :: y /\ Forall2 (tells root) cs y /\ l = y).
  { intros a n E1 H4 H5. destruct rs as [|r rs]; [discriminate|]. cbn [map] in E1. unfold key in E1 at 1. injection E1 as Ea En E1.
    destruct qs as [|q qs]; [contradiction|]. cbn [flow] in H. destruct H as (Hp & He & H). unfold after, is_old, is_new in *. rewrite Ea, H4, H5 in *. cbn [fst snd] in *.
    exists (n_type q), (flat_map n_events qs), (flat_map n_events qs). cbn [flat_map]. rewrite He, Hp, En. split; [reflexivity|]. split; [|reflexivity]. eapply IH; eassumption. }
  destruct c as [d n|n|n|n n']; cbn [flat_map noted app] in E.
  - destruct (One _ _ E eq_refl eq_refl) as (t & y & _ & -> & F & _). constructor; [now exists t|exact F].
  - destruct (One _ _ E eq_refl eq_refl) as (t & y & _ & -> & F & _). constructor; [now exists t|exact F].
  - destruct (One _ _ E eq_refl eq_refl) as (t & y & _ & -> & F & _). constructor; [now exists t|exact F].
  - clear One. destruct rs as [|r [|r' rs]]; [discriminate|discriminate|]. cbn [map] in E. unfold key in E at 1 2. injection E as Ea En Ea' En' E.
    destruct qs as [|q [|q' qs]]; [contradiction|cbn [flow] in H; tauto|]. cbn [flow] in H. destruct H as (Hp & He & Hp' & He' & H).
    unfold after, is_old, is_new in *. rewrite Ea, Ea' in *. cbn [N.eqb Pos.eqb fst snd] in *. cbn [flat_map]. rewrite He, He', Hp, Hp', En, En'. cbn [app].
    constructor; [eexists _, _; reflexivity|]. eapply IH; eassumption.
Qed.
Lemma noted_nonempty c : noted c <> [].
Proof. destruct c; discriminate. Qed.
Lemma aligned_nil l : aligned l = [] -> l = [].
Proof. intros H. rewrite <- (aligned_key l), H. reflexivity. Qed.

(** What all changes satisfy. *)
Definition fine (c : wop) : Prop := Forall (fun x => name_ok (snd x) = true /\ (fst x < 6)%N) (noted c).
Lemma possible_fine w c : possible w c = true -> fine c.
Proof. intros H. destruct c; cbn in H; rewrite !andb_true_iff in H; unfold fine; cbn; repeat constructor; cbn; try lia; tauto. Qed.
Lemma name_ok_facts n : name_ok n = true -> (2 <= length n <= N.to_nat 1000)%nat /\ Forall (fun u => u < 65536)%N n.
Proof.
  unfold name_ok. rewrite !andb_true_iff. intros [[H1 H2] H3]. split; [lia|]. apply Forall_forall. intros u Hu. rewrite forallb_forall in H3. specialize (H3 u Hu). lia.
Qed.
Lemma aligned_ok l : Forall (fun x => name_ok (snd x) = true /\ (fst x < 6)%N) l -> Forall wrec_ok (aligned l).
Proof.
  assert (One : forall a n k, name_ok n = true -> (a < 6)%N -> (k <= 2)%nat -> wrec_ok {| w_action := a; w_name := n; w_pad := k |}).
  { intros a n k Hn Ha Hk. apply name_ok_facts in Hn as [[H1 H2] H3]. constructor; unfold w_size; cbn [w_action w_name w_pad]; [lia| |exact H3].
    change (2 ^ 32)%N with 4294967296%N. lia. }
  induction l as [|[a n] [|y l] IH]; intros H; [constructor|..]; apply Forall_cons_iff in H as [[Hn Ha] H]; cbn [fst snd] in *.
  - constructor; [|constructor]. apply One; auto.
  - cbn [aligned]. constructor; [|apply IH, H]. apply One; auto. destruct (Nat.even _); lia.
Qed.
Lemma encode_long rs : rs <> [] -> Forall (fun r => 2 <= length (w_name r))%nat rs -> (16 <= N.of_nat (length (w_encode rs)))%N.
Proof.
  assert (A : forall next r, (2 <= length (w_name r))%nat -> (16 <= N.of_nat (length (w_bytes next r)))%N).
  { intros next r H. rewrite w_bytes_len. unfold w_size. lia. }
  intros Hn F. destruct rs as [|r [|r' rs]]; [congruence|..]; apply Forall_cons_iff in F as [F _].
  - now apply A.
  - change (w_encode (r :: r' :: rs)) with (w_bytes (w_size r) r ++ w_encode (r' :: rs)). rewrite app_length. specialize (A (w_size r) r F). lia.
Qed.
Lemma aligned_long l : Forall (fun x => name_ok (snd x) = true /\ (fst x < 6)%N) l -> Forall (fun r => 2 <= length (w_name r))%nat (aligned l).
Proof.
  induction l as [|[a n] [|y l] IH]; intros H; [constructor|..]; apply Forall_cons_iff in H as [[Hn Ha] H]; cbn [fst snd] in *; apply name_ok_facts in Hn as [[Hn _] _].
  - constructor; [exact Hn|constructor].
  - cbn [aligned]. constructor; [exact Hn|apply IH, H].
Qed.

(** ** Sending with less fuel shows less *)
Lemma pbind_fst {A B} (m : NT A) (k : A -> NT B) tr :
  fst (pbind m k tr) = fst (m tr) ++ match snd (m tr) with Ok a => fst (k a (tr ++ fst (m tr))) | _ => [] end.
Proof. unfold pbind. destruct (m tr) as [o [a|u| |]]; cbn [fst snd]; rewrite ?app_nil_r; try reflexivity. now destruct (k a (tr ++ o)). Qed.
Definition begins {A B} (m : NT A) (m' : NT B) : Prop := forall tr, exists z, fst (m' tr) = fst (m tr) ++ z.
Lemma begins_refl {A} (m : NT A) : begins m m.
Proof. intros tr. exists []. now rewrite app_nil_r. Qed.
Lemma begins_bind {A B} (m : NT A) (k k' : A -> NT B) : (forall a, begins (k a) (k' a)) -> begins (pbind m k) (pbind m k').
Proof.
  intros H tr. rewrite !pbind_fst. destruct (snd (m tr)) as [a|u| |]; try (exists []; now rewrite !app_nil_r).
  destruct (H a (tr ++ fst (m tr))) as (z & ->). exists z. now rewrite app_assoc.
Qed.
Lemma send_begins s root buf len : forall n m off old new, (n <= m)%nat -> begins (send_loop s n root buf len off old new) (send_loop s m root buf len off old new).
Proof.
  induction n as [|n IH]; intros m off old new H; [intros tr; cbn; eexists; reflexivity|]. destruct m as [|m]; [lia|]. cbn [send_loop].
  destruct (_ <=? _)%N; [|apply begins_refl]. apply begins_bind. intros nl. destruct (_ =? _)%N; [|apply IH; lia].
  apply begins_bind. intros name. apply begins_bind. intros action. apply begins_bind. intros [o' n'].
  apply begins_bind. intros next. destruct (_ =? _)%N; [apply begins_refl|apply IH; lia].
Qed.

(** ** The state *)
Section Env.
  Variable e : wenv.
  Notation s := (system e).
  Notation root := (we_path e).
  Definition effect_on (tr : list nobs) (x : nobs) (w : wworld) : wworld :=
    match x with
    | NRead _ => WWorld (ww_dirs w) (ww_files w) true (ww_queue w) (ww_log w)
    | NWait (WtDone _) => WWorld (ww_dirs w) (ww_files w) (ww_on w) (skipn (given (we_want e tr) w) (ww_queue w)) (ww_log w)
    | _ => w
    end.
  Lemma state_snoc tr x : state e (tr ++ [x]) = effect_on tr x (at_call e tr).
  Proof. unfold state, at_call. rewrite rev_app_distr. cbn [rev app state_rev]. rewrite rev_involutive. reflexivity. Qed.

  (** [split w dl]: [dl] were given to the watcher. *)
  Definition split (w : wworld) (dl : list wop) : Prop := ww_log w = dl ++ ww_queue w /\ Forall fine (ww_queue w).
  Lemma split_happens cs : forall w dl, split w dl -> split (happens w cs) dl.
  Proof.
    induction cs as [|c cs IH]; intros w dl H; [exact H|]. apply IH. unfold happen. destruct (possible w c) eqn:P; [|exact H].
    destruct H as [H F]. unfold split. cbn. destruct (ww_on w); [|auto]. split; [now rewrite H, app_assoc|]. apply Forall_app. split; [exact F|]. constructor; [now apply possible_fine in P|constructor].
  Qed.
  Definition not_done (x : nobs) : Prop := match x with NWait (WtDone _) => False | _ => True end.
  Lemma split_snoc tr x dl : not_done x -> split (state e tr) dl -> split (state e (tr ++ [x])) dl.
  Proof.
    intros Hx H. rewrite state_snoc. apply split_happens with (cs := we_ops e tr) in H. fold (at_call e tr) in H.
    destruct x as [| | | | | | |[]|]; try exact H; try contradiction.
  Qed.
  Lemma split_more o : Forall not_done o -> forall tr dl, split (state e tr) dl -> split (state e (tr ++ o)) dl.
  Proof.
    induction 1 as [|x o Hx _ IH]; intros tr dl H; [now rewrite app_nil_r|]. change (x :: o) with ([x] ++ o). rewrite app_assoc. apply IH, split_snoc; assumption.
  Qed.
  Lemma sending_quiet o : Forall sending o -> Forall not_done o.
  Proof. apply Forall_impl. intros []; cbn; tauto. Qed.

  (** What the events so far tell. *)
  Definition exact (tr : list nobs) : Prop := exists dl, split (state e tr) dl /\ Forall2 (tells root) dl (nshown tr).
  Definition sound (tr : list nobs) : Prop := exists dl m, split (state e tr) dl /\ Forall2 (tells root) dl (nshown tr ++ m).
  Lemma exact_sound tr : exact tr -> sound tr.
  Proof. intros (dl & H & F). exists dl, []. rewrite app_nil_r. auto. Qed.
  Lemma exact_quiet tr o : Forall not_done o -> nshown o = [] -> exact tr -> exact (tr ++ o).
  Proof. intros Q N (dl & H & F). exists dl. split; [now apply split_more|]. now rewrite nshown_app, N, app_nil_r. Qed.

  (** A read that is handled. *)
  Lemma handle fuel w tr cs : cs <> [] -> Forall fine cs -> px_valid w = true -> px_path w = root ->
    px_buf w = Sys.overwrite (px_buf w) (completion cs) -> px_len w = N.of_nat (length (completion cs)) ->
    let res := send_recv s fuel w tr in
    exists o1 tl z, fst res = o1 ++ tl /\ Forall sending o1 /\ (tl = [] \/ tl = [NRead (RdOk [])]) /\
      Forall2 (tells root) cs (nshown o1 ++ z) /\
      match snd res with
      | Ok w' => z = [] /\ tl = [NRead (RdOk [])] /\ px_valid w' = true /\ px_path w' = root
      | Undef _ | Crash => False
      | Fuel => True
      end.
  Proof.
    intros Hne Hf V P B L. set (rs := aligned (flat_map noted cs)).
    assert (Hall : Forall (fun x => name_ok (snd x) = true /\ (fst x < 6)%N) (flat_map noted cs)).
    { clear -Hf. induction Hf as [|c cs H _ IH]; [constructor|]. cbn [flat_map]. apply Forall_app. split; [exact H|exact IH]. }
    assert (Hrs : rs <> []). { intros H. apply aligned_nil in H. destruct cs as [|c cs]; [congruence|]. cbn in H. destruct c; discriminate H. }
    assert (Hok : Forall wrec_ok rs) by (apply aligned_ok, Hall).
    assert (Hl : (16 <= px_len w)%N) by (rewrite L; apply encode_long; [exact Hrs|apply aligned_long, Hall]).
    (* with enough fuel *)
    assert (Full : exists ob zz, fst (do_event_send s fuel w tr) ++ zz = ob /\ Forall sending ob /\ Forall2 (tells root) cs (nshown ob) /\
       stops (snd (do_event_send s fuel w tr)) /\ (snd (do_event_send s fuel w tr) = Ok tt -> zz = [])).
    { unfold do_event_send. rewrite V, P, B. unfold completion. unfold Sys.overwrite. fold rs. set (post := skipn _ _).
      pose proof (send_buffer s root rs Hrs Hok (fuel + length rs) [] post (px_len w) 0 None None tr Hl eq_refl) as (S1 & _ & S3 & S4).
      pose proof (send_buffer s root rs Hrs Hok fuel [] post (px_len w) 0 None None tr Hl eq_refl) as (T1 & T2 & T3 & _).
      cbn zeta in *. cbn [app] in *. destruct (S3 (S4 ltac:(lia))) as (_ & F & Sh).
      destruct (send_begins s root (w_encode rs ++ post) (px_len w) fuel (fuel + length rs) 0 None None ltac:(lia) tr) as (zz & E).
      destruct (snd (send_loop s fuel root (w_encode rs ++ post) (px_len w) 0 None None tr)) as [[]|u| |] eqn:R; try contradiction.
      - destruct (T3 eq_refl) as (_ & F' & Sh'). exists (fst (send_loop s fuel root (w_encode rs ++ post) (px_len w) 0 None None tr)), [].
        rewrite app_nil_r. split; [reflexivity|]. split; [exact T1|]. split; [|auto]. rewrite Sh'. eapply flow_changes; [|exact F']. apply aligned_key.
      - eexists _, zz. split; [reflexivity|]. rewrite <- E. split; [exact S1|]. split; [|split; [exact T2|discriminate]]. rewrite Sh. eapply flow_changes; [|exact F]. apply aligned_key. }
    destruct fuel as [|n].
    { cbn zeta. cbn [send_recv]. destruct Full as (ob & zz & E & So & F & _). exists [], [], (nshown ob). cbn [fst snd pfuel app nshown]. repeat split; auto; constructor. }
    cbn zeta. remember (send_recv s (S n) w tr) as res eqn:ER. cbn [send_recv] in ER. unfold has_event at 1 in ER. rewrite V in ER.
    replace (negb (px_len w =? 0)%N) with true in ER by lia. cbn [andb] in ER.
    destruct Full as (ob & zz & E & So & F & St & Hz). unfold pbind at 1 in ER. destruct (do_event_send s (S n) w tr) as [o1 r1]. cbn [fst snd] in *.
    assert (So1 : Forall sending o1) by (rewrite <- E in So; now apply Forall_app in So as [So _]).
    rewrite <- E, nshown_app in F.
    destruct r1 as [[]|u| |]; try contradiction.
    - specialize (Hz eq_refl). subst zz. cbn [nshown] in F.
      unfold pbind at 1, do_event_recv in ER. rewrite V in ER. unfold pbind at 1, ask in ER. cbn [nf_read system] in ER.
      unfold pret at 1 in ER. cbn [app] in ER. destruct n as [|n]; cbn [send_recv] in ER.
      + unfold pfuel in ER. subst res. cbn [fst snd app]. exists o1, [NRead (RdOk [])], []. repeat split; auto.
      + unfold has_event in ER. cbn [px_valid px_len px_set length N.of_nat N.eqb negb andb] in ER. unfold pret in ER. subst res. cbn [fst snd app].
        exists o1, [NRead (RdOk [])], []. repeat split; auto.
    - subst res. exists o1, [], (nshown zz). rewrite app_nil_r. repeat split; auto.
  Qed.

  (** ** The loop *)
  Definition soon (tr : list nobs) (l : list shape) : Prop := exists dl, split (state e tr) dl /\ Forall2 (tells root) dl (nshown tr ++ l).
  Lemma soon_more tr o z : Forall not_done o -> soon tr (nshown o ++ z) -> soon (tr ++ o) z.
  Proof. intros Q (dl & H & F). exists dl. split; [now apply split_more|]. now rewrite nshown_app, <- app_assoc. Qed.
  Lemma soon_prefix tr o z a b : Forall not_done o -> soon tr (nshown o ++ z) -> o = a ++ b -> sound (tr ++ a).
  Proof.
    intros Q H ->. apply Forall_app in Q as [Q _]. rewrite nshown_app, <- app_assoc in H. apply soon_more in H; [|exact Q].
    destruct H as (dl & H & F). now exists dl, (nshown b ++ z).
  Qed.
  Lemma exact_soon tr : exact tr <-> soon tr [].
  Proof. unfold exact, soon. split; intros (dl & H & F); exists dl; rewrite app_nil_r in *; auto. Qed.
  Lemma in_not_wait o a x b : Forall sending o -> o = a ++ x :: b -> ~ (exists r, x = NWait r) /\ ~ (exists p, x = NState p).
  Proof. intros H ->. apply Forall_app in H as [_ H]. apply Forall_cons_iff in H as [H _]. destruct x; cbn in H; try contradiction; split; intros [? ?]; discriminate. Qed.

  Definition looks (x : nobs) : Prop := (exists r, x = NWait r) \/ (exists p, x = NState p).
  Definition held (tr o : list nobs) : Prop :=
    (forall a b, o = a ++ b -> sound (tr ++ a)) /\ (forall a x b, o = a ++ x :: b -> looks x -> exact (tr ++ a)).
  Lemma held_nil tr : exact tr -> held tr [].
  Proof.
    intros H. split; intros a.
    - intros b E. symmetry in E. apply app_eq_nil in E as [-> _]. rewrite app_nil_r. now apply exact_sound.
    - intros x b E. destruct a; discriminate.
  Qed.
  Lemma held_cons tr x o : exact tr -> held (tr ++ [x]) o -> held tr (x :: o).
  Proof.
    intros H [H1 H2]. split.
    - intros [|y a] b E; [rewrite app_nil_r; now apply exact_sound|]. injection E as <- E. specialize (H1 _ _ E). now rewrite <- app_assoc in H1.
    - intros [|y a] z b E Hz; [now rewrite app_nil_r|]. injection E as <- E. specialize (H2 _ _ _ E Hz). now rewrite <- app_assoc in H2.
  Qed.
  Lemma held_app tr o z o' : Forall not_done o -> Forall (fun x => ~ looks x) o -> soon tr (nshown o ++ z) -> (o' <> [] -> z = [] /\ held (tr ++ o) o') -> held tr (o ++ o').
  Proof.
    intros Q N H H'. split.
    - intros a b E. assert (C : (exists y, o = a ++ y) \/ exists y, o' <> [] /\ a = o ++ y /\ o' = y ++ b).
      { clear -E. revert a E. induction o as [|x o IH]; intros a E.
        - cbn in E. subst o'. destruct a as [|y a]; [left; now exists []|right]. exists (y :: a). split; [discriminate|auto].
        - destruct a as [|y a]; [left; eexists; reflexivity|]. injection E as <- E. destruct (IH _ E) as [(w & ->)|(w & Hn & -> & Ew)]; [left; now exists w|right; now exists w]. }
      destruct C as [(y & E1)|(y & Hn & -> & E1)]; [eapply soon_prefix; eassumption|].
      destruct (H' Hn) as (_ & H1 & _). specialize (H1 _ _ E1). now rewrite <- app_assoc in H1.
    - intros a x b E Hx. assert (C : (exists y, o = a ++ x :: y) \/ exists y, o' <> [] /\ a = o ++ y /\ o' = y ++ x :: b).
      { clear -E. revert a E. induction o as [|v o IH]; intros a E.
        - cbn in E. subst o'. right. exists a. split; [destruct a; discriminate|auto].
        - destruct a as [|y a]; injection E as <- E; [left; eexists; reflexivity|]. destruct (IH _ E) as [(w & ->)|(w & Hn & -> & Ew)]; [left; now exists w|right; now exists w]. }
      destruct C as [(y & ->)|(y & Hn & -> & E1)].
      + exfalso. apply Forall_app in N as [_ N]. apply Forall_cons_iff in N as [N _]. contradiction.
      + destruct (H' Hn) as (_ & _ & H1). specialize (H1 _ _ _ E1 Hx). now rewrite <- app_assoc in H1.
  Qed.
  Lemma loop_held fuel : forall w tr, px_valid w = true -> px_path w = root -> exact tr -> held tr (fst (win_loop s fuel w tr)).
  Proof.
    induction fuel as [|n IH]; intros w tr V P H; [now apply held_nil|].
    remember (S n) as f eqn:Ef. rewrite (loop_turn s n f w tr Ef).
    apply held_cons; [exact H|]. set (b := nf_pending s tr).
    assert (H1 : exact (tr ++ [NState b])) by (apply exact_quiet; [repeat constructor|reflexivity|exact H]).
    destruct b; [|now apply held_nil]. destruct (px_port w); [|now apply IH].
    cbn zeta. apply held_cons; [exact H1|]. set (tr1 := tr ++ [NState true]) in *.
    remember (nf_wait s tr1) as a eqn:Ea. cbn [nf_wait system] in Ea.
    assert (HN : a = WtNone -> held (tr1 ++ [NWait a]) (fst (win_loop s n w (tr1 ++ [NWait a])))).
    { intros ->. apply IH; auto. apply exact_quiet; [repeat constructor|reflexivity|exact H1]. }
    destruct (armed tr1); [|subst a; now apply HN].
    destruct (given (we_want e tr1) (at_call e tr1)) as [|c] eqn:G; [subst a; now apply HN|]. clear HN. subst a.
    set (cs := firstn (S c) (ww_queue (at_call e tr1))). set (bs := completion cs).
    destruct H1 as (dl & Hs & Hf). apply split_happens with (cs := we_ops e tr1) in Hs. fold (at_call e tr1) in Hs. destruct Hs as [Hl Hfine].
    assert (Hq : cs ++ skipn (S c) (ww_queue (at_call e tr1)) = ww_queue (at_call e tr1)) by apply firstn_skipn.
    assert (Hcs : cs <> []). { unfold cs. clear -G. unfold given in G. destruct (ww_queue (at_call e tr1)); [destruct (we_want e tr1); discriminate G|discriminate]. }
    rewrite <- Hq in Hfine. apply Forall_app in Hfine as [Hfc Hfr].
    assert (S2 : split (state e (tr1 ++ [NWait (WtDone bs)])) (dl ++ cs)).
    { rewrite state_snoc. cbn [effect_on]. rewrite G. split; cbn [ww_log ww_queue]; [rewrite Hl, <- app_assoc, Hq; reflexivity|exact Hfr]. }
    assert (N2 : nshown (tr1 ++ [NWait (WtDone bs)]) = nshown tr1) by (rewrite nshown_app; apply app_nil_r).
    set (tr2 := tr1 ++ [NWait (WtDone bs)]) in *.
    set (w1 := px_set w (px_valid w) (Sys.overwrite (px_buf w) bs) (N.of_nat (length bs))).
    destruct (handle f w1 tr2 cs Hcs Hfc V P) as (o1 & tl & z & E & So & Htl & F & R); [|reflexivity|].
    { cbn [px_buf w1 px_set]. fold bs. unfold Sys.overwrite. f_equal. rewrite skipn_app, Nat.sub_diag, skipn_all. reflexivity. }
    cbn zeta in *. rewrite E.
    assert (Q : Forall not_done (o1 ++ tl)) by (apply Forall_app; split; [now apply sending_quiet|destruct Htl as [->| ->]; repeat constructor]).
    assert (NL : Forall (fun x => ~ looks x) (o1 ++ tl)).
    { apply Forall_app. split; [revert So; apply Forall_impl; intros [] X [[? Y]|[? Y]]; try discriminate Y; contradiction|]. destruct Htl as [->| ->]; repeat constructor. intros [[? Y]|[? Y]]; discriminate Y. }
    assert (Nt : nshown tl = []) by (destruct Htl as [->| ->]; reflexivity).
    assert (S3 : soon tr2 (nshown (o1 ++ tl) ++ z)).
    { exists (dl ++ cs). split; [exact S2|]. rewrite N2, nshown_app, Nt, app_nil_r. now apply Forall2_app. }
    apply held_app with (z := z); auto. intros Hne.
    destruct (snd (send_recv s f w1 tr2)) as [w'|u| |]; try (now contradiction Hne).
    destruct R as (-> & _ & V' & P'). split; [reflexivity|]. apply IH; auto.
    apply exact_soon. now apply soon_more.
  Qed.
  (** ** The whole *)
  Hypothesis start : exists d f, we_start e = world_start d f.
  Lemma started_exact tr : Forall not_done tr -> nshown tr = [] -> exact tr.
  Proof.
    destruct start as (d & f & S). intros Q N. exists []. split; [|rewrite N; constructor].
    assert (H0 : split (state e []) []) by (unfold state; cbn; rewrite S; split; [reflexivity|constructor]).
    exact (split_more tr Q [] [] H0).
  Qed.
  Lemma held_quiet tr o o' : Forall not_done o -> nshown o = [] -> exact tr -> held (tr ++ o) o' -> held tr (o ++ o').
  Proof.
    revert tr. induction o as [|x o IH]; intros tr Q N H H'; [rewrite app_nil_r in H'; exact H'|].
    apply Forall_cons_iff in Q as [Q1 Q2]. cbn [app]. apply held_cons; [exact H|].
    assert (Hx : nshown [x] = [] /\ nshown o = []). { destruct x; cbn in *; try discriminate; auto. }
    apply IH; [exact Q2|apply Hx|apply exact_quiet; [repeat constructor; exact Q1|apply Hx|exact H]|]. rewrite <- app_assoc. exact H'.
  Qed.
  Lemma watch_held fuel : held [] (fst (win_watch s fuel root [])).
  Proof.
    assert (E0 : exact []) by (apply started_exact; [constructor|reflexivity]).
    unfold win_watch. rewrite pbind_fst. cbn [app].
    pose proof (make_spec s root []) as [Ho M]. destruct (make_proxy s root []) as [oo [w|u| |]]; cbn [fst snd] in *;
      assert (Q : Forall not_done oo) by (revert Ho; apply Forall_impl; intros []; cbn; tauto);
      assert (N : nshown oo = []) by (clear -Ho; induction Ho as [|x l Hx _ IH]; [reflexivity|]; destruct x; try contradiction; exact IH);
      try (apply held_quiet; auto; apply held_nil, exact_quiet; auto; fail).
    apply held_quiet; auto. assert (E1 : exact ([] ++ oo)) by (now apply exact_quiet). cbn [app] in *.
    unfold win_body. destruct (px_valid w) eqn:V; [|now apply held_nil].
    set (w1 := px_set w true (Sys.overwrite (px_buf w) []) 0).
    assert (R : do_event_recv s w oo = ([NRead (RdOk [])], Ok w1)) by (unfold do_event_recv; rewrite V; reflexivity).
    rewrite pbind_fst, R. cbn [fst snd app].
    apply held_cons; [exact E1|]. assert (E2 : exact (oo ++ [NRead (RdOk [])])) by (apply exact_quiet; [repeat constructor|reflexivity|exact E1]).
    destruct fuel as [|n]; [now apply held_nil|].
    change (first_sends s (S n) w1) with (@pret nobs unit tt). rewrite pbind_ret.
    apply loop_held; auto. cbn. apply M.
  Qed.
  Lemma watch_exact fuel b : snd (win_watch s fuel root []) = Ok b -> exact (fst (win_watch s fuel root [])).
  Proof.
    destruct (win_watch s fuel root []) as [o r] eqn:E. cbn [fst snd]. intros ->.
    destruct b.
    - pose proof (watch_true s fuel root o E) as (o1 & Eo). pose proof (watch_held fuel) as [_ H]. rewrite E in H. cbn [fst] in H.
      specialize (H o1 (NState false) [] Eo ltac:(right; eexists; reflexivity)). cbn [app] in H. rewrite Eo. apply exact_quiet; [repeat constructor|reflexivity|exact H].
    - unfold win_watch in E. apply pbind_inv in E as [(oo & w & o2 & E1 & E2 & ->)|[(u & _ & ?)|[[_ ?]|[_ ?]]]]; try discriminate.
      pose proof (make_spec s root []) as [Ho _]. rewrite E1 in Ho. cbn [fst] in Ho. unfold win_body in E2. destruct (px_valid w) eqn:V.
      + exfalso. apply pbind_inv in E2 as [(o3 & w1 & o4 & E3 & E4 & ->)|[(u & _ & ?)|[[_ ?]|[_ ?]]]]; try discriminate.
        apply pbind_inv in E4 as [(o5 & w2 & o6 & E5 & E6 & ->)|[(u & _ & ?)|[[_ ?]|[_ ?]]]]; try discriminate. apply loop_true in E6 as [? _]. discriminate.
      + injection E2 as <-. rewrite app_nil_r. apply started_exact.
        * revert Ho. apply Forall_impl. intros []; cbn; tauto.
        * clear -Ho. induction Ho as [|x l Hx _ IH]; [reflexivity|]. destruct x; try contradiction; exact IH.
  Qed.
End Env.

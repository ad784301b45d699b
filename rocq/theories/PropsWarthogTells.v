(** Theorem C159: the fallback adapter tells every difference that it sees, whatever the
    filesystem does (include/wtr/watcher.hpp:1995-2188). *)
From Verif Require Import Base EventModel InotifySpec Mon WarthogModel WarthogSpec PropsWarthog PropsWarthogWhole.

(** What the answers so far say of each path's last-write time.  An answer counts for the path
    asked about, with two exceptions.  A refusal right after the answer that the path is a
    regular file makes its time unknown.  Any other refusal makes the next answer, which is
    asked for at once, count for that path instead. *)
Record mem := Mem { known : text -> option Z; regular : option text; refused : option text }.
Definition know (p : text) (t : option Z) (k : text -> option Z) : text -> option Z := fun q => if text_eqb q p then t else k q.
Definition hear (m : mem) (x : wobs) : mem :=
  match x with
  | WIsReg p (Some true) => Mem (known m) (Some p) None
  | WTime p (Some t) => Mem (know (match refused m with Some q => q | None => p end) (Some t) (known m)) None None
  | WTime p None => match regular m with Some _ => Mem (know p None (known m)) None None | None => Mem (known m) None (Some p) end
  | _ => Mem (known m) None None
  end.
Definition heard (o : list wobs) : mem := fold_left hear o (Mem (fun _ => None) None None).
Definition time_of (p : text) (o : list wobs) : option Z := known (heard o) p.

(** After the answer that [p] is a regular file comes that of its time.  If it is not the one
    known, or is refused, the callback is called next, with the clock's time. *)
Definition due (p : text) (t0 t : option Z) : option shape :=
  match t, t0 with
  | None, _ => Some (Sh p EtDestroy PtFile None)
  | Some _, None => Some (Sh p EtCreate PtFile None)
  | Some t, Some t0 => if (t0 =? t)%Z then None else Some (Sh p EtModify PtFile None)
  end.
Definition told (o : list wobs) : Prop :=
  forall a p t rest d, o = a ++ WIsReg p (Some true) :: WTime p t :: rest -> due p (time_of p a) t = Some d ->
    exists e rest', rest = WNow (ev_time e) :: WCb e :: rest' /\ shape_of e = d.

Lemma heard_app a b : heard (a ++ b) = fold_left hear b (heard a).
Proof. apply fold_left_app. Qed.
Lemma two_split {A} (l1 : list A) : forall l2 a x y r, l1 ++ l2 = a ++ x :: y :: r ->
  (exists r', l1 = a ++ x :: y :: r' /\ r = r' ++ l2) \/ (l1 = a ++ [x] /\ l2 = y :: r) \/ exists a', a = l1 ++ a' /\ l2 = a' ++ x :: y :: r.
Proof.
  induction l1 as [|z l1 IH]; intros l2 a x y r E; [right; right; now exists a|]. destruct a as [|w a]; cbn in E.
  - injection E as -> E. destruct l1 as [|u l1]; cbn in E; [right; left; now split|]. injection E as -> <-. left. exists l1. now split.
  - injection E as -> E. destruct (IH _ _ _ _ _ E) as [(r' & -> & ->)|[[-> ->]|(a' & -> & ->)]]; [left; now exists r'|right; left; now split|right; right; now exists a'].
Qed.

(** No question about a time is open. *)
Definition shut (o : list wobs) : Prop := forall a p, o <> a ++ [WIsReg p (Some true)].
Definition mild (x : wobs) : Prop := match x with WIsReg _ (Some true) => False | _ => True end.
Lemma shut_snoc o x : mild x -> shut (o ++ [x]).
Proof. intros H a p E. apply app_inj_tail in E as [_ ->]. exact H. Qed.
Lemma shut_nil : shut [].
Proof. intros [|] p E; discriminate E. Qed.

(** A piece is added that has no such question, or has it, with the answer told of. *)
Lemma told_more tr o : told tr -> shut tr ->
  (forall a p t rest d, o = a ++ WIsReg p (Some true) :: WTime p t :: rest -> due p (time_of p (tr ++ a)) t = Some d ->
    exists e rest', rest = WNow (ev_time e) :: WCb e :: rest' /\ shape_of e = d) ->
  told (tr ++ o).
Proof.
  intros T S H a p t rest d E L. destruct (two_split _ _ _ _ _ _ E) as [(r' & E' & ->)|[[E' _]|(a' & -> & E')]].
  - destruct (T _ _ _ _ _ E' L) as (e & r'' & -> & He). exists e, (r'' ++ o). now split.
  - now contradiction (S a p).
  - exact (H a' p t rest d E' L).
Qed.
Lemma told_one tr x : told tr -> shut tr -> told (tr ++ [x]).
Proof. intros T S. apply told_more; [exact T|exact S|]. intros [|u [|]] p t rest d E; discriminate E. Qed.

Section S.
  Variable s : wfs.
  Variable root : text.
  Definition fresh (tr : list wobs) : Prop := told tr /\ shut tr.
  Definition knows (b : bucket) (tr : list wobs) : Prop := fresh tr /\ (forall p, tfind p b = time_of p tr) /\ refused (heard tr) = None /\ regular (heard tr) = None.
  Definition keeps {A} (P : list wobs -> Prop) (m : pm wobs A) (Q : A -> list wobs -> Prop) : Prop :=
    forall tr, P tr -> told (tr ++ fst (m tr)) /\ forall a, snd (m tr) = Ok a -> Q a (tr ++ fst (m tr)).
  Lemma k_bind {A B} (P : list wobs -> Prop) Q R (m : pm wobs A) (k : A -> pm wobs B) : keeps P m Q -> (forall a, keeps (Q a) (k a) R) -> keeps P (pbind m k) R.
  Proof.
    intros Hm Hk tr Pt. destruct (Hm tr Pt) as [H1 H2]. unfold pbind. destruct (m tr) as [o1 [a|u| |]]; cbn [fst snd] in *; try (split; [exact H1|discriminate]).
    destruct (Hk a (tr ++ o1) (H2 a eq_refl)) as [H3 H4]. destruct (k a (tr ++ o1)) as [o2 r]. cbn [fst snd] in *. rewrite app_assoc. now split.
  Qed.
  Lemma k_ret {A} (P : list wobs -> Prop) (a : A) (Q : A -> list wobs -> Prop) : (forall tr, P tr -> told tr /\ Q a tr) -> keeps P (pret a) Q.
  Proof. intros H tr Pt. cbn. rewrite app_nil_r. destruct (H tr Pt). split; [assumption|]. now intros b [= <-]. Qed.
  Lemma k_end {A} (P : list wobs -> Prop) (Q : A -> list wobs -> Prop) (r : out A) : (forall tr, P tr -> told tr) -> (forall a, r <> Ok a) -> keeps P (fun _ => ([], r)) Q.
  Proof. intros Ht H tr Pt. cbn. rewrite app_nil_r. split; [now apply Ht|]. intros a E. now contradiction (H a). Qed.
  Lemma k_weaken {A} (P P' : list wobs -> Prop) (m : pm wobs A) Q : (forall tr, P tr -> P' tr) -> keeps P' m Q -> keeps P m Q.
  Proof. intros H K tr Pt. apply K; auto. Qed.
  Lemma one_event n p f : exists e, [WNow n; WCb (ev_make n p f PtFile)] = [WNow (ev_time e); WCb e] /\ shape_of e = Sh p f PtFile None.
  Proof. now exists (ev_make n p f PtFile). Qed.
  (** A question other than the two. *)
  Definition aside (x : wobs) : Prop := match x with WIsReg _ _ | WTime _ _ => False | _ => True end.
  Lemma knows_aside b tr x : knows b tr -> aside x -> knows b (tr ++ [x]).
  Proof.
    intros [[T S] [K [R G]]] H. split; [split; [now apply told_one|apply shut_snoc; now destruct x as [| | | | |? [[|]|]| | |]]|].
    unfold time_of. rewrite heard_app. cbn. split; [|split]; [intros p; rewrite K; unfold time_of; now destruct x|now destruct x|now destruct x].
  Qed.
  Lemma k_ask {A} b (f : list wobs -> A) ob : (forall a, aside (ob a)) -> keeps (knows b) (ask f ob) (fun _ => knows b).
  Proof. intros H tr K. cbn. pose proof (knows_aside b tr (ob (f tr)) K (H _)) as X. split; [apply X|]. intros a _. exact X. Qed.
  Lemma k_question {A} b (f : list wobs -> option A) ob : (forall a, aside (ob a)) -> keeps (knows b) (or_throw (ask f ob)) (fun _ => knows b).
  Proof.
    intros H. unfold or_throw. eapply k_bind; [now apply k_ask|]. intros [a|]; [apply k_ret; intros tr K; split; [apply K|exact K]|apply k_end; [intros tr K; apply K|discriminate]].
  Qed.
  Lemma knows_time b tr p t : knows b tr -> knows (tset p t b) (tr ++ [WTime p (Some t)]).
  Proof.
    intros [[T S] [K [R G]]]. split; [split; [now apply told_one|now apply shut_snoc]|]. unfold time_of. rewrite heard_app. cbn. rewrite R. split; [|now split].
    intros q. unfold tset, know. cbn [tfind]. destruct (text_eqb q p) eqn:X; [reflexivity|]. rewrite tfind_terase, X. apply K.
  Qed.

  Lemma k_file p b : keeps (knows b) (scan_file s p b) (fun r tr => knows (snd r) tr).
  Proof.
    intros tr K. unfold scan_file.
    set (x1 := WExists p (wf_exists s tr p)). pose proof (knows_aside b tr x1 K Coq.Init.Logic.I) as K1.
    unfold w_exists, w_isreg, w_time, w_send, or_throw. unfold pbind, ask, emit, pret, pcrash. cbn [fst snd].
    fold x1. destruct (wf_exists s tr p) as [[|]|] eqn:E1; cbn [fst snd app].
    2:{ split; [apply K1|]. now intros a [= <-]. }
    2:{ split; [apply K1|]. discriminate. }
    rewrite ?app_nil_r. set (x2 := WIsReg p (wf_isreg s (tr ++ [x1]) p)).
    assert (A2 : tr ++ [x1; x2] = (tr ++ [x1]) ++ [x2]) by (rewrite <- app_assoc; reflexivity).
    destruct (wf_isreg s (tr ++ [x1]) p) as [[|]|] eqn:E2; cbn [fst snd app]; rewrite ?app_nil_r.
    2:{ rewrite A2. assert (K2 : knows b ((tr ++ [x1]) ++ [x2])).
        { destruct K1 as [[T S] [K1 [R G]]]. split; [split; [now apply told_one|now apply shut_snoc]|]. unfold time_of. rewrite heard_app. cbn. split; [exact K1|now split]. }
        split; [apply K2|]. now intros a [= <-]. }
    2:{ rewrite A2. destruct K1 as [[T S] _]. split; [now apply told_one|discriminate]. }
    rewrite <- !app_assoc. cbn [app]. set (x3 := WTime p (wf_time s (tr ++ [x1; x2]) p)).
    destruct K as [[T S] [K [R G]]].
    assert (Blk : forall o, (forall d, due p (tfind p b) (wf_time s (tr ++ [x1; x2]) p) = Some d -> exists e, o = [WNow (ev_time e); WCb e] /\ shape_of e = d) ->
      (o = [] \/ exists n e, o = [WNow n; WCb e]) -> told (tr ++ x1 :: x2 :: x3 :: o) /\ shut (tr ++ x1 :: x2 :: x3 :: o)).
    { intros o Ho Hs. split.
      - apply told_more; [exact T|exact S|]. intros a q t rest d E L.
        assert (Ea : a = [x1] /\ q = p /\ wf_time s (tr ++ [x1; x2]) p = t /\ rest = o).
        { destruct a as [|y1 [|y2 [|y3 a]]]; cbn in E; unfold x1, x2, x3 in *.
          - discriminate E.
          - injection E; intros; subst. repeat split; congruence.
          - discriminate E.
          - injection E as _ _ _ E. exfalso. destruct Hs as [->|(n & e & ->)]; [destruct a; discriminate E|]. destruct a as [|? [|? [|? ?]]]; discriminate E. }
        destruct Ea as (-> & -> & <- & ->). unfold time_of in L. rewrite heard_app in L. cbn in L. rewrite <- (K p : _ = known (heard tr) p) in L.
        destruct (Ho d L) as (e & -> & He). exists e, []. now split.
      - intros a q E. destruct Hs as [->|(n & e & ->)].
        + change [x1; x2; x3] with ([x1; x2] ++ [x3]) in E. rewrite app_assoc in E. apply app_inj_tail in E as [_ E]. discriminate E.
        + change [x1; x2; x3; WNow n; WCb e] with ([x1; x2; x3; WNow n] ++ [WCb e]) in E. rewrite app_assoc in E. apply app_inj_tail in E as [_ E]. discriminate E. }
    assert (Knew : forall o, (o = [] \/ exists n e, o = [WNow n; WCb e]) ->
      (forall q, time_of q (tr ++ x1 :: x2 :: x3 :: o) = if text_eqb q p then wf_time s (tr ++ [x1; x2]) p else tfind q b) /\
      refused (heard (tr ++ x1 :: x2 :: x3 :: o)) = None /\ regular (heard (tr ++ x1 :: x2 :: x3 :: o)) = None).
    { intros o Hs. assert (Eo : heard (tr ++ x1 :: x2 :: x3 :: o) = Mem (know p (wf_time s (tr ++ [x1; x2]) p) (known (heard tr))) None None).
      { rewrite heard_app. unfold x1, x2, x3. destruct Hs as [->|(n & e & ->)]; cbn; now destruct (wf_time s _ p). }
      unfold time_of. rewrite Eo. cbn. split; [|now split]. intros q. unfold know. destruct (text_eqb q p); [reflexivity|]. symmetry. apply K. }
    assert (Fin : forall b' o, (forall d, due p (tfind p b) (wf_time s (tr ++ [x1; x2]) p) = Some d -> exists e, o = [WNow (ev_time e); WCb e] /\ shape_of e = d) ->
      (o = [] \/ exists n e, o = [WNow n; WCb e]) -> (forall q, tfind q b' = if text_eqb q p then wf_time s (tr ++ [x1; x2]) p else tfind q b) ->
      told (tr ++ x1 :: x2 :: x3 :: o) /\ forall a, Ok (true, b') = Ok a -> knows (snd a) (tr ++ x1 :: x2 :: x3 :: o)).
    { intros b' o H1 H2 H3. destruct (Blk o H1 H2) as [B1 B2]. split; [exact B1|]. intros a [= <-]. destruct (Knew o H2) as [N1 N2]. split; [now split|]. split; [|exact N2].
      intros q. cbn [snd]. now rewrite H3, N1. }
    clear Blk Knew K1.
    assert (Same : forall q, text_eqb q p = true -> q = p) by (intros q; apply text_eqb_eq).
    destruct (wf_time s (tr ++ [x1; x2]) p) as [t|] eqn:E3; cbn [fst snd app].
    - destruct (tfind p b) as [t0|] eqn:E4.
      + destruct (t0 =? t)%Z eqn:E5; cbn [fst snd app].
        * apply Fin; [cbn; rewrite E5; discriminate|now left|]. apply Z.eqb_eq in E5. subst t0. intros q. destruct (text_eqb q p) eqn:X; [apply Same in X; now subst q|reflexivity].
        * rewrite <- ?app_assoc. cbn [fst snd app]. apply Fin; [cbn; rewrite E5; intros d [= <-]; apply one_event|right; eexists _, _; reflexivity|].
          intros q. unfold tset. cbn [tfind]. destruct (text_eqb q p) eqn:X; [reflexivity|]. now rewrite tfind_terase, X.
      + rewrite <- ?app_assoc. cbn [fst snd app]. apply Fin; [intros d [= <-]; apply one_event|right; eexists _, _; reflexivity|].
        intros q. unfold tset. cbn [tfind]. destruct (text_eqb q p) eqn:X; [reflexivity|]. now rewrite tfind_terase, X.
    - rewrite <- ?app_assoc. cbn [fst snd app]. apply Fin; [intros d [= <-]; apply one_event|right; eexists _, _; reflexivity|].
      intros q. destruct (tfind p b) as [t0|] eqn:E4; [apply tfind_terase|]. destruct (text_eqb q p) eqn:X; [apply Same in X; now subst q|reflexivity].
  Qed.
  Lemma k_each body : (forall p b, keeps (knows b) (body p b) knows) -> forall es b, keeps (knows b) (weach body es b) knows.
  Proof.
    intros H. induction es as [|e es IH]; intros b; [apply k_ret; intros tr K; split; [apply K|exact K]|]. cbn [weach]. eapply k_bind; [apply H|]. exact IH.
  Qed.
  Lemma k_walk body : (forall p b, keeps (knows b) (body p b) knows) -> forall b, keeps (knows b) (for_walk s root body b) knows.
  Proof.
    intros H b. unfold for_walk. eapply k_bind; [apply k_ask; intros; exact Coq.Init.Logic.I|]. intros [es th].
    eapply k_bind; [now apply k_each|]. intros b'. destruct th; [apply k_end; [intros tr K; apply K|discriminate]|apply k_ret; intros tr K; split; [apply K|exact K]].
  Qed.
  Lemma k_directory b : keeps (knows b) (scan_directory s root b) (fun r tr => knows (snd r) tr).
  Proof.
    unfold scan_directory. eapply k_bind; [apply k_question; intros; exact Coq.Init.Logic.I|]. intros [|]; cbn.
    - eapply k_bind.
      + apply k_walk. intros p b'. eapply k_bind; [apply k_file|]. intros r. apply k_ret; intros tr K; split; [apply K|exact K].
      + intros b'. apply k_ret; intros tr K; split; [apply K|exact K].
    - apply k_ret; intros tr K; split; [apply K|exact K].
  Qed.
  Lemma k_scan b : keeps (knows b) (scan s root b) (fun r tr => knows (snd r) tr).
  Proof.
    unfold scan. eapply k_bind; [apply k_directory|]. intros [r b']. cbn [fst snd]. destruct r; [apply k_ret; intros tr K; split; [apply K|exact K]|apply k_file].
  Qed.
  (** The time of a path is asked for; if it is refused, the watched path's is taken. *)
  Lemma k_note p b : keeps (knows b) (ts <- w_time s p ;; match ts with Some t => pret (tset p t b) | None => t <- w_time_throwing s root ;; pret (tset p t b) end) knows.
  Proof.
    unfold w_time, w_time_throwing. eapply k_bind with (Q := fun ts tr => match ts with Some t => knows (tset p t b) tr
      | None => fresh tr /\ (forall q, tfind q b = time_of q tr) /\ refused (heard tr) = Some p end).
    - intros tr K. cbn. destruct (wf_time s tr p) as [t|].
      + pose proof (knows_time b tr p t K) as X. split; [apply X|]. now intros a [= <-].
      + destruct K as [[T S] [K [R G]]].
        assert (F : fresh (tr ++ [WTime p None])) by (split; [now apply told_one|now apply shut_snoc]).
        split; [apply F|]. intros a [= <-]. split; [exact F|]. unfold time_of. rewrite heard_app. cbn. rewrite G. now split.
    - intros [t|]; [apply k_ret; intros tr K; split; [apply K|exact K]|]. intros tr [[T S] [K R]]. unfold or_throw, w_time, pbind, ask, pret, pcrash. cbn.
      assert (X : fresh (tr ++ [WTime root (wf_time s tr root)])) by (split; [now apply told_one|now apply shut_snoc]).
      destruct (wf_time s tr root) as [t|]; cbn; (split; [apply X|]); [|discriminate]. intros a [= <-]. split; [exact X|].
      unfold time_of. rewrite heard_app. cbn. rewrite R. split; [|now split]. intros q. unfold tset, know. cbn [tfind]. destruct (text_eqb q p) eqn:Y; [reflexivity|].
      rewrite tfind_terase, Y. apply K.
  Qed.
  Lemma k_populate : keeps (knows []) (populate s root []) (fun r tr => knows (snd r) tr /\ (fst r = false -> snd r = [])).
  Proof.
    unfold populate. eapply k_bind; [apply k_question; intros; exact Coq.Init.Logic.I|]. intros [|]; cbn [negb].
    2:{ apply k_ret. intros tr K. split; [apply K|]. now split. }
    eapply k_bind; [apply k_question; intros; exact Coq.Init.Logic.I|]. intros [|]; cbn [negb].
    2:{ intros tr K. unfold w_time_throwing, or_throw, w_time, pbind, ask, pret, pcrash, pundef. cbn.
        assert (X : told (tr ++ [WTime root (wf_time s tr root)])) by (destruct K as [[T S] _]; now apply told_one).
        destruct (wf_time s tr root) as [t|]; cbn; (split; [exact X|discriminate]). }
    eapply k_bind; [apply k_walk; intros p b; apply k_note|]. intros b'. apply k_ret. intros tr K. split; [apply K|]. split; [exact K|discriminate].
  Qed.
  Lemma k_tend b : keeps (knows b) (tend_bucket s root b) (fun r tr => knows (snd r) tr).
  Proof.
    destruct b as [|x b]; cbn [tend_bucket]; [|apply k_ret; intros tr K; split; [apply K|exact K]]. eapply k_bind; [apply k_populate|]. intros [[|] b']; cbn [fst snd].
    - apply k_ret. cbn. intros tr [K _]. split; [apply K|exact K].
    - intros tr [K E]. specialize (E eq_refl). subst b'. cbn. rewrite app_nil_r. split; [apply K|]. now intros a [= <-].
  Qed.
  Lemma k_loop fuel : forall b, keeps (knows b) (warthog_loop s fuel root b) (fun _ _ => True).
  Proof.
    induction fuel as [|n IH]; intros b; [apply k_end; [intros tr K; apply K|discriminate]|]. cbn [warthog_loop].
    eapply k_bind; [apply k_ask; intros; exact Coq.Init.Logic.I|]. intros [|]; cbn [negb]; [|apply k_ret; intros tr K; split; [apply K|exact Coq.Init.Logic.I]].
    eapply k_bind; [apply k_tend|]. intros [r1 b1]. cbn [fst snd]. destruct r1; cbn [negb]; [|apply k_ret; intros tr K; split; [apply K|exact Coq.Init.Logic.I]].
    eapply k_bind; [apply k_scan|]. intros [r2 b2]. cbn [fst snd]. destruct r2; cbn [negb]; [apply IH|apply k_ret; intros tr K; split; [apply K|exact Coq.Init.Logic.I]].
  Qed.
End S.

(** In every run on every filesystem. *)
Theorem C159_fallback_tells_what_it_sees : forall s fuel root a p t rest d,
  fst (warthog_watch s fuel root []) = a ++ WIsReg p (Some true) :: WTime p t :: rest -> due p (time_of p a) t = Some d ->
  exists e rest', rest = WNow (ev_time e) :: WCb e :: rest' /\ shape_of e = d.
Proof.
  intros s fuel root a p t rest d E L. destruct (k_loop s root fuel [] []) as [T _]; [|exact (T a p t rest d E L)].
  split; [split; [|exact shut_nil]|split; [reflexivity|now split]]. intros [|] q u r d' X; discriminate X.
Qed.
Print Assumptions C159_fallback_tells_what_it_sees.

(** In the run of C104's example: the second answer for a file that has changed. *)
Example C159_example : exists a rest,
  fst (warthog_watch (hist (lit "/w") 5 c104_h) 9 (lit "/w") []) = a ++ WIsReg (lit "/w/a") (Some true) :: WTime (lit "/w/a") (Some 2%Z) :: rest /\
  time_of (lit "/w/a") a = Some 1%Z.
Proof.
  set (o := fst (warthog_watch (hist (lit "/w") 5 c104_h) 9 (lit "/w") [])). exists (firstn 27 o), (skipn 29 o). vm_compute. auto.
Qed.
(** What is known after a refusal, in a scan and in the first look. *)
Example time_of_example :
  time_of [1%N] [WTime [1%N] (Some 5%Z); WIsReg [1%N] (Some true); WTime [1%N] None] = None /\
  time_of [1%N] [WTime [1%N] None; WTime [9%N] (Some 7%Z)] = Some 7%Z /\
  time_of [9%N] [WTime [1%N] None; WTime [9%N] (Some 7%Z)] = None.
Proof. repeat split. Qed.

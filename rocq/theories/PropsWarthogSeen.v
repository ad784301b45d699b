(** Theorem C158: the fallback adapter tells only of what it has just seen, whatever the
    filesystem does (include/wtr/watcher.hpp:1995-2188). *)
From Verif Require Import Base EventModel InotifySpec Mon WarthogModel WarthogSpec PropsWarthog PropsWarthogWhole.

(** Right before the callback is called with [e] the watcher has looked, in this order: that
    [e]'s path exists, that it is a regular file, when it was last written, and what time it is
    now, which is the time of the event.  The path is the watched one or was in a listing of it.
    The event says destroyed if there was no answer to the third question; otherwise created or
    modified, and modified only if another time had been answered before, to the same question
    or to that for the watched path. *)
Definition saw (root : text) (o : list wobs) (e : event) : Prop :=
  exists p before last, o = before ++ [WExists p (Some true); WIsReg p (Some true); WTime p last; WNow (ev_time e)] /\
    (p = root \/ exists es th, In (WWalk root es th) before /\ In p es) /\
    match last with
    | None => shape_of e = Sh p EtDestroy PtFile None
    | Some t => shape_of e = Sh p EtCreate PtFile None \/
        (shape_of e = Sh p EtModify PtFile None /\ exists t0, t0 <> t /\ (In (WTime p (Some t0)) before \/ In (WTime root (Some t0)) before))
    end.
Definition justified (root : text) (o : list wobs) : Prop := forall o1 e o2, o = o1 ++ WCb e :: o2 -> saw root o1 e.

Definition silent (x : wobs) : Prop := match x with WCb _ => False | _ => True end.
Lemma last_split {A} (l : list A) x l1 y l2 : l ++ [x] = l1 ++ y :: l2 ->
  (exists l2', l2 = l2' ++ [x] /\ l = l1 ++ y :: l2') \/ (l1 = l /\ y = x /\ l2 = []).
Proof.
  destruct l2 as [|z l2] using rev_ind; intros H.
  - apply app_inj_tail in H as [-> ->]. auto.
  - left. exists l2. change (l1 ++ y :: l2 ++ [z]) with (l1 ++ (y :: l2) ++ [z]) in H. rewrite app_assoc in H. apply app_inj_tail in H as [-> ->]. auto.
Qed.

Section S.
  Variable s : wfs.
  Variable root : text.
  Lemma just_nil : justified root [].
  Proof. intros [|] e o2 E; discriminate E. Qed.
  Lemma just_silent o x : justified root o -> silent x -> justified root (o ++ [x]).
  Proof.
    intros J Sx o1 e o2 E. destruct (last_split _ _ _ _ _ E) as [(o3 & -> & E')|(-> & E' & ->)]; [exact (J _ _ _ E')|]. subst x. contradiction.
  Qed.
  Lemma just_event o e : justified root o -> saw root o e -> justified root (o ++ [WCb e]).
  Proof.
    intros J Sx o1 e' o2 E. destruct (last_split _ _ _ _ _ E) as [(o3 & -> & E')|(-> & E' & ->)]; [exact (J _ _ _ E')|]. now injection E' as ->.
  Qed.

  (** From a justified log where [P] holds, [m] goes on to one, where [Q] holds if it has a result. *)
  Definition keeps {A} (P : list wobs -> Prop) (m : pm wobs A) (Q : A -> list wobs -> Prop) : Prop :=
    forall tr, justified root tr -> P tr -> justified root (tr ++ fst (m tr)) /\ forall a, snd (m tr) = Ok a -> Q a (tr ++ fst (m tr)).
  Lemma k_bind {A B} (P : list wobs -> Prop) Q R (m : pm wobs A) (k : A -> pm wobs B) : keeps P m Q -> (forall a, keeps (Q a) (k a) R) -> keeps P (pbind m k) R.
  Proof.
    intros Hm Hk tr J Pt. destruct (Hm tr J Pt) as [H1 H2]. unfold pbind. destruct (m tr) as [o1 [a|u| |]]; cbn [fst snd] in *; try (split; [exact H1|discriminate]).
    destruct (Hk a (tr ++ o1) H1 (H2 a eq_refl)) as [H3 H4]. destruct (k a (tr ++ o1)) as [o2 r]. cbn [fst snd] in *. rewrite app_assoc. now split.
  Qed.
  Lemma k_ret {A} (P : list wobs -> Prop) (a : A) (Q : A -> list wobs -> Prop) : (forall tr, P tr -> Q a tr) -> keeps P (pret a) Q.
  Proof. intros H tr J Pt. cbn. rewrite app_nil_r. split; [exact J|]. intros b [= <-]. auto. Qed.
  Lemma k_end {A} (P : list wobs -> Prop) (Q : A -> list wobs -> Prop) (r : out A) : (forall a, r <> Ok a) -> keeps P (fun _ => ([], r)) Q.
  Proof. intros H tr J Pt. cbn. rewrite app_nil_r. split; [exact J|]. intros a E. now contradiction (H a). Qed.
  Lemma k_ask {A} (P : list wobs -> Prop) (f : list wobs -> A) ob (Q : A -> list wobs -> Prop) : (forall a, silent (ob a)) -> (forall a tr, P tr -> Q a (tr ++ [ob a])) -> keeps P (ask f ob) Q.
  Proof. intros H1 H2 tr J Pt. cbn. split; [now apply just_silent|]. intros a [= <-]. auto. Qed.
  Lemma k_weaken {A} (P P' : list wobs -> Prop) (m : pm wobs A) Q : (forall tr, P tr -> P' tr) -> keeps P' m Q -> keeps P m Q.
  Proof. intros H K tr J Pt. apply K; auto. Qed.

  (** What the remembered times are; which paths were listed. *)
  Definition known (b : bucket) (tr : list wobs) : Prop :=
    forall p t, tfind p b = Some t -> In (WTime p (Some t)) tr \/ In (WTime root (Some t)) tr.
  Definition listed (p : text) (tr : list wobs) : Prop := p = root \/ exists es th, In (WWalk root es th) tr /\ In p es.
  Lemma known_app b tr o : known b tr -> known b (tr ++ o).
  Proof. intros H p t E. rewrite !in_app_iff. destruct (H p t E); auto. Qed.
  Lemma listed_app p tr o : listed p tr -> listed p (tr ++ o).
  Proof. intros [->|(es & th & H & Hp)]; [now left|right]. exists es, th. rewrite in_app_iff. auto. Qed.
  Lemma known_set b p t tr : known b tr -> In (WTime p (Some t)) tr \/ In (WTime root (Some t)) tr -> known (tset p t b) tr.
  Proof.
    intros H Hp q u E. unfold tset in E. cbn [tfind] in E. destruct (text_eqb q p) eqn:X.
    - apply text_eqb_eq in X as ->. now injection E as <-.
    - rewrite tfind_terase, X in E. now apply H.
  Qed.
  Lemma known_erase b p tr : known b tr -> known (terase p b) tr.
  Proof. intros H q u E. rewrite tfind_terase in E. destruct (text_eqb q p); [discriminate|now apply H]. Qed.
  Lemma known_nil tr : known [] tr.
  Proof. intros p t E. discriminate E. Qed.

  Definition inv (b : bucket) (p : text) (tr : list wobs) : Prop := known b tr /\ listed p tr.

  (** Looking at one path. *)
  Lemma k_file p b : keeps (inv b p) (scan_file s p b) (fun r tr => known (snd r) tr).
  Proof.
    intros tr J [K L]. unfold scan_file.
    set (x1 := WExists p (wf_exists s tr p)).
    assert (J1 : justified root (tr ++ [x1])) by (apply just_silent; [exact J|exact Coq.Init.Logic.I]).
    unfold w_exists, w_isreg, w_time, w_send, or_throw. unfold pbind, ask, emit, pret, pcrash. cbn [fst snd].
    fold x1. destruct (wf_exists s tr p) as [[|]|] eqn:E1; cbn [fst snd app].
    2:{ split; [exact J1|]. intros a [= <-]. now apply known_app. }
    2:{ split; [exact J1|]. discriminate. }
    rewrite ?app_nil_r. set (x2 := WIsReg p (wf_isreg s (tr ++ [x1]) p)).
    assert (J2 : justified root (tr ++ [x1; x2])).
    { change [x1; x2] with ([x1] ++ [x2]). rewrite app_assoc. apply just_silent; [exact J1|exact Coq.Init.Logic.I]. }
    destruct (wf_isreg s (tr ++ [x1]) p) as [[|]|] eqn:E2; cbn [fst snd app]; rewrite ?app_nil_r.
    2:{ split; [exact J2|]. intros a [= <-]. now apply known_app. }
    2:{ split; [exact J2|]. discriminate. }
    rewrite <- !app_assoc. cbn [app]. set (x3 := WTime p (wf_time s (tr ++ [x1; x2]) p)).
    assert (J3 : justified root (tr ++ [x1; x2; x3])).
    { change [x1; x2; x3] with ([x1; x2] ++ [x3]). rewrite app_assoc. apply just_silent; [exact J2|exact Coq.Init.Logic.I]. }
    assert (Told : forall f (n := wf_now s (tr ++ [x1; x2; x3])), saw root (tr ++ [x1; x2; x3; WNow n]) (ev_make n p f PtFile) ->
      justified root (tr ++ [x1; x2; x3; WNow n; WCb (ev_make n p f PtFile)])).
    { intros f n W. change [x1; x2; x3; WNow n; WCb (ev_make n p f PtFile)] with ([x1; x2; x3; WNow n] ++ [WCb (ev_make n p f PtFile)]). rewrite app_assoc. apply just_event; [|exact W].
      change [x1; x2; x3; WNow n] with ([x1; x2; x3] ++ [WNow n]). rewrite app_assoc. apply just_silent; [exact J3|exact Coq.Init.Logic.I]. }
    assert (Saw : forall f (n := wf_now s (tr ++ [x1; x2; x3])),
      match wf_time s (tr ++ [x1; x2]) p with
      | None => f = EtDestroy
      | Some t => f = EtCreate \/ f = EtModify /\ exists t0, t0 <> t /\ (In (WTime p (Some t0)) tr \/ In (WTime root (Some t0)) tr)
      end -> saw root (tr ++ [x1; x2; x3; WNow n]) (ev_make n p f PtFile)).
    { intros f n H. exists p, tr, (wf_time s (tr ++ [x1; x2]) p). split; [|split; [exact L|]].
      - unfold x1, x2, x3. reflexivity.
      - destruct (wf_time s (tr ++ [x1; x2]) p) as [t|]; [|now subst f]. destruct H as [->|[-> H]]; [now left|right; now split]. }
    destruct (wf_time s (tr ++ [x1; x2]) p) as [t|] eqn:E3; cbn [fst snd app].
    - destruct (tfind p b) as [t0|] eqn:E4.
      + destruct (t0 =? t)%Z eqn:E5; cbn [fst snd app].
        * split; [exact J3|]. intros a [= <-]. now apply known_app.
        * rewrite <- ?app_assoc. cbn [fst snd app]. apply Z.eqb_neq in E5. split; [apply Told, Saw; right; split; [reflexivity|]; exists t0; split; [exact E5|now apply K]|].
          intros a [= <-]. cbn [snd]. apply known_set; [now apply known_app|]. left. rewrite in_app_iff. right. unfold x3. cbn. auto.
      + rewrite <- ?app_assoc. cbn [fst snd app]. split; [apply Told, Saw; now left|].
        intros a [= <-]. cbn [snd]. apply known_set; [now apply known_app|]. left. rewrite in_app_iff. right. unfold x3. cbn. auto.
    - rewrite <- ?app_assoc. cbn [fst snd app]. split; [apply Told, Saw; reflexivity|].
      intros a [= <-]. cbn [snd]. destruct (tfind p b); [apply known_erase|]; now apply known_app.
  Qed.

  (** Nothing that was in a log is taken out of it, so what is listed stays so. *)
  Lemma k_each body : (forall p b, keeps (inv b p) (body p b) known) ->
    forall es b, keeps (fun tr => known b tr /\ Forall (fun p => listed p tr) es) (weach body es b) known.
  Proof.
    intros H. induction es as [|e es IH]; intros b; [apply k_ret; tauto|]. cbn [weach]. intros tr J [K F]. apply Forall_cons_iff in F as [Fe Fs].
    destruct (H e b tr J (conj K Fe)) as [H1 H2]. unfold pbind. destruct (body e b tr) as [o1 [b'|u| |]]; cbn [fst snd] in *; try (split; [exact H1|discriminate]).
    destruct (IH b' (tr ++ o1) H1) as [H3 H4].
    { split; [now apply H2|]. eapply Forall_impl; [|exact Fs]. intros p. apply listed_app. }
    destruct (weach body es b' (tr ++ o1)) as [o2 r]. cbn [fst snd] in *. rewrite app_assoc. now split.
  Qed.
  Lemma k_walk body : (forall p b, keeps (inv b p) (body p b) known) -> forall b, keeps (known b) (for_walk s root body b) known.
  Proof.
    intros H b. unfold for_walk. apply k_bind with (Q := fun r tr => known b tr /\ Forall (fun p => listed p tr) (fst r)).
    - apply k_ask; [intros; exact Coq.Init.Logic.I|]. intros [es th] tr K. split; [now apply known_app|]. apply Forall_forall. intros p Hp. right. exists es, th. split; [apply in_or_app; right; now left|exact Hp].
    - intros [es th]. apply k_bind with (Q := known); [now apply k_each|]. intros b'. destruct th; [now apply k_end|now apply k_ret].
  Qed.
  Lemma k_question {A} (P : list wobs -> Prop) (f : list wobs -> option A) ob : (forall a, silent (ob a)) -> (forall o tr, P tr -> P (tr ++ o)) ->
    keeps P (or_throw (ask f ob)) (fun a tr => P tr /\ In (ob (Some a)) tr).
  Proof.
    intros H1 H2. unfold or_throw. apply k_bind with (Q := fun r tr => P tr /\ In (ob r) tr).
    - apply k_ask; [exact H1|]. intros a tr K. split; [now apply H2|]. apply in_or_app. right. now left.
    - intros [a|]; [apply k_ret; auto|now apply k_end].
  Qed.
  Lemma k_directory b : keeps (known b) (scan_directory s root b) (fun r tr => known (snd r) tr).
  Proof.
    unfold scan_directory. eapply k_bind; [apply k_question; [intros; exact Coq.Init.Logic.I|intros; now apply known_app]|]. intros [|]; cbn.
    - apply (k_weaken _ (known b)); [tauto|]. apply k_bind with (Q := known).
      + apply k_walk. intros p b'. eapply k_bind; [apply k_file|]. intros r. now apply k_ret.
      + intros b'. now apply k_ret.
    - apply k_ret. cbn. tauto.
  Qed.
  Lemma k_scan b : keeps (known b) (scan s root b) (fun r tr => known (snd r) tr).
  Proof.
    unfold scan. eapply k_bind; [apply k_directory|]. intros [r b']. cbn [fst snd]. destruct r; [now apply k_ret|].
    apply (k_weaken _ (inv b' root)); [|apply k_file]. intros tr K. split; [exact K|now left].
  Qed.
  Lemma k_populate : keeps (known []) (populate s root []) (fun r tr => known (snd r) tr /\ (fst r = false -> snd r = [])).
  Proof.
    unfold populate. eapply k_bind; [apply k_question; [intros; exact Coq.Init.Logic.I|intros; now apply known_app]|]. intros [|]; cbn [negb].
    2:{ apply k_ret. cbn. tauto. }
    apply (k_weaken _ (known [])); [tauto|]. eapply k_bind; [apply k_question; [intros; exact Coq.Init.Logic.I|intros; now apply known_app]|]. intros [|]; cbn [negb].
    2:{ unfold w_time_throwing, w_time. apply (k_weaken _ (known [])); [tauto|]. eapply k_bind; [apply k_question with (P := known []); [intros; exact Coq.Init.Logic.I|intros; now apply known_app]|now intros; apply k_end]. }
    apply k_bind with (Q := known); [|intros b'; apply k_ret; cbn; intros; split; [assumption|discriminate]].
    apply (k_weaken _ (known [])); [tauto|]. apply k_walk. intros p b. apply k_bind with (Q := fun r tr => known b tr /\ In (WTime p r) tr).
    { unfold w_time. apply k_ask; [intros; exact Coq.Init.Logic.I|]. intros a tr [K _]. split; [now apply known_app|]. apply in_or_app. right. now left. }
    intros [t|].
    - apply k_ret. intros tr [K Hp]. apply known_set; auto.
    - unfold w_time_throwing, w_time. apply (k_weaken _ (known b)); [tauto|]. eapply k_bind; [apply k_question with (P := known b); [intros; exact Coq.Init.Logic.I|intros; now apply known_app]|].
      intros t. apply k_ret. intros tr [K Hp]. apply known_set; auto.
  Qed.
  Lemma k_tend b : keeps (known b) (tend_bucket s root b) (fun r tr => known (snd r) tr).
  Proof.
    destruct b as [|x b]; cbn [tend_bucket]; [|now apply k_ret]. eapply k_bind; [apply k_populate|]. intros [[|] b']; cbn [fst snd].
    - apply k_ret. cbn. tauto.
    - intros tr J [K E]. specialize (E eq_refl). subst b'. cbn. rewrite app_nil_r. split; [exact J|]. intros a [= <-]. exact K.
  Qed.
  Lemma k_loop fuel : forall b, keeps (known b) (warthog_loop s fuel root b) (fun _ _ => True).
  Proof.
    induction fuel as [|n IH]; intros b; [now apply k_end|]. cbn [warthog_loop].
    apply k_bind with (Q := fun _ => known b); [apply k_ask; [intros; exact Coq.Init.Logic.I|intros; now apply known_app]|]. intros [|]; cbn [negb]; [|now apply k_ret].
    eapply k_bind; [apply k_tend|]. intros [r1 b1]. cbn [fst snd]. destruct r1; cbn [negb]; [|now apply k_ret].
    eapply k_bind; [apply k_scan|]. intros [r2 b2]. cbn [fst snd]. destruct r2; cbn [negb]; [apply IH|now apply k_ret].
  Qed.
End S.

(** For every filesystem, whatever it answers and whenever: so it is for each event of every run,
    however the run goes on. *)
Theorem C158_fallback_tells_what_it_saw : forall s fuel root o1 e o2,
  fst (warthog_watch s fuel root []) = o1 ++ WCb e :: o2 -> saw root o1 e.
Proof.
  intros s fuel root o1 e o2 E. destruct (k_loop s root fuel [] [] (just_nil root) (known_nil root [])) as [J _].
  exact (J o1 e o2 E).
Qed.
Print Assumptions C158_fallback_tells_what_it_saw.
(** The run of C104's example: the first event, a change; and one of a file that is gone each
    time its last write is asked for. *)
Example C158_example :
  (exists o1 o2, fst (warthog_watch (hist (lit "/w") 5 c104_h) 9 (lit "/w") []) = o1 ++ WCb (Ev (lit "/w/a") EtModify PtFile 29 None) :: o2) /\
  (let gone := [[{| en_path := lit "/w/a"; en_regular := true; en_time := None |}]] in
   exists o1 t o2, fst (warthog_watch (hist (lit "/w") 1 gone) 9 (lit "/w") []) = o1 ++ WCb (Ev (lit "/w/a") EtDestroy PtFile t None) :: o2).
Proof.
  split.
  - set (o := fst (warthog_watch (hist (lit "/w") 5 c104_h) 9 (lit "/w") [])). exists (firstn 30 o), (skipn 31 o). vm_compute. reflexivity.
  - cbv zeta. match goal with |- context [fst (warthog_watch ?s _ _ _)] => set (o := fst (warthog_watch s 9 (lit "/w") [])) end.
    exists (firstn 12 o), 11%Z, (skipn 13 o). vm_compute. reflexivity.
Qed.

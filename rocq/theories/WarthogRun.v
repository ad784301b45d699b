(** Whole runs of the fallback adapter. *)
From Verif Require Import Base EventModel InotifySpec Mon WarthogModel WarthogSpec WarthogFacts.

Lemma learns_in k (c : contents) e : NoDup (paths c) -> In e c -> learns k c (en_path e) = if en_regular e then en_time e else k (en_path e).
Proof.
  intros Hnd He. unfold learns. destruct (find _ c) as [e'|] eqn:Ef.
  - apply find_some in Ef as [He' Ef]. apply text_eqb_eq in Ef. assert (e' = e); [|now subst].
    unfold paths in Hnd. induction c as [|y c IH]; [destruct He|].
    cbn in Hnd. inversion Hnd as [|? ? Hn Hnd']; subst. destruct He as [<-|He], He' as [<-|He']; auto.
    + exfalso. apply Hn. rewrite Ef. now apply in_map.
    + exfalso. apply Hn. rewrite <- Ef. now apply in_map.
  - exfalso. apply (find_none _ _ Ef e) in He. now rewrite text_eqb_refl in He.
Qed.

(** ** Rounds over a history *)
Section History.
  Variable s : wfs.
  Variable root : text.
  Variable h : nat -> contents.
  Hypothesis Hh : changes_between_rounds s root h.

  Lemma in_round tr : forall o, rounds o = 0%nat -> agrees s (tr ++ o) root (h (rounds tr)).
  Proof. intros o Ho. replace (rounds tr) with (rounds (tr ++ o)); [apply Hh|]. rewrite rounds_app. lia. Qed.

  (** One round. *)
  Lemma one_round b tr : exists o b', rounds o = 0%nat /\
    (r1 <- tend_bucket s root b ;; if negb (fst r1) then pret (false, snd r1) else scan s root (snd r1)) tr = (o, Ok (true, b')) /\
    (b <> [] -> wshown o = flat_map (news (fun p => tfind p b)) (h (rounds tr)) /\
       (forall p, tfind p b' = learns (fun p => tfind p b) (h (rounds tr)) p)) /\
    (b = [] -> forall e t, In e (h (rounds tr)) -> en_time e = Some t -> tfind (en_path e) b' = Some t) /\
    (b = [] -> (forall e, In e (h (rounds tr)) -> en_time e <> None) -> wshown o = []) /\
    (forall p, ~ In p (paths (h (rounds tr))) -> tfind p b' = tfind p b) /\
    (b <> [] \/ h (rounds tr) <> [] -> (forall e, In e (h (rounds tr)) -> en_time e <> None) -> b' <> []) /\
    (b = [] -> h (rounds tr) = [] -> b' = []).
  Proof.
    pose proof (in_round tr) as Hag. set (c := h (rounds tr)) in *. pose proof (proj2 Hh (rounds tr)) as Hnd. fold c in Hnd.
    destruct b as [|x b].
    - destruct (populate_contents s root c tr Hag [] eq_refl) as (o1 & b1 & E1 & R1 & S1 & L1 & I1 & T1 & N1 & Z1). rewrite app_nil_r in E1.
      destruct (scan_contents s root c tr Hag b1 o1 Hnd R1) as (o2 & b2 & E2 & R2 & S2 & L2 & N2).
      exists (o1 ++ o2), b2. split; [now rewrite rounds_app, R1|]. split.
      { eapply (pbind_ok _ _ _ _ (true, b1)); [|exact E2]. unfold tend_bucket. rewrite <- (app_nil_r o1).
        eapply (pbind_ok _ _ _ _ (true, b1)); [exact E1|reflexivity]. }
      split; [contradiction|]. split; [|split; [|split; [|split]]].
      + intros _ e t He Et. rewrite L2. rewrite (learns_in (fun p => tfind p b1) c e Hnd He). destruct (en_regular e); [exact Et|]. now apply T1.
      + intros _ Ht. rewrite wshown_app, S1, S2. cbn [app].
        assert (Hall : forall e, In e c -> news (fun p => tfind p b1) e = []).
        { intros e He. unfold news. destruct (en_regular e); [|reflexivity]. destruct (en_time e) as [t|] eqn:Et; [|now apply Ht in Et].
          rewrite (T1 Hnd e t He Et), Z.eqb_refl. reflexivity. }
        clear - Hall. induction c as [|e c IH]; [reflexivity|]. cbn [flat_map]. rewrite Hall by now left. apply IH. intros; apply Hall; now right.
      + intros p Hp. rewrite L2, learns_not_in by exact Hp. rewrite (L1 p Hp). reflexivity.
      + intros [H|H] Ht; [contradiction|]. apply N2; [now apply N1|exact Ht].
      + intros _ Hc. pose proof (Z1 Hc) as ->. clear - E2 Hc Hag R1.
        unfold scan, scan_directory, w_isdir, or_throw, ask, for_walk, w_walk, ask, pbind, pret in E2.
        rewrite (proj2 (ag_root _ _ _ _ (Hag o1 R1))) in E2. cbn [app] in E2.
        assert (R2 : rounds (o1 ++ [WIsDir root (Some true)]) = 0%nat) by (rewrite rounds_app, R1; reflexivity).
        rewrite <- app_assoc in E2. rewrite (ag_walk _ _ _ _ (Hag _ R2)), Hc in E2. cbn in E2. injection E2 as _ <-. reflexivity.
    - destruct (scan_contents s root c tr Hag (x :: b) [] Hnd eq_refl) as (o2 & b2 & E2 & R2 & S2 & L2 & N2). rewrite app_nil_r in E2.
      exists o2, b2. split; [exact R2|]. split.
      { change o2 with ([] ++ o2). eapply (pbind_ok _ _ _ _ (true, x :: b)); [reflexivity|]. rewrite app_nil_r. exact E2. }
      split; [auto|]. split; [discriminate|]. split; [discriminate|]. split; [|split; [|discriminate]].
      + intros p Hp. rewrite L2. now apply learns_not_in.
      + intros _ Ht. apply N2; [discriminate|exact Ht].
  Qed.

  Lemma loop_unfold n b tr : wf_pending s tr = true -> exists o b',
    rounds o = 0%nat /\
    warthog_loop s (S n) root b tr =
      (let (o2, r2) := warthog_loop s n root b' (tr ++ WState true :: o) in (WState true :: o ++ o2, r2)) /\
    (b <> [] -> wshown o = flat_map (news (fun p => tfind p b)) (h (S (rounds tr))) /\
       (forall p, tfind p b' = learns (fun p => tfind p b) (h (S (rounds tr))) p)) /\
    (b = [] -> (forall e, In e (h (S (rounds tr))) -> en_time e <> None) -> wshown o = []) /\
    (forall p, ~ In p (paths (h (S (rounds tr)))) -> tfind p b' = tfind p b) /\
    (b <> [] \/ h (S (rounds tr)) <> [] -> (forall e, In e (h (S (rounds tr))) -> en_time e <> None) -> b' <> []) /\
    (b = [] -> h (S (rounds tr)) = [] -> b' = []) /\
    (b = [] -> forall e t, In e (h (S (rounds tr))) -> en_time e = Some t -> tfind (en_path e) b' = Some t).
  Proof.
    intros Hp. assert (Er : rounds (tr ++ [WState true]) = S (rounds tr)) by (rewrite rounds_app; cbn; lia).
    destruct (one_round b (tr ++ [WState true])) as (o & b' & R & E & H1 & H1' & H2 & H3 & H4 & H5). rewrite Er in *.
    exists o, b'. split; [exact R|]. split; [|auto 10].
    cbn [warthog_loop]. unfold pbind at 1, ask. rewrite Hp. cbn [negb].
    apply pbind_inv in E as [(o1 & r1 & o2 & E1 & E2 & ->)|[(u & _ & E)|[[_ E]|[_ E]]]]; [|discriminate..].
    unfold pbind at 1. rewrite E1. destruct (fst r1) eqn:Ef; [|discriminate E2]. cbn [negb] in *.
    unfold pbind at 1. rewrite E2. cbn [fst snd negb]. rewrite <- !app_assoc. cbn [app].
    destruct (warthog_loop s n root b' (tr ++ WState true :: o1 ++ o2)). cbn [app]. now rewrite <- !app_assoc.
  Qed.

  Lemma loop_idle n b tr : wf_pending s tr = false -> warthog_loop s (S n) root b tr = ([WState false], Ok true).
  Proof. intros Hp. cbn [warthog_loop]. unfold pbind, ask. rewrite Hp. reflexivity. Qed.

  (** A file that appears in round [j]. *)
  Lemma loop_creates j f t : In {| en_path := f; en_regular := true; en_time := Some t |} (h j) ->
    (forall i e, In e (h i) -> en_time e <> None) ->
    forall fuel b tr, (rounds tr < j)%nat -> tfind f b = None ->
      (forall i, (rounds tr < i < j)%nat -> ~ In f (paths (h i))) ->
      (b <> [] \/ exists i, (rounds tr < i < j)%nat /\ h i <> []) ->
      (j <= rounds (tr ++ fst (warthog_loop s fuel root b tr)))%nat ->
      In (Sh f EtCreate PtFile None) (wshown (fst (warthog_loop s fuel root b tr))).
  Proof.
    intros Hf Ht. induction fuel as [|n IH]; intros b tr Hj Hb Hno Haw Hr.
    { cbn in Hr. rewrite app_nil_r in Hr. lia. }
    destruct (wf_pending s tr) eqn:Hp.
    2:{ rewrite (loop_idle n b tr Hp) in Hr. cbn in Hr. rewrite rounds_app in Hr. cbn in Hr. lia. }
    destruct (loop_unfold n b tr Hp) as (o & b' & Ro & E & H1 & H2 & H3 & H4 & H5 & _).
    assert (Hrd : rounds (tr ++ WState true :: o) = S (rounds tr)) by (rewrite rounds_app; cbn; lia).
    rewrite E in Hr |- *. set (tr' := tr ++ WState true :: o) in *.
    destruct (warthog_loop s n root b' tr') as [o2 r2] eqn:E2. cbn [fst] in *.
    change (WState true :: o ++ o2) with ((WState true :: o) ++ o2). rewrite wshown_app. apply in_or_app.
    change (wshown (WState true :: o)) with (wshown o).
    destruct (Nat.eq_dec (S (rounds tr)) j) as [Ej|Ej].
    - left. assert (Hbn : b <> []). { destruct Haw as [Haw|(i & Hi & _)]; [exact Haw|lia]. }
      destruct (H1 Hbn) as [-> _]. rewrite Ej. apply in_flat_map. eexists. split; [exact Hf|]. unfold news. cbn. rewrite Hb. now left.
    - right. assert (Hn0 : ~ In f (paths (h (S (rounds tr))))) by (apply Hno; lia).
      specialize (IH b' tr'). rewrite E2, Hrd in IH. cbn [fst] in IH. apply IH.
      + lia.
      + rewrite H3 by exact Hn0. exact Hb.
      + intros i Hi. apply Hno. lia.
      + destruct Haw as [Haw|(i & Hi & Hc)].
        * left. apply H4; [now left|]. apply Ht.
        * destruct (Nat.eq_dec i (S (rounds tr))) as [-> |Hd]; [left; apply H4; [now right|apply Ht]|]. right. exists i. split; [lia|exact Hc].
      + unfold tr'. rewrite <- app_assoc. exact Hr.
  Qed.

  (** Contents that are first there in a round that starts without knowing anything. *)
  Lemma loop_absorbs j c : (forall i, (i < j)%nat -> h i = []) -> (forall i, (j <= i)%nat -> h i = c) ->
    (forall e, In e c -> en_time e <> None) ->
    forall fuel b tr, (b = [] \/ (j <= rounds tr)%nat /\ forall e t, In e c -> en_regular e = true -> en_time e = Some t -> tfind (en_path e) b = Some t) ->
      wshown (fst (warthog_loop s fuel root b tr)) = [].
  Proof.
    intros Hb Ha Ht. induction fuel as [|n IH]; intros b tr Hk; [reflexivity|].
    destruct (wf_pending s tr) eqn:Hp; [|rewrite (loop_idle n b tr Hp); reflexivity].
    destruct (loop_unfold n b tr Hp) as (o & b' & Ro & E & H1 & H2 & H3 & H4 & H5 & H6). rewrite E.
    assert (Hrd : rounds (tr ++ WState true :: o) = S (rounds tr)) by (rewrite rounds_app; cbn; lia).
    set (tr' := tr ++ WState true :: o) in *. specialize (IH b' tr').
    destruct (warthog_loop s n root b' tr') as [o2 r2]. cbn [fst] in *. rewrite Hrd in IH.
    change (WState true :: o ++ o2) with ((WState true :: o) ++ o2). rewrite wshown_app. change (wshown (WState true :: o)) with (wshown o).
    assert (Hd : b = [] \/ b <> []) by (destruct b; [now left|now right]). destruct Hd as [-> |Hbn].
    - destruct (Nat.lt_ge_cases (S (rounds tr)) j) as [Hl|Hl].
      + pose proof (Hb _ Hl) as Hc. rewrite Hc in *. rewrite IH; [|left; auto]. rewrite (H2 eq_refl); [reflexivity|intros e []].
      + pose proof (Ha _ Hl) as Hc. rewrite Hc in *. rewrite IH; [|right; split; auto]. now rewrite (H2 eq_refl Ht).
    - destruct Hk as [Hk|[Hj Hk]]; [contradiction|]. destruct (H1 Hbn) as [Ho Hl]. rewrite (Ha (S (rounds tr))) in * by lia.
      assert (Hnil : wshown o = []).
      { rewrite Ho. clear - Hk Ht. induction c as [|e c IH]; [reflexivity|]. cbn [flat_map].
        rewrite IH; [|intros; apply Ht; now right|intros; apply Hk; auto; now right]. rewrite app_nil_r. unfold news.
        destruct (en_regular e) eqn:Er; [|reflexivity]. destruct (en_time e) as [t|] eqn:Et; [|exfalso; apply (Ht e); [now left|exact Et]].
        rewrite (Hk e t (or_introl eq_refl) Er Et), Z.eqb_refl. reflexivity. }
      rewrite Hnil, IH; [reflexivity|]. right. split; [lia|]. intros e t He Her Et. rewrite Hl.
      rewrite (learns_in _ c e); [now rewrite Her| |exact He]. rewrite <- (Ha (S (rounds tr))) by lia. apply Hh.
  Qed.
End History.

(** ** Any filesystem *)

(** No destruction is told of unless a file's time could not be read. *)
Definition is_destroy (e : event) : Prop := ev_effect e = EtDestroy.
Definition no_loss (o : list wobs) : Prop := (exists p, In (WTime p None) o) \/ forall e, In (WCb e) o -> ~ is_destroy e.
Lemma no_loss_app a b : no_loss a -> no_loss b -> no_loss (a ++ b).
Proof.
  intros [(p & H)|H] Hb; [left; exists p; apply in_or_app; now left|].
  destruct Hb as [(p & Hb)|Hb]; [left; exists p; apply in_or_app; now right|].
  right. intros e He. apply in_app_or in He as [He|He]; auto.
Qed.
Lemma no_loss_nil : no_loss [].
Proof. right. intros e []. Qed.

Section Any.
  Variable s : wfs.
  Ltac quiet := right; intros e H; repeat (destruct H as [H|H]; [first [discriminate H|injection H as <-; discriminate]|]); destruct H.

  Lemma ask_no_loss {A} (f : list wobs -> A) ob : (forall a, match ob a with WCb _ => False | _ => True end) -> adds no_loss (ask f ob).
  Proof. intros H tr. right. intros e [He|[]]. cbn in He. specialize (H (f tr)). rewrite He in H. destruct H. Qed.
  Lemma or_throw_no_loss {A} (m : W (option A)) : adds no_loss m -> adds no_loss (or_throw m).
  Proof.
    intros H. apply adds_bind; [exact no_loss_app|exact H|]. intros [a|]; [apply adds_ret, no_loss_nil|intros tr; apply no_loss_nil].
  Qed.
  Lemma send_no_loss p f t : f <> EtDestroy -> adds no_loss (w_send s p f t).
  Proof.
    intros Hf. apply adds_bind; [exact no_loss_app|apply ask_no_loss; intros; exact I|]. intros n tr. right. intros e [[= <-]|[]]. exact Hf.
  Qed.

  Lemma scan_file_no_loss p b : adds no_loss (scan_file s p b).
  Proof.
    unfold scan_file. apply adds_bind; [exact no_loss_app|apply or_throw_no_loss, ask_no_loss; intros; exact I|]. intros ex.
    apply adds_bind; [exact no_loss_app|destruct ex; [apply or_throw_no_loss, ask_no_loss; intros; exact I|apply adds_ret, no_loss_nil]|]. intros [|]; [|apply adds_ret, no_loss_nil].
    intros tr. unfold pbind at 1, w_time, ask. set (ti := wf_time s tr p). destruct ti as [t|].
    - assert (H : adds no_loss (match tfind p b with None => w_send s p EtCreate PtFile ;;; pret (true, tset p t b)
          | Some t0 => if (t0 =? t)%Z then pret (true, b) else w_send s p EtModify PtFile ;;; pret (true, tset p t b) end)).
      { destruct (tfind p b) as [t0|]; [destruct (t0 =? t)%Z; [apply adds_ret, no_loss_nil|]|];
          (apply adds_bind; [exact no_loss_app|apply send_no_loss; discriminate|intros; apply adds_ret, no_loss_nil]). }
      specialize (H (tr ++ [WTime p (Some t)])). match type of H with no_loss (fst ?x) => destruct x as [o r] end. cbn [fst] in *.
      apply (no_loss_app [_]); [right; intros e [[=]|[]]|exact H].
    - match goal with |- context [let (_, _) := ?x in _] => destruct x as [o r] end. left. exists p. now left.
  Qed.
  Lemma weach_no_loss body : (forall e b, adds no_loss (body e b)) -> forall es b, adds no_loss (weach body es b).
  Proof.
    intros H. induction es as [|e es IH]; intros b; [apply adds_ret, no_loss_nil|]. apply adds_bind; [exact no_loss_app|apply H|]. intros b'. apply IH.
  Qed.
  Lemma for_walk_no_loss dir body b : (forall e b, adds no_loss (body e b)) -> adds no_loss (for_walk s dir body b).
  Proof.
    intros H. apply adds_bind; [exact no_loss_app|apply ask_no_loss; intros; exact I|]. intros [es th].
    apply adds_bind; [exact no_loss_app|now apply weach_no_loss|]. intros b'. destruct th; [intros tr|apply adds_ret]; apply no_loss_nil.
  Qed.
  Lemma scan_no_loss p b : adds no_loss (scan s p b).
  Proof.
    unfold scan, scan_directory. apply adds_bind; [exact no_loss_app| |].
    - apply adds_bind; [exact no_loss_app|apply or_throw_no_loss, ask_no_loss; intros; exact I|]. intros [|]; [|apply adds_ret, no_loss_nil].
      apply adds_bind; [exact no_loss_app| |intros; apply adds_ret, no_loss_nil].
      apply for_walk_no_loss. intros e b'. apply adds_bind; [exact no_loss_app|apply scan_file_no_loss|intros; apply adds_ret, no_loss_nil].
    - intros [ok b']. cbn. destruct ok; [apply adds_ret, no_loss_nil|apply scan_file_no_loss].
  Qed.
  Lemma populate_no_loss p b : adds no_loss (populate s p b).
  Proof.
    unfold populate. apply adds_bind; [exact no_loss_app|apply or_throw_no_loss, ask_no_loss; intros; exact I|]. intros ex.
    destruct (negb ex); [apply adds_ret, no_loss_nil|].
    apply adds_bind; [exact no_loss_app|apply or_throw_no_loss, ask_no_loss; intros; exact I|]. intros d.
    destruct (negb d).
    - apply adds_bind; [exact no_loss_app|apply or_throw_no_loss, ask_no_loss; intros; exact I|]. intros _ tr. apply no_loss_nil.
    - apply adds_bind; [exact no_loss_app| |intros; apply adds_ret, no_loss_nil]. apply for_walk_no_loss. intros e b'.
      apply adds_bind; [exact no_loss_app|apply ask_no_loss; intros; exact I|]. intros [t|]; [apply adds_ret, no_loss_nil|].
      apply adds_bind; [exact no_loss_app|apply or_throw_no_loss, ask_no_loss; intros; exact I|intros; apply adds_ret, no_loss_nil].
  Qed.
  Lemma populate_false p b tr o b' : populate s p b tr = (o, Ok (false, b')) -> b' = b.
  Proof.
    unfold populate. intros H. apply pbind_inv in H as [(o1 & ex & o2 & _ & H & _)|[(u & _ & [=])|[[_ [=]]|[_ [=]]]]].
    destruct (negb ex); [injection H as _ <-; reflexivity|].
    apply pbind_inv in H as [(o3 & d & o4 & _ & H & _)|[(u & _ & [=])|[[_ [=]]|[_ [=]]]]]. destruct (negb d).
    - apply pbind_inv in H as [(o5 & t & o6 & _ & H & _)|[(u & _ & [=])|[[_ [=]]|[_ [=]]]]]. discriminate.
    - apply pbind_inv in H as [(o5 & t & o6 & _ & H & _)|[(u & _ & [=])|[[_ [=]]|[_ [=]]]]]. discriminate.
  Qed.
  Lemma tend_no_loss p b : adds no_loss (tend_bucket s p b).
  Proof.
    destruct b as [|x b]; [|apply adds_ret, no_loss_nil]. cbn [tend_bucket]. intros tr.
    pose proof (populate_no_loss p [] tr) as H. unfold pbind at 1. destruct (populate s p [] tr) as [o [[ok b']|u| |]] eqn:E; try exact H.
    destruct ok; cbn [fst snd].
    - cbn. rewrite app_nil_r. exact H.
    - apply populate_false in E. subst b'. cbn. rewrite app_nil_r. exact H.
  Qed.
  Lemma warthog_no_loss p : forall fuel b, adds no_loss (warthog_loop s fuel p b).
  Proof.
    induction fuel as [|n IH]; intros b; cbn [warthog_loop]; [intros tr; apply no_loss_nil|].
    apply adds_bind; [exact no_loss_app|apply ask_no_loss; intros; exact I|]. intros pe. destruct (negb pe); [apply adds_ret, no_loss_nil|].
    apply adds_bind; [exact no_loss_app|apply tend_no_loss|]. intros [ok b1]. cbn. destruct (negb ok); [apply adds_ret, no_loss_nil|].
    apply adds_bind; [exact no_loss_app|apply scan_no_loss|]. intros [ok' b2]. cbn. destruct (negb ok'); [apply adds_ret, no_loss_nil|apply IH].
  Qed.

  (** It returns true only after a state that was not pending. *)
  Lemma warthog_true p : forall fuel b tr o, warthog_loop s fuel p b tr = (o, Ok true) -> exists o1, o = o1 ++ [WState false].
  Proof.
    induction fuel as [|n IH]; intros b tr o H; cbn [warthog_loop] in H; [discriminate|].
    apply pbind_inv in H as [(o1 & pe & o2 & E & H & ->)|[(u & _ & [=])|[[_ [=]]|[_ [=]]]]].
    unfold ask in E. injection E as <- <-. destruct (wf_pending s tr); cbn [negb] in H.
    - apply pbind_inv in H as [(o3 & [ok b1] & o4 & _ & H & ->)|[(u & _ & [=])|[[_ [=]]|[_ [=]]]]]. cbn in H. destruct ok; [|discriminate H].
      apply pbind_inv in H as [(o5 & [ok b2] & o6 & _ & H & ->)|[(u & _ & [=])|[[_ [=]]|[_ [=]]]]]. cbn in H. destruct ok; [|discriminate H].
      apply IH in H as (o7 & ->). exists ([WState true] ++ o3 ++ o5 ++ o7). now rewrite <- !app_assoc.
    - injection H as <-. exists []. reflexivity.
  Qed.

  (** It speaks of files only. *)
  Definition about_paths (x : wobs) : Prop := match x with WCb e => ev_ptype e <> PtWatcher | _ => True end.
  (** Within a round: no look at the stop flag. *)
  Definition tame (x : wobs) : Prop := match x with WCb e => ev_ptype e <> PtWatcher | WState _ => False | _ => True end.
  Lemma parts_tame p : (forall b, adds (Forall tame) (tend_bucket s p b)) /\ (forall b, adds (Forall tame) (scan s p b)).
  Proof.
    assert (Ha : forall A (f : list wobs -> A) ob, (forall a, match ob a with WCb _ | WState _ => False | _ => True end) -> adds (Forall tame) (ask f ob)).
    { intros A f ob H. apply adds_all_ask. intros a. specialize (H a). destruct (ob a); try exact I; destruct H. }
    assert (Ho : forall A (f : list wobs -> option A) ob, (forall a, match ob a with WCb _ | WState _ => False | _ => True end) -> adds (Forall tame) (or_throw (ask f ob))).
    { intros A f ob H. apply adds_all_bind; [now apply Ha|]. intros [a|]; [apply adds_all_ret|intros tr; constructor]. }
    assert (Hs : forall q f t, t <> PtWatcher -> adds (Forall tame) (w_send s q f t)).
    { intros q f t Ht. apply adds_all_bind; [apply Ha; intros; exact I|]. intros n. apply adds_all_emit. exact Ht. }
    assert (Hsf : forall q b, adds (Forall tame) (scan_file s q b)).
    { intros q b0. apply adds_all_bind; [apply Ho; intros; exact I|]. intros ex. apply adds_all_bind; [destruct ex; [apply Ho; intros; exact I|apply adds_all_ret]|].
      intros [|]; [|apply adds_all_ret]. apply adds_all_bind; [apply Ha; intros; exact I|]. intros [t|].
      - destruct (tfind q b0) as [t0|]; [destruct (t0 =? t)%Z; [apply adds_all_ret|]|]; (apply adds_all_bind; [apply Hs; discriminate|intros; apply adds_all_ret]).
      - apply adds_all_bind; [apply Hs; discriminate|intros; apply adds_all_ret]. }
    assert (Hw : forall dir body b, (forall e b, adds (Forall tame) (body e b)) -> adds (Forall tame) (for_walk s dir body b)).
    { intros dir body b0 Hb. apply adds_all_bind; [apply Ha; intros; exact I|]. intros [es th]. apply adds_all_bind.
      - revert b0. induction es as [|e es IH]; intros b0; [apply adds_all_ret|]. apply adds_all_bind; [apply Hb|]. intros. apply IH.
      - intros b1. destruct th; [intros tr; constructor|apply adds_all_ret]. }
    assert (Hpr : forall q todo b, adds (Forall tame) (prune_from s q todo b)).
    { intros q. induction todo as [|[x t] todo IH]; intros b0; [apply adds_all_ret|]. cbn [prune_from].
      apply adds_all_bind; [apply Ho; intros; exact I|]. intros [|]; [apply IH|].
      apply adds_all_bind; [apply Ho; intros; exact I|]. intros reg.
      intros tr. destruct reg.
      - rewrite pbind_ret. apply adds_all_bind; [apply Hs; discriminate|intros; apply IH].
      - rewrite pbind_assoc. apply adds_all_bind; [apply Ho; intros; exact I|]. intros [|]; intros tr1.
        + rewrite pbind_ret. apply adds_all_bind; [apply Hs; discriminate|intros; apply IH].
        + rewrite pbind_assoc. apply adds_all_bind; [apply Ho; intros; exact I|]. intros l tr2. rewrite pbind_ret.
          apply adds_all_bind; [apply Hs; destruct l; discriminate|intros; apply IH]. }
    split; intros b.
    - destruct b as [|x b]; [|apply adds_all_ret]. cbn [tend_bucket]. apply adds_all_bind.
      + apply adds_all_bind; [apply Ho; intros; exact I|]. intros ex. destruct (negb ex); [apply adds_all_ret|].
        apply adds_all_bind; [apply Ho; intros; exact I|]. intros d. destruct (negb d).
        * apply adds_all_bind; [apply Ho; intros; exact I|]. intros _ tr. constructor.
        * apply adds_all_bind; [|intros; apply adds_all_ret]. apply Hw. intros e b'. apply adds_all_bind; [apply Ha; intros; exact I|].
          intros [t|]; [apply adds_all_ret|]. apply adds_all_bind; [apply Ho; intros; exact I|intros; apply adds_all_ret].
      + intros [ok b']. cbn. destruct ok; [apply adds_all_ret|]. apply adds_all_bind; [apply Hpr|intros; apply adds_all_ret].
    - apply adds_all_bind.
      + apply adds_all_bind; [apply Ho; intros; exact I|]. intros [|]; [|apply adds_all_ret].
        apply adds_all_bind; [|intros; apply adds_all_ret]. apply Hw. intros e b'. apply adds_all_bind; [apply Hsf|intros; apply adds_all_ret].
      + intros [ok' b']. cbn. destruct ok'; [apply adds_all_ret|apply Hsf].
  Qed.
  Lemma tame_about_paths o : Forall tame o -> Forall about_paths o.
  Proof. apply Forall_impl. intros []; cbn; auto. Qed.
  Lemma warthog_about_paths p fuel b : adds (Forall about_paths) (warthog_loop s fuel p b).
  Proof.
    destruct (parts_tame p) as [Ht Hs]. revert b. induction fuel as [|n IH]; intros b; cbn [warthog_loop]; [intros tr; constructor|].
    apply adds_all_bind; [apply adds_all_ask; intros; exact I|]. intros pe. destruct (negb pe); [apply adds_all_ret|].
    apply adds_all_bind; [intros tr; apply tame_about_paths, Ht|]. intros [ok b1]. cbn. destruct (negb ok); [apply adds_all_ret|].
    apply adds_all_bind; [intros tr; apply tame_about_paths, Hs|]. intros [ok' b2]. cbn. destruct (negb ok'); [apply adds_all_ret|apply IH].
  Qed.
  (** The first look that finds the flag raised ends it, with success; without one it fails. *)
  Lemma warthog_end p : forall fuel b tr o r, warthog_loop s fuel p b tr = (o, Ok r) ->
    if r : bool then exists o1, o = o1 ++ [WState false] /\ ~ In (WState false) o1 else ~ In (WState false) o.
  Proof.
    destruct (parts_tame p) as [Ht Hs].
    assert (Hn : forall o, Forall tame o -> ~ In (WState false) o).
    { intros o H Hin. rewrite Forall_forall in H. exact (H _ Hin). }
    induction fuel as [|n IH]; intros b tr o r H; cbn [warthog_loop] in H; [discriminate|].
    apply pbind_inv in H as [(o1 & pe & o2 & E & H & ->)|[(u & _ & [=])|[[_ [=]]|[_ [=]]]]].
    unfold ask in E. injection E as <- <-. destruct (wf_pending s tr); cbn [negb] in H.
    - apply pbind_inv in H as [(o3 & [ok b1] & o4 & E1 & H & ->)|[(u & _ & [=])|[[_ [=]]|[_ [=]]]]]. cbn in H.
      specialize (Ht b (tr ++ [WState true])). rewrite E1 in Ht. cbn in Ht. apply Hn in Ht.
      destruct ok; [|injection H as <- <-; rewrite app_nil_r; cbn; intros [H|H]; [discriminate|auto]].
      apply pbind_inv in H as [(o5 & [ok b2] & o6 & E2 & H & ->)|[(u & _ & [=])|[[_ [=]]|[_ [=]]]]]. cbn in H.
      specialize (Hs b1 ((tr ++ [WState true]) ++ o3)). rewrite E2 in Hs. cbn in Hs. apply Hn in Hs.
      destruct ok; [|injection H as <- <-; rewrite app_nil_r; cbn; rewrite in_app_iff; intros [H|[H|H]]; [discriminate|auto|auto]].
      apply IH in H. destruct r.
      + destruct H as (o7 & -> & H). exists ([WState true] ++ o3 ++ o5 ++ o7). split; [now rewrite <- !app_assoc|].
        rewrite !in_app_iff. intros [[Hc|[]]|[Hc|[Hc|Hc]]]; [discriminate|auto|auto|auto].
      + rewrite !in_app_iff. intros [[Hc|[]]|[Hc|[Hc|Hc]]]; [discriminate|auto|auto|auto].
    - injection H as <- <-. exists []. split; [reflexivity|intros []].
  Qed.
End Any.

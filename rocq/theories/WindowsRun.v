(** Facts about the Windows adapter: whole buffers, and the loops. *)
From Verif Require Import Base EventModel InotifySpec Mon WindowsModel WindowsSpec WindowsFacts.
From Verif Require Sys SysFacts.

(** ** A whole buffer *)
(** What becomes of the records, given the trackers. *)
Fixpoint flow (root : text) (old new : tracker) (rs : list wrec) (qs : list nrep) : Prop :=
  match rs, qs with
  | [], [] => True
  | r :: rs', q :: qs' =>
      n_path q = win_entry root (w_name r) /\
      let a := after r (n_path q, n_type q) old new in
      n_events q = fst a /\ flow root (fst (snd a)) (snd (snd a)) rs' qs'
  | _, _ => False
  end.
Lemma nmine_tell o : Forall telling o -> forall o', nmine (o ++ o') = nshown o ++ nmine o'.
Proof. induction 1 as [|x o Hx _ IH]; intros o'; [reflexivity|]. destruct x; try contradiction; cbn; now rewrite IH. Qed.
Lemma nreports_tell o : Forall telling o -> forall o', nreports (o ++ o') = nreports o'.
Proof. induction 1 as [|x o Hx _ IH]; intros o'; [reflexivity|]. destruct x; try contradiction; cbn; now rewrite IH. Qed.
Lemma nshown_app o o' : nshown (o ++ o') = nshown o ++ nshown o'.
Proof. induction o as [|x o IH]; [reflexivity|]. destruct x; cbn; now rewrite ?IH. Qed.
Lemma telling_sending o : Forall telling o -> Forall sending o.
Proof. apply Forall_impl. intros []; cbn; auto. Qed.

Definition stops {A} (r : out A) : Prop := match r with Ok _ | Fuel => True | _ => False end.
Lemma send_buffer s root rs : rs <> [] -> Forall wrec_ok rs -> forall fuel pre post len off old new tr,
  (16 <= len)%N -> N.to_nat off = length pre ->
  let res := send_loop s fuel root (pre ++ w_encode rs ++ post) len off old new tr in
  Forall sending (fst res) /\ stops (snd res) /\
  (snd res = Ok tt -> nmine (fst res) = [] /\ flow root old new rs (nreports (fst res)) /\ nshown (fst res) = flat_map n_events (nreports (fst res))) /\
  ((length rs <= fuel)%nat -> snd res = Ok tt).
Proof.
  induction rs as [|r rs IH]; [congruence|]. intros _ Hok fuel pre post len off old new tr Hlen Ho. inversion Hok as [|? ? Hr Hrs]; subst.
  destruct fuel as [|n]; cbn zeta.
  { cbn. split; [constructor|]. split; [exact I|]. split; [discriminate|lia]. }
  assert (exists next post', w_encode (r :: rs) ++ post = w_bytes next r ++ post' /\ (next < 2 ^ 32)%N /\
    (rs = [] /\ next = 0%N \/ rs <> [] /\ (next =? 0)%N = false /\ next = w_size r /\ post' = w_encode rs ++ post)) as (next & post' & E & Hx & Hn).
  { destruct rs as [|r' rs].
    - exists 0%N, post. split; [reflexivity|]. split; [reflexivity|]. auto.
    - exists (w_size r), (w_encode (r' :: rs) ++ post). split; [|split; [apply Hr|]].
      + change (w_encode (r :: r' :: rs)) with (w_bytes (w_size r) r ++ w_encode (r' :: rs)). now rewrite <- app_assoc.
      + right. split; [congruence|]. split; [unfold w_size; lia|]. auto. }
  rewrite E, send_turn by assumption.
  destruct (record_spec s root r old new tr) as (d & o & Er & Ht & Hs). cbn zeta in Er, Hs. rewrite win_join_entry in *. set (p := win_entry root (w_name r)) in *.
  destruct Hn as [[-> ->]|(Hne & En & -> & ->)].
  - unfold pbind. rewrite Er. cbn [N.eqb]. unfold pret. cbn [fst snd]. rewrite app_nil_r. cbn [nmine nreports flow nshown flat_map n_path n_events n_type n_dir].
    unfold n_type. cbn [n_dir]. pose proof (nmine_tell o Ht []) as M. pose proof (nreports_tell o Ht []) as R. rewrite !app_nil_r in M, R. cbn [nmine nreports] in M, R.
    rewrite M, R. rewrite app_nil_r, Hs. cbn [flow flat_map]. rewrite app_nil_r.
    split; [constructor; [exact I|now apply telling_sending]|]. split; [exact I|]. auto 7.
  - specialize (IH Hne Hrs n (pre ++ w_bytes (w_size r) r) post len (off + w_size r)%N).
    rewrite <- app_assoc in IH. unfold pbind. rewrite Er. rewrite En.
    specialize (IH (fst (snd (after r (p, dir_type d) old new))) (snd (snd (after r (p, dir_type d) old new))) (tr ++ NIsDir p d :: o) Hlen).
    assert (N.to_nat (off + w_size r) = length (pre ++ w_bytes (w_size r) r)) as Hoff.
    { rewrite app_length. pose proof (w_bytes_len (w_size r) r). lia. }
    specialize (IH Hoff). cbn zeta in IH.
    destruct (send_loop s n root (pre ++ w_bytes (w_size r) r ++ w_encode rs ++ post) len (off + w_size r)
       (fst (snd (after r (p, dir_type d) old new))) (snd (snd (after r (p, dir_type d) old new))) (tr ++ NIsDir p d :: o)) as [o2 r2].
    cbn [fst snd] in *. destruct IH as (IH1 & IH2 & IH3 & IH4).
    split; [constructor; [exact I|apply Forall_app; split; [now apply telling_sending|exact IH1]]|]. split; [exact IH2|].
    split; [|intros H; apply IH4; cbn in H; lia]. intros H. destruct (IH3 H) as (M & F & S).
    cbn [app nmine nreports flow nshown flat_map n_path n_events]. unfold n_type. cbn [n_dir].
    rewrite nmine_tell, nreports_tell, nshown_app, M, app_nil_r, S by exact Ht. rewrite Hs. auto.
Qed.

(** ** Reading a flow *)
Lemma flow_told root rs : forall old new qs, flow root old new rs qs ->
  Forall2 (told root) rs qs.
Proof.
  induction rs as [|r rs IH]; intros old new [|q qs] H; try contradiction; constructor.
  - destruct H as (Hp & He & _). split; [exact Hp|]. unfold after in He.
    destruct (is_old r); [destruct new|destruct (is_new r); [destruct old|]]; cbn [orb fst snd] in *; rewrite He; try (intros x [<-|[]]; reflexivity); try (intros x []); reflexivity.
  - destruct H as (_ & _ & H). eapply IH, H.
Qed.
Definition half (x : wrec * nrep) : text * path_type := (n_path (snd x), n_type (snd x)).
(** The trackers after some halves; what the next half gives. *)
Definition tracked (h : list (wrec * nrep)) : tracker * tracker :=
  match rev h with
  | x :: _ => match n_events (snd x) with [] => if is_old (fst x) then (Some (half x), None) else (None, Some (half x)) | _ => (None, None) end
  | [] => (None, None)
  end.
Definition opposite_b (x y : wrec * nrep) : bool := is_old (fst x) && is_new (fst y) || is_new (fst x) && is_old (fst y).
Definition expect (h : list (wrec * nrep)) (y : wrec * nrep) : list shape :=
  match rev h with
  | x :: _ => match n_events (snd x) with [] => if opposite_b x y then [joined x y] else [] | _ => [] end
  | [] => []
  end.
Lemma old_not_new r : is_old r = true -> is_new r = false.
Proof. unfold is_old, is_new. lia. Qed.
Lemma flow_halves root rs : forall h qs, Forall (fun x => is_old (fst x) || is_new (fst x) = true) h ->
  flow root (fst (tracked h)) (snd (tracked h)) rs qs ->
  forall l1 y l2, halves rs qs = l1 ++ y :: l2 -> n_events (snd y) = expect (h ++ l1) y.
Proof.
  induction rs as [|r rs IH]; intros h [|q qs] Hh H l1 y l2 E; try contradiction.
  { unfold halves in E. cbn in E. now destruct l1. }
  destruct H as (Hp & He & H). unfold halves in E. cbn [combine filter fst] in E. fold (halves rs qs) in E.
  destruct (is_old r || is_new r) eqn:Er.
  - assert (Hy : n_events q = expect h (r, q) /\ (fst (snd (after r (n_path q, n_type q) (fst (tracked h)) (snd (tracked h)))),
        snd (snd (after r (n_path q, n_type q) (fst (tracked h)) (snd (tracked h))))) = tracked (h ++ [(r, q)])).
    { unfold tracked at 3 4 5. rewrite rev_app_distr. cbn [rev app snd fst]. unfold after in *. unfold expect. unfold tracked in *.
      destruct (rev h) as [|[xr xq] h'] eqn:Eh.
      - cbn [fst snd] in *. destruct (is_old r) eqn:Eo; [|destruct (is_new r); [|discriminate]]; cbn [fst snd] in *; rewrite He; auto.
      - assert (Hx : is_old xr || is_new xr = true).
        { rewrite Forall_forall in Hh. apply (Hh (xr, xq)). rewrite in_rev, Eh. now left. }
        unfold opposite_b, joined. cbn [fst snd] in *.
        destruct (n_events xq) as [|e es].
        + destruct (is_old xr) eqn:Exo; cbn [fst snd] in *.
          * rewrite (old_not_new _ Exo). destruct (is_old r) eqn:Eo.
            -- rewrite (old_not_new _ Eo). cbn in *. rewrite He. auto.
            -- destruct (is_new r); [|discriminate]. cbn in *. rewrite He. auto.
          * destruct (is_new xr); [|discriminate]. destruct (is_old r) eqn:Eo; cbn in *.
            -- rewrite He. auto.
            -- destruct (is_new r); [|discriminate]. cbn in *. rewrite He. auto.
        + cbn [fst snd] in *. destruct (is_old r); [|destruct (is_new r); [|discriminate]]; cbn in *; rewrite He; auto. }
    destruct Hy as [Hy Ht]. destruct l1 as [|z l1]; cbn [app] in E; injection E as E1 E2.
    + subst y. now rewrite app_nil_r.
    + subst z. change (h ++ (r, q) :: l1) with (h ++ [(r, q)] ++ l1). rewrite app_assoc. eapply IH; [|rewrite <- Ht; exact H|exact E2].
      apply Forall_app. split; [exact Hh|]. constructor; [exact Er|constructor].
  - apply orb_false_iff in Er as [E4 E5]. unfold after in *. rewrite E4, E5 in *. cbn in H. eapply IH; eauto.
Qed.

(** ** The loops *)
Lemma adds_sending_send s fuel : forall root buf len off old new, adds (Forall sending) (send_loop s fuel root buf len off old new).
Proof.
  induction fuel as [|n IH]; intros; cbn [send_loop]; [apply adds_all_stop|]. destruct (_ <=? _)%N; [|apply adds_all_ret].
  assert (Hb : forall a b c, adds (Forall sending) (bytes_at a b c)).
  { intros a b c. unfold bytes_at. destruct (Nat.eqb _ _); [apply adds_all_ret|apply adds_all_stop]. }
  assert (Hd : forall a b, adds (Forall sending) (dword_at a b)).
  { intros a b. apply adds_all_bind; [apply Hb|intros; apply adds_all_ret]. }
  apply adds_all_bind; [apply Hd|]. intros nl. destruct (_ =? _)%N; [|apply IH].
  apply adds_all_bind; [apply Hb|]. intros name. apply adds_all_bind; [apply Hd|]. intros act.
  apply adds_all_bind.
  - unfold win_record. apply adds_all_bind; [apply adds_all_bind; [apply adds_all_ask; intros; exact I|intros; apply adds_all_ret]|]. intros t.
    assert (Hr : forall a b, adds (Forall sending) (trigger_rename s a b)).
    { intros a b. do 3 (apply adds_all_bind; [apply adds_all_ask; intros; exact I|intros ?]). apply adds_all_emit. exact I. }
    destruct (_ =? _)%N; [destruct new; [apply adds_all_bind; [apply Hr|intros; apply adds_all_ret]|apply adds_all_ret]|].
    destruct (_ =? _)%N; [destruct old; [apply adds_all_bind; [apply Hr|intros; apply adds_all_ret]|apply adds_all_ret]|].
    apply adds_all_bind; [|intros; apply adds_all_ret]. apply adds_all_bind; [apply adds_all_ask; intros; exact I|]. intros. apply adds_all_emit. exact I.
  - intros [o' n']. apply adds_all_bind; [apply Hd|]. intros next. destruct (_ =? _)%N; [apply adds_all_ret|apply IH].
Qed.
Lemma adds_sending_do s fuel w : adds (Forall sending) (do_event_send s fuel w).
Proof. unfold do_event_send. destruct (px_valid w); [apply adds_sending_send|apply adds_all_ret]. Qed.
Lemma adds_sending_first s fuel : forall w, adds (Forall sending) (first_sends s fuel w).
Proof.
  induction fuel as [|n IH]; intros w; cbn [first_sends]; [apply adds_all_stop|]. destruct (_ && _); [|apply adds_all_ret].
  apply adds_all_bind; [apply adds_sending_do|]. intros; apply IH.
Qed.
(** What one read does. *)
Lemma recv_spec s w tr : exists o w', do_event_recv s w tr = (o, Ok w') /\ px_path w' = px_path w /\ px_port w' = px_port w /\
  if px_valid w then exists r o', o = NRead r :: o' /\ r = nf_read s tr /\ Forall telling o' /\
    px_valid w' = (match r with RdPending => false | _ => true end) /\
    px_len w' = match r with RdOk bs => N.of_nat (length bs) | _ => 0%N end /\
    px_buf w' = match r with RdOk bs => Sys.overwrite (px_buf w) bs | _ => px_buf w end
  else o = [] /\ px_valid w' = false.
Proof.
  unfold do_event_recv. destruct (px_valid w) eqn:V.
  - unfold pbind at 1, ask. destruct (nf_read s tr) as [bs| |] eqn:R; eexists; eexists; (split; [reflexivity|]; split; [reflexivity|]; split; [reflexivity|]);
      eexists; eexists; (split; [reflexivity|]; split; [reflexivity|]; split; [repeat constructor|]); auto.
  - exists [], (px_set w false (px_buf w) 0). auto.
Qed.
Definition inside (x : nobs) : Prop := match x with NCb _ | NNow _ | NIsDir _ _ | NRead _ => True | _ => False end.
Lemma sending_inside o : Forall sending o -> Forall inside o.
Proof. apply Forall_impl. intros []; cbn; auto. Qed.
Lemma telling_inside o : Forall telling o -> Forall inside o.
Proof. apply Forall_impl. intros []; cbn; auto. Qed.
Lemma recv_inside s w tr : Forall inside (fst (do_event_recv s w tr)).
Proof.
  destruct (recv_spec s w tr) as (o & w' & -> & _ & _ & H). cbn [fst]. destruct (px_valid w).
  - destruct H as (r & o' & -> & _ & Ht & _). constructor; [exact I|now apply telling_inside].
  - destruct H as (-> & _). constructor.
Qed.
Lemma send_recv_inside s fuel : forall w, adds (Forall inside) (send_recv s fuel w).
Proof.
  induction fuel as [|n IH]; intros w; cbn [send_recv]; [apply adds_all_stop|]. destruct (_ && _); [|apply adds_all_ret].
  apply adds_all_bind; [intros tr; apply sending_inside, adds_sending_do|]. intros _. apply adds_all_bind; [intros tr; apply recv_inside|]. intros; apply IH.
Qed.
(** What stays. *)
Lemma send_recv_keeps s fuel : forall w tr o w', send_recv s fuel w tr = (o, Ok w') ->
  px_path w' = px_path w /\ px_port w' = px_port w /\ (px_valid w' = px_valid w \/ In (NRead RdPending) o).
Proof.
  induction fuel as [|n IH]; intros w tr o w' H; cbn [send_recv] in H; [discriminate|]. destruct (px_valid w && has_event w) eqn:E.
  - apply pbind_inv in H as [(o1 & a & o2 & H1 & H & ->)|[(u & _ & ?)|[[_ ?]|[_ ?]]]]; try discriminate.
    destruct (recv_spec s w (tr ++ o1)) as (o3 & w1 & Er & P & Q & R). apply andb_prop in E as [V _]. rewrite V in R.
    unfold pbind in H. rewrite Er in H. destruct (send_recv s n w1 ((tr ++ o1) ++ o3)) as [o4 r4] eqn:E4. injection H as <- ->.
    apply IH in E4 as (P' & Q' & V'). rewrite P', Q', P, Q. split; [reflexivity|]. split; [reflexivity|].
    destruct R as (r & o' & -> & _ & _ & Vw & _). destruct r.
    + destruct V' as [->|V']; [left; congruence|]. right. apply in_or_app. right. apply in_or_app. now right.
    + right. apply in_or_app. right. now left.
    + destruct V' as [->|V']; [left; congruence|]. right. apply in_or_app. right. apply in_or_app. now right.
  - injection H as <- <-. auto.
Qed.
(** Splitting at the first observation that is not inside. *)
Lemma inside_split a b c x d : Forall inside a -> (forall y e, b = y :: e -> exists b', y = NState b') -> (forall b', ~ In (NState b') c) ->
  a ++ b = c ++ NState x :: d -> a = c /\ b = NState x :: d.
Proof.
  intros Ha Hb. revert c. induction a as [|y a IH]; intros [|z c] Hc E; cbn in E.
  - auto.
  - exfalso. destruct (Hb _ _ E) as (b' & ->). apply (Hc b'). now left.
  - inversion Ha as [|? ? H]. injection E as -> _. destruct H.
  - inversion Ha; subst. injection E as <- E. destruct (IH H2 c) as [-> ->]; auto. intros b' Hw. apply (Hc b'). now right.
Qed.
Lemma inside_prefix a b c x d : Forall inside a -> ~ inside x -> a ++ b = c ++ x :: d -> exists c', c = a ++ c' /\ b = c' ++ x :: d.
Proof.
  intros Ha Hx. revert c. induction a as [|y a IH]; intros c E; cbn in E; [now exists c|].
  inversion Ha; subst. destruct c as [|z c]; cbn in E; injection E as E1 E; [subst; contradiction|]. subst z.
  destruct (IH H2 c E) as (c' & -> & ->). now exists c'.
Qed.
Lemma loop_head s fuel w tr y e : fst (win_loop s fuel w tr) = y :: e -> exists b, y = NState b.
Proof.
  destruct fuel as [|n]; cbn [win_loop]; [discriminate|]. unfold pbind, ask. destruct (nf_pending s tr).
  - match goal with |- context [let (_, _) := ?m in _] => destruct m as [o r] end. cbn. intros [= <- _]. now exists true.
  - cbn. intros [= <- _]. now exists false.
Qed.
(** One turn of the loop, by its log. *)
Lemma loop_turn s n f w tr : f = S n -> fst (win_loop s f w tr) =
  NState (nf_pending s tr) ::
  if nf_pending s tr then
    if px_port w then
      let a := nf_wait s (tr ++ [NState true]) in
      NWait a :: match a with
                 | WtDone bs =>
                     let sr := send_recv s f (px_set w (px_valid w) (Sys.overwrite (px_buf w) bs) (N.of_nat (length bs))) ((tr ++ [NState true]) ++ [NWait a]) in
                     fst sr ++ match snd sr with Ok w' => fst (win_loop s n w' (((tr ++ [NState true]) ++ [NWait a]) ++ fst sr)) | _ => [] end
                 | _ => fst (win_loop s n w ((tr ++ [NState true]) ++ [NWait a]))
                 end
    else fst (win_loop s n w (tr ++ [NState true]))
  else [].
Proof.
  intros ->. cbn [win_loop]. unfold pbind at 1, ask. destruct (nf_pending s tr) eqn:P; [|reflexivity]. destruct (px_port w).
  - unfold pbind at 1. set (a := nf_wait s (tr ++ [NState true])). destruct a as [| |bs] eqn:A.
    + destruct (win_loop s n w _). reflexivity.
    + destruct (win_loop s n w _). reflexivity.
    + unfold pbind. cbn zeta. destruct (send_recv s (S n) _ _) as [o [w'|u| |]]; cbn [fst snd]; rewrite ?app_nil_r; try reflexivity.
      destruct (win_loop s n w' _). reflexivity.
  - rewrite pbind_ret. destruct (win_loop s n w _). reflexivity.
Qed.
Lemma loop_handled s fuel : forall w tr l1 bs l2, handled (fst (win_loop s fuel w tr)) l1 bs l2 ->
  exists fuel' w' w'' tr', px_path w' = px_path w /\ (px_valid w' = px_valid w \/ In (NRead RdPending) l1) /\
    send_recv s fuel' (px_set w' (px_valid w') (Sys.overwrite (px_buf w') bs) (N.of_nat (length bs))) tr' = (l2, Ok w'').
Proof.
  induction fuel as [|n IH]; intros w tr l1 bs l2 ((b & l3 & E) & Hn); [destruct l1; discriminate|].
  remember (S n) as f eqn:Ef. rewrite (loop_turn s n f w tr Ef) in E.
  destruct l1 as [|x l1]; cbn [app] in E; [discriminate|]. injection E as <- E.
  destruct (nf_pending s tr); [|destruct l1; discriminate].
  destruct (px_port w).
  - cbn zeta in E. destruct l1 as [|x l1]; cbn [app] in E; injection E as Ex E.
    + rewrite Ex in E. match type of E with fst ?sr ++ ?rest = _ => set (SR := sr) in *; set (rest' := rest) in * end.
      assert (Hi : Forall inside (fst SR)) by apply send_recv_inside.
      apply inside_split in E as [E1 E2]; [|exact Hi| |exact Hn].
      * unfold rest' in E2. destruct SR as [o [w'|u| |]] eqn:ESR; try discriminate. cbn [fst] in E1. subst o.
        exists f, w, w'. eexists. split; [reflexivity|]. split; [now left|]. exact ESR.
      * unfold rest'. intros y e Ey. destruct (snd SR); try discriminate. eapply loop_head, Ey.
    + subst x. destruct (nf_wait s (tr ++ [NState true])) as [| |bs'] eqn:Ew.
      * destruct (IH w ((tr ++ [NState true]) ++ [NWait WtNone]) l1 bs l2) as (f' & w' & w'' & tr' & P & V & S); [split; [exists b, l3; exact E|exact Hn]|].
        exists f', w', w'', tr'. split; [exact P|]. split; [|exact S]. destruct V as [V|V]; [now left|right; right; now right].
      * destruct (IH w ((tr ++ [NState true]) ++ [NWait WtFail]) l1 bs l2) as (f' & w' & w'' & tr' & P & V & S); [split; [exists b, l3; exact E|exact Hn]|].
        exists f', w', w'', tr'. split; [exact P|]. split; [|exact S]. destruct V as [V|V]; [now left|right; right; now right].
      * match type of E with fst ?sr ++ ?rest = _ => set (SR := sr) in *; set (rest' := rest) in * end.
        assert (Hi : Forall inside (fst SR)) by apply send_recv_inside.
        apply inside_prefix in E as (l1' & -> & E); [|exact Hi|cbn; tauto]. unfold rest' in E.
        destruct SR as [o [w1|u| |]] eqn:ESR; cbn [fst snd] in *; try (destruct l1'; discriminate).
        apply send_recv_keeps in ESR as (P1 & _ & V1). cbn [px_set px_path px_valid] in P1, V1.
        match type of E with fst (win_loop _ _ _ ?t) = _ => destruct (IH w1 t l1' bs l2) as (f' & w' & w'' & tr' & P & V & S); [split; [exists b, l3; exact E|exact Hn]|] end.
        exists f', w', w'', tr'. split; [congruence|]. split; [|exact S].
        destruct V as [V|V]; [destruct V1 as [V1|V1]; [left; congruence|]|]; right; right; right; apply in_or_app; auto.
  - destruct (IH w (tr ++ [NState true]) l1 bs l2) as (f' & w' & w'' & tr' & P & V & S); [split; [exists b, l3; exact E|exact Hn]|].
    exists f', w', w'', tr'. split; [exact P|]. split; [|exact S]. destruct V as [V|V]; [now left|right; now right].
Qed.

(** ** The whole run *)
Definition opening (x : nobs) : Prop := match x with NOpen _ _ | NPort _ | NBind _ => True | _ => False end.
Lemma make_spec s path tr : Forall opening (fst (make_proxy s path tr)) /\
  match snd (make_proxy s path tr) with
  | Ok w => px_path w = path /\ px_len w = 0%N
  | Undef u => exists n, nf_narrow s path = Some n /\ ((512 < n)%N \/ (2 * (N.of_nat (length path) + 1) < n)%N)
  | Crash => nf_narrow s path = None
  | Fuel => False
  end.
Proof.
  unfold make_proxy. destruct (nf_narrow s path) as [n|]; [|split; [constructor|reflexivity]]. unfold win_path_bytes.
  destruct (N.ltb_spec 512 n); [split; [constructor|exists n; auto]|].
  destruct (N.ltb_spec (2 * (N.of_nat (length path) + 1)) n); [split; [constructor|exists n; auto]|]. unfold pbind, ask, pret.
  destruct (nf_open s tr path); cbn; try (destruct (nf_port s (tr ++ [NOpen path _])); cbn); repeat (constructor; auto).
Qed.
(** A log of the adapter: opening, a read, sending, the loop. *)
Lemma watch_shape s fuel path : exists oo, Forall opening oo /\
  (fst (win_watch s fuel path []) = oo \/
   exists w r o', px_path w = path /\ px_valid w = (match r with RdPending => false | _ => true end) /\
     r = nf_read s oo /\ Forall telling o' /\
     ((has_event w = true /\ exists bs, r = RdOk bs /\ bs <> [] /\ exists o2, Forall sending o2 /\ fst (win_watch s fuel path []) = oo ++ NRead r :: o' ++ o2) \/
      (match r with RdOk bs => bs = [] | _ => True end /\
       fst (win_watch s fuel path []) = oo ++ NRead r :: o' ++ fst (win_loop s fuel w (oo ++ NRead r :: o'))) \/
      fuel = O /\ fst (win_watch s fuel path []) = oo ++ NRead r :: o')).
Proof.
  pose proof (make_spec s path []) as M. remember (fst (win_watch s fuel path [])) as L eqn:EL. unfold win_watch, win_body, pbind at 1 in EL.
  destruct (make_proxy s path []) as [oo [w0|u| |]]; cbn [fst snd] in M, EL;
    try (exists oo; split; [apply M|]; now left). destruct M as (Ho & Hp & Hl). exists oo. split; [exact Ho|].
  destruct (px_valid w0) eqn:V; [|left; cbn in EL; now rewrite app_nil_r in EL]. right. cbn [app] in EL.
  destruct (recv_spec s w0 oo) as (o1 & w & E & P & _ & R). rewrite V in R. destruct R as (r & o' & -> & Er & Ht & Vw & Lw & _).
  exists w, r, o'. split; [congruence|]. split; [exact Vw|]. split; [exact Er|]. split; [exact Ht|].
  unfold pbind at 1 in EL. rewrite E in EL. destruct (px_valid w && has_event w) eqn:G.
  - left. apply andb_prop in G as [_ G]. split; [exact G|]. destruct r as [bs| |]; try (unfold has_event in G; rewrite Lw in G; discriminate).
    exists bs. split; [reflexivity|]. split; [intros ->; unfold has_event in G; rewrite Lw in G; discriminate|].
    assert (Hf : forall n tr a, snd (first_sends s n w tr) <> Ok a).
    { induction n as [|n IH]; intros tr a; cbn [first_sends]; [discriminate|]. rewrite Vw, G. cbn [andb]. unfold pbind.
      destruct (do_event_send s (S n) w tr) as [o3 [[]|u| |]]; cbn; try discriminate. specialize (IH (tr ++ o3) a).
      destruct (first_sends s n w (tr ++ o3)) as [o4 r4]. apply IH. }
    unfold pbind in EL. specialize (Hf fuel (oo ++ NRead (RdOk bs) :: o')). pose proof (adds_sending_first s fuel w (oo ++ NRead (RdOk bs) :: o')) as A.
    destruct (first_sends s fuel w (oo ++ NRead (RdOk bs) :: o')) as [o3 [a|u| |]]; cbn [fst snd] in *; [now destruct (Hf a)| | |];
      exists o3; (split; [exact A|exact EL]).
  - right. destruct fuel as [|n].
    { right. split; [reflexivity|]. unfold pbind in EL. cbn in EL. now rewrite app_nil_r in EL. }
    left. split.
    { destruct r as [bs| |]; auto. unfold has_event in G. rewrite Vw, Lw in G. destruct bs; [reflexivity|discriminate]. }
    unfold pbind at 1 in EL. cbn [first_sends] in EL. rewrite G in EL. unfold pret in EL. cbn [app] in EL. rewrite app_nil_r in EL.
    destruct (win_loop s (S n) w (oo ++ NRead r :: o')). exact EL.
Qed.
Lemma not_loop_prefix (P : nobs -> Prop) a b c x d : Forall P a -> ~ P x -> a ++ b = c ++ x :: d -> exists c', c = a ++ c' /\ b = c' ++ x :: d.
Proof.
  intros Ha Hx. revert c. induction a as [|y a IH]; intros c E; cbn in E; [now exists c|].
  inversion Ha; subst. destruct c as [|z c]; cbn in E; injection E as E1 E; [subst; contradiction|]. subst z.
  destruct (IH H2 c E) as (c' & -> & ->). now exists c'.
Qed.
(** What comes before the loop. *)
Definition early (x : nobs) : Prop := match x with NWait _ | NState _ => False | _ => True end.
Lemma early_opening o : Forall opening o -> Forall early o. Proof. apply Forall_impl. intros []; cbn; auto. Qed.
Lemma early_telling o : Forall telling o -> Forall early o. Proof. apply Forall_impl. intros []; cbn; auto. Qed.
Lemma early_sending o : Forall sending o -> Forall early o. Proof. apply Forall_impl. intros []; cbn; auto. Qed.
(** Anything from the loop is in the log of the loop. *)
Lemma watch_loop s fuel path l1 x l2 : fst (win_watch s fuel path []) = l1 ++ x :: l2 -> ~ early x ->
  exists w oo r o' l1', px_path w = path /\ Forall opening oo /\ Forall telling o' /\ r = nf_read s oo /\
    px_valid w = (match r with RdPending => false | _ => true end) /\
    (match r with RdOk bs => bs = [] | _ => True end) /\
    l1 = oo ++ NRead r :: o' ++ l1' /\ fst (win_loop s fuel w (oo ++ NRead r :: o')) = l1' ++ x :: l2.
Proof.
  intros E Hx. destruct (watch_shape s fuel path) as (oo & Ho & [S|(w & r & o' & P & V & Er & Ht & [(_ & bs & -> & _ & o2 & Hs & S)|[[Hb S]|[_ S]]])]); rewrite S in E.
  - exfalso. apply Hx. assert (In x oo) by (rewrite E; apply in_or_app; right; now left). apply early_opening in Ho. rewrite Forall_forall in Ho. auto.
  - exfalso. apply Hx. assert (Hf : Forall early (oo ++ NRead (RdOk bs) :: o' ++ o2)).
    { apply Forall_app. split; [now apply early_opening|]. constructor; [exact I|]. apply Forall_app. split; [now apply early_telling|now apply early_sending]. }
    rewrite E in Hf. apply Forall_app in Hf as [_ Hf]. now inversion Hf.
  - change (oo ++ NRead r :: o' ++ fst (win_loop s fuel w (oo ++ NRead r :: o'))) with (oo ++ (NRead r :: o') ++ fst (win_loop s fuel w (oo ++ NRead r :: o'))) in E.
    rewrite app_assoc in E. apply (not_loop_prefix early) in E as (l1' & -> & E); [|apply Forall_app; split; [now apply early_opening|constructor; [exact I|now apply early_telling]]|exact Hx].
    exists w, oo, r, o', l1'. rewrite <- app_assoc. auto 10.
  - exfalso. apply Hx. assert (Hf : Forall early (oo ++ NRead r :: o')).
    { apply Forall_app. split; [now apply early_opening|]. constructor; [exact I|now apply early_telling]. }
    rewrite E in Hf. apply Forall_app in Hf as [_ Hf]. now inversion Hf.
Qed.
Lemma watch_handled s fuel path l1 bs l2 : handled (fst (win_watch s fuel path [])) l1 bs l2 ->
  exists fuel' w' w'' tr', px_path w' = path /\ (px_valid w' = true \/ In (NRead RdPending) l1) /\
    send_recv s fuel' (px_set w' (px_valid w') (Sys.overwrite (px_buf w') bs) (N.of_nat (length bs))) tr' = (l2, Ok w'').
Proof.
  intros ((b & l3 & E) & Hn). apply watch_loop in E as (w & oo & r & o' & l1' & P & _ & _ & _ & V & _ & -> & E); [|cbn; tauto].
  destruct (loop_handled s fuel w (oo ++ NRead r :: o') l1' bs l2) as (f' & w' & w'' & tr' & P' & V' & S).
  { split; [exists b, l3; exact E|exact Hn]. }
  exists f', w', w'', tr'. split; [congruence|]. split; [|exact S].
  destruct V' as [V'|V'].
  - destruct r; try (left; congruence). right. apply in_or_app. right. now left.
  - right. apply in_or_app. right. right. apply in_or_app. now right.
Qed.
(** The part of a handled completion up to the read. *)
Lemma until_read_sending o r o' : Forall sending o -> until_read (o ++ NRead r :: o') = o.
Proof. induction 1 as [|x o Hx _ IH]; [reflexivity|]. destruct x; try contradiction; cbn; now rewrite IH. Qed.
Lemma send_recv_first s fuel w tr o w' : send_recv s fuel w tr = (o, Ok w') -> px_valid w = true -> px_len w <> 0%N ->
  do_event_send s fuel w tr = (until_read o, Ok tt).
Proof.
  destruct fuel as [|n]; [discriminate|]. cbn [send_recv]. unfold has_event. intros H V L. rewrite V in H.
  replace (negb (px_len w =? 0)%N) with true in H by lia. cbn [andb] in H.
  apply pbind_inv in H as [(o1 & [] & o2 & H1 & H & ->)|[(u & _ & ?)|[[_ ?]|[_ ?]]]]; try discriminate.
  destruct (recv_spec s w (tr ++ o1)) as (o3 & w1 & Er & _ & _ & R). rewrite V in R. destruct R as (r & o' & -> & _).
  unfold pbind in H. rewrite Er in H. destruct (send_recv s n w1 _) as [o4 r4]. injection H as <- _. rewrite H1.
  cbn [app]. rewrite until_read_sending; [reflexivity|]. pose proof (adds_sending_do s (S n) w tr) as A. now rewrite H1 in A.
Qed.

(** ** Listening *)
Lemma armed_app o : forall a o', armed_from a (o ++ o') = armed_from (armed_from a o) o'.
Proof. induction o as [|x o IH]; intros a o'; [reflexivity|]. destruct x as [| | | | | |[]|[]|]; cbn; apply IH. Qed.
Definition good_sign (x : nobs) : Prop :=
  match x with NRead RdPending | NRead RdFail | NWait WtFail | NWait (WtDone []) => False | _ => True end.
Lemma sending_armed o : Forall sending o -> forall a, armed_from a o = a.
Proof. induction 1 as [|x o Hx _ IH]; intros a; [reflexivity|]. destruct x; try contradiction; cbn; apply IH. Qed.
Lemma telling_armed o : Forall telling o -> forall a, armed_from a o = a.
Proof. intros H. apply sending_armed, telling_sending, H. Qed.
Lemma send_recv_armed s fuel : forall w tr o w', send_recv s fuel w tr = (o, Ok w') -> px_valid w = true -> Forall good_sign o ->
  px_valid w' = true /\ (has_event w = true -> forall a, armed_from a o = true) /\ (has_event w = false -> o = []).
Proof.
  induction fuel as [|n IH]; intros w tr o w' H V G; cbn [send_recv] in H; [discriminate|]. rewrite V in H. destruct (has_event w) eqn:E; cbn [andb] in H.
  - apply pbind_inv in H as [(o1 & [] & o2 & H1 & H & ->)|[(u & _ & ?)|[[_ ?]|[_ ?]]]]; try discriminate.
    pose proof (adds_sending_do s (S n) w tr) as A. rewrite H1 in A. cbn [fst] in A.
    destruct (recv_spec s w (tr ++ o1)) as (o3 & w1 & Er & _ & _ & R). rewrite V in R. destruct R as (r & o' & -> & _ & Ht & Vw & Lw & _).
    unfold pbind in H. rewrite Er in H. destruct (send_recv s n w1 _) as [o4 r4] eqn:E4. injection H as <- ->.
    apply Forall_app in G as [_ G]. inversion G as [|? ? G1 G2]; subst. apply Forall_app in G2 as [_ G4].
    destruct r as [bs| |]; try contradiction. destruct (IH _ _ _ _ E4 Vw G4) as (V' & A1 & A2). split; [exact V'|]. split; [|discriminate].
    intros _ a. rewrite armed_app, (sending_armed o1 A). cbn [app armed_from]. rewrite armed_app, (telling_armed o' Ht).
    destruct (has_event w1); [now apply A1|]. now rewrite A2.
  - injection H as <- <-. split; [exact V|]. split; [discriminate|reflexivity].
Qed.
Lemma loop_armed s fuel : forall w tr o1 a o2, fst (win_loop s fuel w tr) = o1 ++ NWait a :: o2 -> px_valid w = true -> armed tr = true ->
  Forall good_sign o1 -> armed (tr ++ o1) = true.
Proof.
  induction fuel as [|n IH]; intros w tr o1 a o2 E V A G; [destruct o1; discriminate|].
  remember (S n) as f eqn:Ef. rewrite (loop_turn s n f w tr Ef) in E.
  destruct o1 as [|x o1]; cbn [app] in E; [discriminate|]. injection E as <- E.
  destruct (nf_pending s tr); [|destruct o1; discriminate]. inversion G as [|? ? _ G1]; subst x l.
  assert (A1 : armed (tr ++ [NState true]) = true) by (unfold armed; rewrite armed_app; exact A).
  destruct (px_port w).
  - cbn zeta in E. destruct o1 as [|x o1]; cbn [app] in E; injection E as Ex E; [exact A1|]. subst x.
    change (NState true :: NWait (nf_wait s (tr ++ [NState true])) :: o1) with ([NState true] ++ [NWait (nf_wait s (tr ++ [NState true]))] ++ o1).
    inversion G1 as [|? ? G2 G3]; subst x l. destruct (nf_wait s (tr ++ [NState true])) as [| |bs] eqn:Ew; [|contradiction|].
    + apply IH in E; [rewrite !app_assoc; exact E|exact V|unfold armed; rewrite armed_app; exact A1|exact G3].
    + match type of E with fst ?sr ++ _ = _ => destruct sr as [o [w'|u| |]] eqn:ESR end; cbn [fst snd] in E.
      * assert (Hi : Forall inside o) by (pose proof (send_recv_inside s f (px_set w (px_valid w) (Sys.overwrite (px_buf w) bs) (N.of_nat (length bs))) ((tr ++ [NState true]) ++ [NWait (WtDone bs)])) as Hi; now rewrite ESR in Hi).
        apply inside_prefix in E as (c' & -> & E); [|exact Hi|cbn; tauto]. apply Forall_app in G3 as [G3 G4].
        apply send_recv_armed in ESR as (V' & B & _); [|exact V|exact G3].
        apply IH in E; [rewrite !app_assoc; exact E|exact V'| |exact G4].
        unfold armed. rewrite armed_app. apply B. unfold has_event. cbn. destruct bs; [contradiction|reflexivity].
      * exfalso. rewrite app_nil_r in E. pose proof (send_recv_inside s f (px_set w (px_valid w) (Sys.overwrite (px_buf w) bs) (N.of_nat (length bs))) ((tr ++ [NState true]) ++ [NWait (WtDone bs)])) as Hi.
        rewrite ESR in Hi. cbn [fst] in Hi. rewrite E in Hi. apply Forall_app in Hi as [_ Hi]. now inversion Hi.
      * exfalso. rewrite app_nil_r in E. pose proof (send_recv_inside s f (px_set w (px_valid w) (Sys.overwrite (px_buf w) bs) (N.of_nat (length bs))) ((tr ++ [NState true]) ++ [NWait (WtDone bs)])) as Hi.
        rewrite ESR in Hi. cbn [fst] in Hi. rewrite E in Hi. apply Forall_app in Hi as [_ Hi]. now inversion Hi.
      * exfalso. rewrite app_nil_r in E. pose proof (send_recv_inside s f (px_set w (px_valid w) (Sys.overwrite (px_buf w) bs) (N.of_nat (length bs))) ((tr ++ [NState true]) ++ [NWait (WtDone bs)])) as Hi.
        rewrite ESR in Hi. cbn [fst] in Hi. rewrite E in Hi. apply Forall_app in Hi as [_ Hi]. now inversion Hi.
  - apply IH in E; [rewrite <- app_assoc in E; exact E|exact V|exact A1|exact G1].
Qed.
(** At the end of the loop. *)
Lemma loop_armed_end s fuel : forall w tr o b, win_loop s fuel w tr = (o, Ok b) -> px_valid w = true -> armed tr = true ->
  Forall good_sign o -> armed (tr ++ o) = true.
Proof.
  induction fuel as [|n IH]; intros w tr o b H V A G; [discriminate|]. cbn [win_loop] in H.
  apply pbind_inv in H as [(o1 & p & o2 & H1 & H & ->)|[(u & _ & ?)|[[_ ?]|[_ ?]]]]; try discriminate. injection H1 as <- <-.
  assert (A1 : forall b, armed (tr ++ [NState b]) = true) by (intros b0; unfold armed; rewrite armed_app; exact A).
  destruct (nf_pending s tr); [|injection H as <- <-; rewrite app_nil_r; apply A1].
  apply Forall_app in G as [_ G]. rewrite app_assoc.
  apply pbind_inv in H as [(o1 & a & o3 & Ha & H & ->)|[(u & _ & ?)|[[_ ?]|[_ ?]]]]; try discriminate.
  apply Forall_app in G as [G1 G2]. rewrite app_assoc.
  assert (Ho1 : o1 = [] /\ a = WtNone \/ o1 = [NWait a]). { destruct (px_port w); [right|left]; injection Ha as <- <-; auto. }
  destruct a as [| |bs].
  - eapply IH; [exact H|exact V| |exact G2]. destruct Ho1 as [[-> _]| ->]; [rewrite app_nil_r; apply A1|]. unfold armed. rewrite armed_app. apply A1.
  - exfalso. destruct Ho1 as [[_ ?]| ->]; [discriminate|]. inversion G1; subst. contradiction.
  - destruct Ho1 as [[_ ?]| ->]; [discriminate|].
    apply pbind_inv in H as [(o5 & w' & o6 & HS & H & ->)|[(u & _ & ?)|[[_ ?]|[_ ?]]]]; try discriminate.
    apply Forall_app in G2 as [G2 G3]. apply send_recv_armed in HS as (V' & B & _); [|exact V|exact G2]. rewrite app_assoc.
    eapply IH; [exact H|exact V'| |exact G3]. unfold armed. rewrite armed_app. apply B. unfold has_event. cbn. destruct bs; [inversion G1; contradiction|reflexivity].
Qed.
(** Nothing outstanding: nothing more happens. *)
Definition idle (x : nobs) : Prop := match x with NState _ | NWait WtNone => True | _ => False end.
Lemma loop_deaf s fuel : honest s -> forall w tr, armed tr = false -> Forall idle (fst (win_loop s fuel w tr)).
Proof.
  intros H. induction fuel as [|n IH]; intros w tr A; [constructor|]. rewrite (loop_turn s n (S n) w tr eq_refl).
  constructor; [exact I|]. destruct (nf_pending s tr); [|constructor].
  assert (A1 : armed (tr ++ [NState true]) = false) by (unfold armed; rewrite armed_app; exact A).
  destruct (px_port w); [|now apply IH]. cbn zeta. rewrite (H _ A1). constructor; [exact I|]. apply IH. unfold armed. rewrite armed_app. exact A1.
Qed.
Lemma loop_stays_deaf s fuel : honest s -> forall w tr o1 a o2, fst (win_loop s fuel w tr) = o1 ++ NWait a :: o2 -> armed (tr ++ o1) = false ->
  Forall idle (NWait a :: o2).
Proof.
  intros Hh. induction fuel as [|n IH]; intros w tr o1 a o2 E A; [destruct o1; discriminate|].
  remember (S n) as f eqn:Ef. rewrite (loop_turn s n f w tr Ef) in E.
  destruct o1 as [|x o1]; cbn [app] in E; [discriminate|]. injection E as <- E.
  destruct (nf_pending s tr); [|destruct o1; discriminate].
  change (NState true :: o1) with ([NState true] ++ o1) in A. rewrite app_assoc in A.
  destruct (px_port w).
  - cbn zeta in E. destruct o1 as [|x o1]; cbn [app] in E; injection E as Ex E.
    + rewrite app_nil_r in A. rewrite <- Ex in *. pose proof (Hh _ A) as N. rewrite N in *. subst o2. constructor; [exact I|].
      apply loop_deaf; [exact Hh|]. unfold armed. rewrite armed_app. exact A.
    + subst x. change (NWait (nf_wait s (tr ++ [NState true])) :: o1) with ([NWait (nf_wait s (tr ++ [NState true]))] ++ o1) in A. rewrite app_assoc in A.
      destruct (nf_wait s (tr ++ [NState true])) as [| |bs] eqn:Ew; [eapply IH; eauto|eapply IH; eauto|].
      match type of E with fst ?sr ++ _ = _ => set (SR := sr) in * end.
      assert (Hi : Forall inside (fst SR)) by apply send_recv_inside.
      apply inside_prefix in E as (c' & -> & E); [|exact Hi|cbn; tauto]. destruct SR as [o [w'|u| |]]; cbn [fst snd] in *; try (destruct c'; discriminate).
      rewrite app_assoc in A. eapply IH; eauto.
  - eapply IH; eauto.
Qed.

(** ** Memory *)
(** The bytes of a completed read: nothing, or records. *)
Definition fed (bs : text) : Prop := bs = [] \/ exists rs, rs <> [] /\ Forall wrec_ok rs /\ bs = w_encode rs.
Definition well_fed (s : nfs) : Prop :=
  (forall o bs, nf_read s o = RdOk bs -> fed bs) /\ (forall o bs, nf_wait s o = WtDone bs -> fed bs).
Definition px_ok (w : proxy) : Prop := px_len w = 0%N \/ exists bs post, fed bs /\ px_buf w = bs ++ post /\ px_len w = N.of_nat (length bs).
Lemma send_stops s fuel w tr : px_ok w -> stops (snd (do_event_send s fuel w tr)).
Proof.
  intros H. unfold do_event_send. destruct (px_valid w); [|exact I].
  destruct (N.lt_ge_cases (px_len w) 16) as [Hl|Hl].
  - destruct fuel; [exact I|]. cbn [send_loop]. replace (fni_size <=? px_len w)%N with false by (unfold fni_size; lia). exact I.
  - destruct H as [H|(bs & post & [->|(rs & Hn & Hr & ->)] & E & L)]; [lia|cbn in L; lia|]. rewrite E.
    destruct (send_buffer s (px_path w) rs Hn Hr fuel [] post (px_len w) 0 None None tr Hl eq_refl) as (_ & S & _). exact S.
Qed.
Lemma recv_ok s w tr o w' : well_fed s -> do_event_recv s w tr = (o, Ok w') -> px_valid w = true -> px_ok w'.
Proof.
  intros [H _] E V. destruct (recv_spec s w tr) as (o1 & w1 & E1 & _ & _ & R). rewrite E in E1. injection E1 as <- <-. rewrite V in R.
  destruct R as (r & o' & _ & Er & _ & _ & L & B). destruct r as [bs| |]; [|now left|now left]. right. exists bs.
  eexists. split; [eapply H; symmetry; exact Er|]. split; [exact B|exact L].
Qed.
Lemma send_recv_stops s fuel : well_fed s -> forall w tr, px_ok w -> stops (snd (send_recv s fuel w tr)).
Proof.
  intros Hw. induction fuel as [|n IH]; intros w tr H; [exact I|]. cbn [send_recv]. destruct (px_valid w && has_event w) eqn:E; [|exact I].
  apply andb_prop in E as [V _]. pose proof (send_stops s (S n) w tr H) as S. unfold pbind.
  destruct (do_event_send s (Datatypes.S n) w tr) as [o1 [[]|u| |]]; try exact S. cbn [fst snd].
  destruct (recv_spec s w (tr ++ o1)) as (o2 & w1 & E1 & _). pose proof (recv_ok s w _ _ _ Hw E1 V) as H1. rewrite E1.
  specialize (IH w1 ((tr ++ o1) ++ o2) H1). destruct (send_recv s n w1 _) as [o3 r3]. exact IH.
Qed.
Lemma loop_stops s fuel : well_fed s -> forall w tr, stops (snd (win_loop s fuel w tr)).
Proof.
  intros Hw. induction fuel as [|n IH]; intros w tr; [exact I|]. cbn [win_loop]. unfold pbind at 1, ask. destruct (nf_pending s tr); [|exact I].
  assert (Hk : forall a tr', (forall bs, a = WtDone bs -> fed bs) ->
    stops (snd ((match a with
          | WtDone bs => w' <- send_recv s (S n) (px_set w (px_valid w) (Sys.overwrite (px_buf w) bs) (N.of_nat (length bs))) ;; win_loop s n w'
          | _ => win_loop s n w
          end) tr'))).
  { intros a tr' Ha. destruct a as [| |bs]; try apply IH. unfold pbind.
    assert (Hp : px_ok (px_set w (px_valid w) (Sys.overwrite (px_buf w) bs) (N.of_nat (length bs)))).
    { right. exists bs. eexists. split; [now apply Ha|]. split; reflexivity. }
    pose proof (send_recv_stops s (S n) Hw _ tr' Hp) as S.
    destruct (send_recv s (Datatypes.S n) _ tr') as [o1 [w1|u| |]]; try exact S. specialize (IH w1 (tr' ++ o1)). destruct (win_loop s n w1 (tr' ++ o1)). exact IH. }
  destruct (px_port w).
  - unfold pbind at 1. specialize (Hk (nf_wait s (tr ++ [NState true])) ((tr ++ [NState true]) ++ [NWait (nf_wait s (tr ++ [NState true]))])).
    destruct (nf_wait s (tr ++ [NState true])) as [| |bs] eqn:Ew.
    + destruct (win_loop s n w _). apply Hk. discriminate.
    + destruct (win_loop s n w _). apply Hk. discriminate.
    + assert (Hs : forall (A : Type) (c : list nobs) (m : list nobs * out A), snd (let (o2, r2) := m in (c ++ o2, r2)) = snd m) by (intros A c [? ?]; reflexivity).
      rewrite !Hs. apply Hk. intros b [= <-]. eapply Hw, Ew.
  - rewrite pbind_ret. specialize (IH w (tr ++ [NState true])). destruct (win_loop s n w (tr ++ [NState true])). exact IH.
Qed.
Lemma watch_stops s fuel path n : well_fed s -> nf_narrow s path = Some n -> (n <= 512)%N -> (n <= 2 * (N.of_nat (length path) + 1))%N -> stops (snd (win_watch s fuel path [])).
Proof.
  intros Hw Hn Hl Hl2. pose proof (make_spec s path []) as [_ M]. unfold win_watch, win_body, pbind at 1.
  destruct (make_proxy s path []) as [o [w|u| |]]; cbn [snd] in M.
  - destruct (px_valid w) eqn:V; [|exact I]. destruct (recv_spec s w ([] ++ o)) as (o1 & w1 & E1 & _). pose proof (recv_ok s w _ _ _ Hw E1 V) as H1.
    unfold pbind at 1. rewrite E1.
    assert (Hf : forall k tr, stops (snd (first_sends s k w1 tr))).
    { induction k as [|k IH]; intros tr; [exact I|]. cbn [first_sends]. destruct (_ && _); [|exact I]. unfold pbind.
      pose proof (send_stops s (S k) w1 tr H1) as S. destruct (do_event_send s (Datatypes.S k) w1 tr) as [o2 [[]|u| |]]; try exact S.
      specialize (IH (tr ++ o2)). destruct (first_sends s k w1 (tr ++ o2)). exact IH. }
    unfold pbind. specialize (Hf fuel (([] ++ o) ++ o1)). destruct (first_sends s fuel w1 (([] ++ o) ++ o1)) as [o2 [a|u| |]]; try exact Hf.
    pose proof (loop_stops s fuel Hw w1 ((([] ++ o) ++ o1) ++ o2)) as L. destruct (win_loop s fuel w1 ((([] ++ o) ++ o1) ++ o2)). exact L.
  - destruct M as (n' & E & Hlt). rewrite Hn in E. injection E as <-. lia.
  - congruence.
  - destruct M.
Qed.
(** ** In the watch class *)
Definition modest (x : nobs) : Prop :=
  match x with NCb e => ev_ptype e = PtWatcher -> ev_effect e = EtOther | _ => True end.
Lemma adds_modest_send s fuel : forall root buf len off old new,
  (forall p, old = Some p -> snd p <> PtWatcher) -> (forall p, new = Some p -> snd p <> PtWatcher) ->
  adds (Forall modest) (send_loop s fuel root buf len off old new).
Proof.
  induction fuel as [|n IH]; intros root buf len off old new Ho Hn; cbn [send_loop]; [apply adds_all_stop|]. destruct (_ <=? _)%N; [|apply adds_all_ret].
  assert (Hb : forall a b c, adds (Forall modest) (bytes_at a b c)).
  { intros a b c. unfold bytes_at. destruct (Nat.eqb _ _); [apply adds_all_ret|apply adds_all_stop]. }
  assert (Hd : forall a b, adds (Forall modest) (dword_at a b)).
  { intros a b. apply adds_all_bind; [apply Hb|intros; apply adds_all_ret]. }
  apply adds_all_bind; [apply Hd|]. intros nl. destruct (_ =? _)%N; [|now apply IH].
  apply adds_all_bind; [apply Hb|]. intros name. apply adds_all_bind; [apply Hd|]. intros act tr.
  unfold win_record, win_ptype. rewrite !pbind_assoc. unfold pbind at 1, ask. rewrite pbind_ret. cbn beta.
  set (d := nf_isdir s tr (win_join root (units name))). set (t := match d with Some true => PtDir | Some false => PtFile | None => PtOther end).
  assert (Ht : t <> PtWatcher) by (unfold t; destruct d as [[]|]; discriminate).
  match goal with |- Forall _ (fst (let (_, _) := ?m ?l in _)) => assert (Hm : adds (Forall modest) m); [|specialize (Hm l); destruct (m l); constructor; [exact I|exact Hm]] end.
  assert (Hr : forall a b, snd a <> PtWatcher -> adds (Forall modest) (trigger_rename s a b)).
  { intros a b Ha. do 3 (apply adds_all_bind; [apply adds_all_ask; intros; exact I|intros ?]). apply adds_all_emit. cbn. intros E. now rewrite E in Ha. }
  assert (Hk : forall o' n', (forall p, o' = Some p -> snd p <> PtWatcher) -> (forall p, n' = Some p -> snd p <> PtWatcher) ->
    adds (Forall modest) (next <- dword_at buf off ;; if (next =? 0)%N then pret tt else send_loop s n root buf len (off + next) o' n')).
  { intros o' n' H1 H2. apply adds_all_bind; [apply Hd|]. intros next. destruct (_ =? _)%N; [apply adds_all_ret|now apply IH]. }
  intros tr'. destruct (act =? FILE_ACTION_RENAMED_OLD_NAME)%N; [destruct new as [nn|]|destruct (act =? FILE_ACTION_RENAMED_NEW_NAME)%N; [destruct old as [oo|]|]].
  - rewrite pbind_assoc. revert tr'. apply adds_all_bind; [now apply Hr|]. intros _ tr'. rewrite pbind_ret. apply Hk; discriminate.
  - rewrite pbind_ret. apply Hk; [intros p [= <-]; exact Ht|exact Hn].
  - rewrite pbind_assoc. revert tr'. apply adds_all_bind; [apply Hr; now apply Ho|]. intros _ tr'. rewrite pbind_ret. apply Hk; discriminate.
  - rewrite pbind_ret. apply Hk; [exact Ho|intros p [= <-]; exact Ht].
  - rewrite pbind_assoc. revert tr'. apply adds_all_bind; [|intros _ tr'; rewrite pbind_ret; now apply Hk].
    unfold n_send. apply adds_all_bind; [apply adds_all_ask; intros; exact I|]. intros now. apply adds_all_emit. cbn. intros E. now rewrite E in Ht.
Qed.
Lemma adds_modest_do s fuel w : adds (Forall modest) (do_event_send s fuel w).
Proof. unfold do_event_send. destruct (px_valid w); [apply adds_modest_send; discriminate|apply adds_all_ret]. Qed.
Lemma adds_modest_recv s w : adds (Forall modest) (do_event_recv s w).
Proof.
  unfold do_event_recv. destruct (px_valid w); [|apply adds_all_ret]. apply adds_all_bind; [apply adds_all_ask; intros; exact I|].
  assert (Hs : forall p t, adds (Forall modest) (n_send s p EtOther t)).
  { intros p t. apply adds_all_bind; [apply adds_all_ask; intros; exact I|]. intros. apply adds_all_emit. cbn. auto. }
  intros [bs| |]; [apply adds_all_ret| |]; (apply adds_all_bind; [apply Hs|intros; apply adds_all_ret]).
Qed.
Lemma watch_modest s fuel path : Forall modest (fst (win_watch s fuel path [])).
Proof.
  assert (Hsr : forall k w, adds (Forall modest) (send_recv s k w)).
  { induction k as [|k IH]; intros w; cbn [send_recv]; [apply adds_all_stop|]. destruct (_ && _); [|apply adds_all_ret].
    apply adds_all_bind; [apply adds_modest_do|]. intros _. apply adds_all_bind; [apply adds_modest_recv|]. intros; apply IH. }
  assert (Hl : forall k w, adds (Forall modest) (win_loop s k w)).
  { induction k as [|k IH]; intros w; cbn [win_loop]; [apply adds_all_stop|]. apply adds_all_bind; [apply adds_all_ask; intros; exact I|].
    intros []; [|apply adds_all_ret]. apply adds_all_bind; [destruct (px_port w); [apply adds_all_ask; intros; exact I|apply adds_all_ret]|].
    intros [| |bs]; try apply IH. apply adds_all_bind; [apply Hsr|]. intros; apply IH. }
  assert (Hf : forall k w, adds (Forall modest) (first_sends s k w)).
  { induction k as [|k IH]; intros w; cbn [first_sends]; [apply adds_all_stop|]. destruct (_ && _); [|apply adds_all_ret].
    apply adds_all_bind; [apply adds_modest_do|]. intros _; apply IH. }
  assert (H : adds (Forall modest) (win_watch s fuel path)); [|apply H].
  unfold win_watch, win_body. apply adds_all_bind.
  - intros tr. destruct (make_spec s path tr) as [M _]. revert M. apply Forall_impl. intros []; cbn; auto; contradiction.
  - intros w. destruct (px_valid w); [|apply adds_all_ret]. apply adds_all_bind; [apply adds_modest_recv|]. intros w1.
    apply adds_all_bind; [apply Hf|]. intros _. apply Hl.
Qed.
Lemma loop_true s fuel : forall w tr o b, win_loop s fuel w tr = (o, Ok b) -> b = true /\ exists o1, o = o1 ++ [NState false].
Proof.
  induction fuel as [|n IH]; intros w tr o b H; [discriminate|]. cbn [win_loop] in H.
  apply pbind_inv in H as [(o1 & p & o2 & H1 & H & ->)|[(u & _ & ?)|[[_ ?]|[_ ?]]]]; try discriminate. injection H1 as <- <-.
  destruct (nf_pending s tr); [|injection H as <- <-; split; [reflexivity|now exists []]].
  apply pbind_inv in H as [(o1 & a & o3 & _ & H & ->)|[(u & _ & ?)|[[_ ?]|[_ ?]]]]; try discriminate.
  destruct a as [| |bs].
  - apply IH in H as (-> & o4 & ->). split; [reflexivity|]. exists ([NState true] ++ o1 ++ o4). now rewrite <- !app_assoc.
  - apply IH in H as (-> & o4 & ->). split; [reflexivity|]. exists ([NState true] ++ o1 ++ o4). now rewrite <- !app_assoc.
  - apply pbind_inv in H as [(o5 & w' & o6 & _ & H & ->)|[(u & _ & ?)|[[_ ?]|[_ ?]]]]; try discriminate.
    apply IH in H as (-> & o4 & ->). split; [reflexivity|]. exists ([NState true] ++ o1 ++ o5 ++ o4). now rewrite <- !app_assoc.
Qed.
Lemma watch_true s fuel path o : win_watch s fuel path [] = (o, Ok true) -> exists o1, o = o1 ++ [NState false].
Proof.
  unfold win_watch, win_body. intros H. apply pbind_inv in H as [(o1 & w & o2 & _ & H & ->)|[(u & _ & ?)|[[_ ?]|[_ ?]]]]; try discriminate.
  destruct (px_valid w); [|discriminate].
  apply pbind_inv in H as [(o3 & w1 & o4 & _ & H & ->)|[(u & _ & ?)|[[_ ?]|[_ ?]]]]; try discriminate.
  apply pbind_inv in H as [(o5 & w2 & o6 & _ & H & ->)|[(u & _ & ?)|[[_ ?]|[_ ?]]]]; try discriminate.
  apply loop_true in H as (_ & o7 & ->). exists (o1 ++ o3 ++ o5 ++ o7). now rewrite <- !app_assoc.
Qed.

(** ** How the adapter ends (C66, C67) *)
Lemma loop_end s fuel : forall w tr o b, win_loop s fuel w tr = (o, Ok b) ->
  b = true /\ exists o1, o = o1 ++ [NState false] /\ ~ In (NState false) o1.
Proof.
  induction fuel as [|n IH]; intros w tr o b H; [discriminate|]. cbn [win_loop] in H.
  apply pbind_inv in H as [(o1 & p & o2 & H1 & H & ->)|[(u & _ & ?)|[[_ ?]|[_ ?]]]]; try discriminate. injection H1 as <- <-.
  destruct (nf_pending s tr); [|injection H as <- <-; split; [reflexivity|exists []; split; [reflexivity|intros []]]].
  apply pbind_inv in H as [(o1 & a & o3 & Ha & H & ->)|[(u & _ & ?)|[[_ ?]|[_ ?]]]]; try discriminate.
  assert (H1 : ~ In (NState false) o1).
  { destruct (px_port w); injection Ha as <- <-; [intros [Hc|[]]; discriminate|intros []]. }
  destruct a as [| |bs].
  1,2: apply IH in H as (-> & o4 & -> & H4); split; [reflexivity|]; exists ([NState true] ++ o1 ++ o4); split; [now rewrite <- !app_assoc|];
    rewrite !in_app_iff; intros [[Hc|[]]|[Hc|Hc]]; [discriminate|auto|auto].
  apply pbind_inv in H as [(o5 & w' & o6 & Hs & H & ->)|[(u & _ & ?)|[[_ ?]|[_ ?]]]]; try discriminate.
  assert (H5 : ~ In (NState false) o5).
  { match type of Hs with send_recv s _ ?v ?t = _ => pose proof (send_recv_inside s (S n) v t) as Hi end.
    rewrite Hs in Hi. cbn in Hi.
    intros Hin. rewrite Forall_forall in Hi. exact (Hi _ Hin). }
  apply IH in H as (-> & o4 & -> & H4). split; [reflexivity|]. exists ([NState true] ++ o1 ++ o5 ++ o4). split; [now rewrite <- !app_assoc|].
  rewrite !in_app_iff. intros [[Hc|[]]|[Hc|[Hc|Hc]]]; [discriminate|auto|auto|auto].
Qed.

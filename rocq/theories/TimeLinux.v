(** Event times on Linux: every event both adapters tell is dated by the clock. *)
From Verif Require Import Base PathModel EventModel Sys SysFacts LinuxModel InotifyModel FanotifyModel LinuxWatch TimeSpec TimeFacts.

(** What a Linux trace shows of the clock and the callback. *)
Definition tick_of (ob : obs) : list tick :=
  match ob with ONow t => [Read t] | OCallback e => [Told e] | _ => [] end.
Definition ticks (o : trace) : list tick := flat_map tick_of o.
Lemma ticks_app a b : ticks (a ++ b) = ticks a ++ ticks b.
Proof. apply flat_map_app. Qed.

(** Computations that tell nothing; whose tellings are all dated; all dated and messages. *)
Definition untold {A} (m : M A) : Prop := forall tr e, ~ In (Told e) (ticks (fst (m tr))).
Definition well {A} (m : M A) : Prop := every (fun o => dated (ticks o)) m.
Definition hushed {A} (m : M A) : Prop := every (fun o => dated (ticks o) /\ quiet (ticks o)) m.
(** Computations that make an event and tell nothing. *)
Definition makes {A} (f : A -> event) (m : M A) : Prop :=
  forall tr, (forall e, ~ In (Told e) (ticks (fst (m tr)))) /\
    match snd (m tr) with Ok a => dated_in (f a) (ticks (fst (m tr))) | _ => True end.

Lemma untold_ret {A} (a : A) : untold (ret a). Proof. intros tr e []. Qed.
Lemma untold_undef {A} u : untold (@undef A u). Proof. intros tr e []. Qed.
Lemma untold_bind {A B} (m : M A) (k : A -> M B) : untold m -> (forall a, untold (k a)) -> untold (bind m k).
Proof.
  intros Hm Hk tr e. unfold bind. specialize (Hm tr e). destruct (m tr) as [o1 [a|u| |]]; try exact Hm.
  specialize (Hk a (tr ++ o1) e). destruct (k a (tr ++ o1)) as [o2 r2]. cbn in *. rewrite ticks_app, in_app_iff. tauto.
Qed.
Lemma well_ret {A} (a : A) : well (ret a). Proof. intros tr. apply dated_nil. Qed.
Lemma well_fuel {A} : well (@no_fuel A). Proof. intros tr. apply dated_nil. Qed.
Lemma well_untold {A} (m : M A) : untold m -> well m.
Proof. intros H tr. apply dated_silent. apply H. Qed.
Lemma well_hushed {A} (m : M A) : hushed m -> well m.
Proof. intros H tr. apply H. Qed.
Lemma hushed_untold {A} (m : M A) : untold m -> hushed m.
Proof. intros H tr. split; [now apply well_untold|]. intros e He. now destruct (H tr e). Qed.
Lemma well_bind {A B} (m : M A) (k : A -> M B) : well m -> (forall a, well (k a)) -> well (bind m k).
Proof. apply every_bind. intros a b. rewrite ticks_app. apply dated_app. Qed.
Lemma hushed_bind {A B} (m : M A) (k : A -> M B) : hushed m -> (forall a, hushed (k a)) -> hushed (bind m k).
Proof. apply every_bind. intros a b [H1 H2] [H3 H4]. rewrite ticks_app. split; [now apply dated_app|now apply quiet_app]. Qed.
Lemma makes_bind {A B} (f : B -> event) (m : M A) (k : A -> M B) : untold m -> (forall a, makes f (k a)) -> makes f (bind m k).
Proof.
  intros Hm Hk tr. unfold bind. specialize (Hm tr). destruct (m tr) as [o1 [a|u| |]]; try (now split).
  specialize (Hk a (tr ++ o1)). destruct (k a (tr ++ o1)) as [o2 r2]. cbn in *. destruct Hk as [H1 H2]. split.
  - intros e. rewrite ticks_app, in_app_iff. intros [H|H]; [now apply (Hm e)|now apply (H1 e)].
  - destruct r2; try exact I. rewrite ticks_app. now apply dated_in_more.
Qed.
Lemma makes_then {A B} (f : A -> event) (g : B -> event) (m : M A) (k : A -> M B) :
  makes f m -> (forall a, untold (k a)) -> (forall a tr b, snd (k a tr) = Ok b -> g b = f a) -> makes g (bind m k).
Proof.
  intros Hm Hk Hg tr. unfold bind. specialize (Hm tr). destruct (m tr) as [o1 [a|u| |]]; try (now split; [apply Hm|]).
  specialize (Hk a (tr ++ o1)). specialize (Hg a (tr ++ o1)). destruct (k a (tr ++ o1)) as [o2 r2]. cbn in *. destruct Hm as [H1 H2]. split.
  - intros e. rewrite ticks_app, in_app_iff. intros [H|H]; [now apply (H1 e)|now apply (Hk e)].
  - destruct r2 as [b|u| |]; try exact I. rewrite ticks_app, (Hg b eq_refl). apply dated_in_quiet; [exact H2|].
    intros e He. now destruct (Hk e).
Qed.
Lemma untold_makes {A} (f : A -> event) (m : M A) : makes f m -> untold m.
Proof. intros H tr. apply H. Qed.
(** An event made, then messages, then told. *)
Lemma tell_made {A} (f : A -> event) (m : M A) (k : A -> M unit) : makes f m -> (forall a, hushed (k a)) ->
  well (x <- m ;; k x ;;; callback (f x)).
Proof.
  intros Hm Hk tr. unfold bind. specialize (Hm tr). destruct (m tr) as [o1 [a|u| |]]; cbn in *; try (now apply dated_silent).
  destruct Hm as [H1 H2]. specialize (Hk a (tr ++ o1)). destruct (k a (tr ++ o1)) as [o2 [v|u| |]]; cbn in *; destruct Hk as [K1 K2].
  2-4: rewrite ticks_app; apply dated_app; [now apply dated_silent|exact K1].
  rewrite app_assoc, !ticks_app. cbn. apply dated_snoc; [apply dated_app; [now apply dated_silent|exact K1]|].
  now apply dated_in_quiet.
Qed.

Ltac ut := repeat first [apply untold_ret | apply untold_undef | apply untold_bind; [|intros ?]
  | match goal with |- untold (if ?b then _ else _) => destruct b
                  | |- untold (match ?x with _ => _ end) => destruct x end
  | intros ? ? [] ].
Lemma untold_word n b o : untold (word_at n b o).
Proof. unfold word_at. ut. Qed.
Lemma untold_byte b o : untold (byte_at b o).
Proof. unfold byte_at. ut. Qed.
Lemma untold_cstr b o : untold (c_string b o).
Proof. unfold c_string. ut. Qed.
Ltac ut' := repeat first [apply untold_word | apply untold_byte | apply untold_cstr | apply untold_ret | apply untold_undef | apply untold_bind; [|intros ?]
  | match goal with |- untold (if ?b then _ else _) => destruct b
                  | |- untold (match ?x with _ => _ end) => destruct x end
  | let H := fresh in intros ? ? [H|[]]; discriminate H | intros ? ? [] ].

Section Shared.
  Variable s : os.
  Lemma makes_new p f t : makes (fun e => e) (new_event s p f t).
  Proof.
    intros tr. cbn. split; [intros e [H|[]]; discriminate H|]. exists [], []. split; [reflexivity|]. split; [apply quiet_nil|].
    intros x H. discriminate H.
  Qed.
  Lemma hushed_send r p : hushed (send_msg s r p).
  Proof.
    intros tr. cbn. split.
    - apply (dated_snoc [Read (os_now s tr)]); [apply dated_silent; intros e [H|[]]; discriminate H|].
      exists [], []. split; [reflexivity|]. split; [apply quiet_nil|]. intros x H. discriminate H.
    - intros e [H|[H|[]]]; [discriminate H|]. injection H as <-. intros F. now apply F.
  Qed.
  Lemma untold_make_ep a b : untold (make_ep s a b).
  Proof. unfold make_ep. ut'. Qed.
  Lemma well_walk {S} (f : text -> S -> M S) : (forall p st, well (f p st)) -> forall fuel path st, well (walkdir s fuel path f st).
  Proof.
    intros Hf. induction fuel as [|k IH]; intros path st; [apply well_fuel|]. cbn [walkdir].
    apply well_bind; [apply well_untold; ut'|]. intros [ents|]; [|apply well_ret].
    apply well_bind; [apply Hf|]. intros st1. apply well_bind; [|intros st2; apply well_bind; [apply well_untold; ut'|intros ?; apply well_ret]].
    revert st1. induction ents as [|de es IHe]; intros st1; [apply well_ret|].
    destruct (negb (de_type de =? 4)%N); [apply IHe|]. destruct (text_eqb (de_name de) (lit ".")); [apply IHe|].
    destruct (text_eqb (de_name de) (lit "..")); [apply IHe|].
    apply well_bind; [apply well_untold; ut'|]. intros [real|]; [|apply IHe]. apply well_bind; [apply IH|]. intros st'. apply IHe.
  Qed.

  (** inotify *)
  Lemma hushed_in_mark p fd dm : hushed (in_mark s p fd dm).
  Proof.
    unfold in_mark. apply hushed_bind; [apply hushed_untold; ut'|]. intros [real|].
    - apply hushed_bind; [apply hushed_untold; ut'|]. intros d. apply hushed_bind; [apply hushed_untold; ut'|]. intros wd.
      destruct (0 <? wd)%Z; [apply hushed_untold; ut'|]. apply hushed_bind; [apply hushed_send|]. intros ?. apply hushed_untold. ut'.
    - apply hushed_bind; [apply hushed_send|]. intros ?. apply hushed_untold. ut'.
  Qed.
  Lemma untold_peek b o t : untold (in_peek b o t).
  Proof. unfold in_peek, in_len. ut'. Qed.
  Lemma makes_pair (mk1 mk2 : M event) : makes (fun e => e) mk1 -> makes (fun e => e) mk2 ->
    makes (fun e => e) (ea <- mk1 ;; eb <- mk2 ;; new_pair s ea eb).
  Proof.
    intros H1 H2. apply makes_bind; [now apply (untold_makes (fun e => e))|]. intros ea.
    intros tr. unfold bind. specialize (H2 tr). destruct (mk2 tr) as [o2 [eb|u| |]]; try (split; [apply H2|exact I]).
    destruct H2 as [U D]. cbn [fst snd] in U, D. unfold new_pair, bind, now, ret. cbn [fst snd app]. rewrite ticks_app. split.
    - intros e. rewrite in_app_iff. intros [H|[H|[]]]; [now apply (U e)|discriminate H].
    - exists (ticks o2), []. split; [reflexivity|]. split; [apply quiet_nil|]. intros x H. injection H as <-.
      assert (E : ev_time (ev_copy eb) = ev_time eb) by now destruct eb. rewrite E.
      destruct D as (a & b & -> & Q & _). now exists a, b.
  Qed.
  Lemma makes_parse d b o t : makes fst (in_parse s d b o t).
  Proof.
    unfold in_parse. apply makes_bind; [unfold in_mask; ut'|]. intros mask.
    set (et := if flag mask IN_CREATE then _ else _). set (pt := if flag mask IN_ISDIR then _ else _).
    assert (MK : forall o, makes (fun e => e) (nm <- in_name b o ;; new_event s (path_append d nm) et pt)).
    { intros o'. apply makes_bind; [unfold in_name; ut'|]. intros nm. apply makes_new. }
    assert (ONE : forall next : option N, makes fst (ev <- (nm <- in_name b o ;; new_event s (path_append d nm) et pt) ;; ret (ev, next))).
    { intros nx. apply (makes_then (fun e => e)); [apply MK|intros a; ut'|]. intros a tr r [= <-]. reflexivity. }
    assert (AS : forall x y, makes fst (ea <- (nm <- in_name b x ;; new_event s (path_append d nm) et pt) ;;
      eb <- (nm <- in_name b y ;; new_event s (path_append d nm) et pt) ;; ev <- new_pair s ea eb ;; nn <- in_peek b y t ;; ret (ev, nn))).
    { intros x y tr.
      pose proof (makes_then (fun e => e) fst _ (fun ev => nn <- in_peek b y t ;; ret (ev, nn)) (makes_pair _ _ (MK x) (MK y))) as K.
      assert (X : makes fst (bind (ea <- (nm <- in_name b x ;; new_event s (path_append d nm) et pt) ;;
        eb <- (nm <- in_name b y ;; new_event s (path_append d nm) et pt) ;; new_pair s ea eb) (fun ev => nn <- in_peek b y t ;; ret (ev, nn)))).
      { apply K; clear K.
        - intros a. apply untold_bind; [apply untold_peek|intros ?; ut'].
        - intros a tr' r. unfold bind. destruct (in_peek b y t tr') as [o1 [z|u| |]]; cbn; try discriminate. intros [= <-]. reflexivity. }
      specialize (X tr). rewrite bind_assoc in X. 
      erewrite bind_ext in X; [exact X|]. intros a o1 _. cbn beta. now rewrite bind_assoc. }
    apply makes_bind; [apply untold_peek|]. intros [n|]; [|apply ONE].
    apply makes_bind; [unfold in_cookie; ut'|]. intros cn. apply makes_bind; [unfold in_cookie; ut'|]. intros ci.
    destruct (negb _); [apply ONE|]. apply makes_bind; [unfold in_mask; ut'|]. intros mn.
    destruct (flag mask IN_MOVED_FROM && flag mn IN_MOVED_TO); [apply AS|].
    destruct (flag mn IN_MOVED_FROM && flag mask IN_MOVED_TO); [apply AS|apply ONE].
  Qed.

  Lemma well_in_loop fd buf tail : forall fuel ev c dm rm, well (in_loop s fuel fd buf tail ev c dm rm).
  Proof.
    induction fuel as [|k IH]; intros ev c dm rm; [apply well_fuel|]. cbn [in_loop]. destruct ev as [off|]; [|apply well_ret].
    destruct (negb _); [apply well_ret|]. apply well_bind; [apply well_untold, untold_peek|]. intros next.
    apply well_bind; [apply well_untold; unfold in_mask; ut'|]. intros msk. apply well_bind; [apply well_untold; unfold in_wd; ut'|]. intros wd.
    destruct (in_c_ulim <? c)%N; [apply well_ret|]. cbv zeta. destruct (is_parity_lost msk && _); [apply well_ret|].
    destruct (zfind wd dm) as [dir|]; [|apply well_bind; [apply well_hushed, hushed_send|intros ?; apply IH]].
    destruct (flag msk IN_Q_OVERFLOW); [apply well_bind; [apply well_hushed, hushed_send|intros ?; apply IH]|].
    destruct (is_real_event msk); [|apply IH].
    set (rm' := if is_parity_lost msk then _ else _).
    set (mk := fun ev : event => if flag msk IN_ISDIR && flag msk IN_CREATE then p <- in_mark s (ev_path ev) fd dm ;; ret (fst p) else ret dm).
    assert (HM : forall ev, hushed (mk ev)).
    { intros ev. unfold mk. destruct (_ && _); [apply hushed_bind; [apply hushed_in_mark|intros ?; apply hushed_untold; ut']|apply hushed_untold; ut']. }
    intros tr. unfold bind at 1. pose proof (makes_parse dir buf off tail tr) as P.
    destruct (in_parse s dir buf off tail tr) as [o1 [[ev nx]|u| |]]; cbn [fst snd] in *; try (now apply dated_silent).
    destruct P as [U D]. pose proof (HM ev (tr ++ o1)) as H. fold (mk ev). unfold bind at 1.
    destruct (mk ev (tr ++ o1)) as [o2 [dm1|u| |]]; cbn [fst snd] in *; destruct H as [H1 H2].
    2-4: rewrite ticks_app; apply dated_app; [now apply dated_silent|exact H1].
    unfold bind at 1, callback. pose proof (IH nx (c + 1)%N dm1 rm' (((tr ++ o1) ++ o2) ++ [OCallback ev])) as R.
    destruct (in_loop s k fd buf tail nx (c + 1) dm1 rm' _) as [o3 r3]. cbn [fst snd] in *.
    rewrite !ticks_app. replace (ticks o1 ++ ticks o2 ++ ticks [OCallback ev] ++ ticks o3) with (((ticks o1 ++ ticks o2) ++ [Told ev]) ++ ticks o3) by now rewrite <- !app_assoc.
    apply dated_app; [|exact R]. apply dated_snoc; [apply dated_app; [now apply dated_silent|exact H1]|]. now apply dated_in_quiet.
  Qed.
  Lemma well_in_recv ke : well (in_recv s ke).
  Proof.
    unfold in_recv. apply well_bind; [apply well_untold; ut'|]. intros r. cbv zeta. destruct (_ && _); [apply well_ret|].
    apply well_bind; [apply well_in_loop|]. intros [[res dm] rm]. apply well_ret.
  Qed.
  Lemma well_in_make fuel path il : well (in_make_sysres s fuel path il).
  Proof.
    unfold in_make_sysres. apply well_bind; [apply well_untold; ut'|]. intros fd. cbv zeta. destruct (fd <? 0)%Z; [apply well_ret|].
    apply well_bind.
    - apply well_walk. intros p st. apply well_bind; [apply well_hushed, hushed_in_mark|intros ?; apply well_ret].
    - intros [|x dm]; [apply well_ret|]. apply well_bind; [apply well_untold, untold_make_ep|intros ?; apply well_ret].
  Qed.

  (** fanotify *)
  Lemma hushed_fa_mark p fd : hushed (fa_mark s p fd).
  Proof.
    unfold fa_mark. apply hushed_bind; [apply hushed_untold; ut'|]. intros [real|].
    - apply hushed_bind; [apply hushed_untold; ut'|]. intros d. apply hushed_bind; [apply hushed_untold; ut'|]. intros rc.
      destruct (rc =? 0)%Z; [apply hushed_untold; ut'|]. apply hushed_bind; [apply hushed_send|]. intros ?. apply hushed_untold. ut'.
    - apply hushed_bind; [apply hushed_send|]. intros ?. apply hushed_untold. ut'.
  Qed.
  Lemma untold_fa_peek b m l : untold (fa_peek b m l).
  Proof. unfold fa_peek, fan_event_ok, fa_event_len. ut'. Qed.
  Lemma untold_pathof b m : untold (fa_pathof s b m).
  Proof. unfold fa_pathof, fa_handle, fa_handle_bytes. cbv zeta. ut'. Qed.
  Definition fa_ev (x : event * option N * Z * Z) : event := fst (fst (fst x)).
  Lemma makes_fa_parse b m l ec : makes fa_ev (fa_parse s b m l ec).
  Proof.
    unfold fa_parse. apply makes_bind; [apply untold_fa_peek|]. intros n. apply makes_bind; [unfold fa_mask; ut'|]. intros mask.
    set (et := if flag mask FAN_CREATE then _ else _). set (pt := if flag mask FAN_ONDIR then _ else _). cbv zeta.
    assert (ONE : makes fa_ev ('(p, x) <- fa_pathof s b m ;; ev <- new_event s p et pt ;; el <- fa_event_len b m ;; ret (ev, n, Z.of_N el, set_ec ec x))).
    { apply makes_bind; [apply untold_pathof|]. intros [p x]. apply (makes_then (fun e => e)); [apply makes_new|intros a; unfold fa_event_len; ut'|].
      intros a tr r. unfold bind. destruct (fa_event_len b m tr) as [o1 [z|u| |]]; cbn; try discriminate. now intros [= <-]. }
    assert (AS : forall x y, makes fa_ev (nn <- fa_peek b y l ;; la <- fa_event_len b x ;; lb <- fa_event_len b y ;;
      '(pa, xa) <- fa_pathof s b x ;; ea <- new_event s pa et pt ;; '(pb, xb) <- fa_pathof s b y ;; eb <- new_event s pb et pt ;;
      ev <- new_pair s ea eb ;; ret (ev, nn, (Z.of_N la + Z.of_N lb)%Z, set_ec (set_ec ec xa) xb))).
    { intros x y. apply makes_bind; [apply untold_fa_peek|]. intros nn. apply makes_bind; [unfold fa_event_len; ut'|]. intros la.
      apply makes_bind; [unfold fa_event_len; ut'|]. intros lb. apply makes_bind; [apply untold_pathof|]. intros [pa xa].
      apply makes_bind; [unfold new_event; ut'|]. intros ea. apply makes_bind; [apply untold_pathof|]. intros [pb xb].
      intros tr. cbn. split; [intros e [H|[H|[]]]; discriminate H|].
      eexists [_], []. split; [reflexivity|]. split; [apply quiet_nil|]. intros z [= <-]. cbn. exists [], []. split; [reflexivity|apply quiet_nil]. }
    destruct n as [nx|]; [|apply ONE]. apply makes_bind; [unfold fa_mask; ut'|]. intros mn.
    destruct (_ && flag mn FAN_MOVED_TO); [apply AS|]. destruct (_ && flag mask FAN_MOVED_TO); [apply AS|apply ONE].
  Qed.
  Lemma well_fa_loop fd buf : forall fuel mtd l c, well (fa_loop s fuel fd buf mtd l c).
  Proof.
    induction fuel as [|k IH]; intros mtd l c; [apply well_fuel|]. cbn [fa_loop]. destruct mtd as [m|]; [|apply well_ret].
    apply well_bind; [apply well_untold; unfold fan_event_ok, fa_event_len; ut'|]. intros ok. destruct (negb ok); [apply well_ret|].
    destruct (fa_c_ulim <? c)%N; [apply well_ret|]. apply well_bind; [apply well_untold; unfold fa_vers; ut'|]. intros v.
    destruct (negb _); [apply well_ret|]. apply well_bind; [apply well_untold; unfold fa_evfd; ut'|]. intros f.
    destruct (negb _); [apply well_ret|]. apply well_bind; [apply well_untold; unfold fa_mask; ut'|]. intros mask.
    destruct (flag mask FAN_Q_OVERFLOW); [apply well_ret|]. apply well_bind; [apply well_untold; unfold fa_info_type; ut'|]. intros it.
    destruct (negb _); [apply well_ret|].
    intros tr. unfold bind at 1. pose proof (makes_fa_parse buf m l 0%Z tr) as P.
    destruct (fa_parse s buf m l 0 tr) as [o1 [[[[ev nx] dl] ec]|u| |]]; cbn [fst snd] in *; try (now apply dated_silent).
    destruct P as [U D]. destruct (negb (ec =? 0)%Z); [cbn; rewrite app_nil_r; now apply dated_silent|].
    assert (HM : hushed (fa_mark_if_newdir s ev fd)).
    { unfold fa_mark_if_newdir. destruct (ev_effect ev), (ev_ptype ev); try (solve [apply hushed_untold, untold_ret]). apply hushed_fa_mark. }
    specialize (HM (tr ++ o1)). unfold bind at 1.
    destruct (fa_mark_if_newdir s ev fd (tr ++ o1)) as [o2 [dm1|u| |]]; cbn [fst snd] in *; destruct HM as [H1 H2].
    2-4: rewrite ticks_app; apply dated_app; [now apply dated_silent|exact H1].
    unfold bind at 1, callback. pose proof (IH nx (l - dl)%Z (c + 1)%N (((tr ++ o1) ++ o2) ++ [OCallback ev])) as R.
    destruct (fa_loop s k fd buf nx (l - dl) (c + 1) _) as [o3 r3]. cbn [fst snd] in *.
    rewrite !ticks_app. replace (ticks o1 ++ ticks o2 ++ ticks [OCallback ev] ++ ticks o3) with (((ticks o1 ++ ticks o2) ++ [Told ev]) ++ ticks o3) by now rewrite <- !app_assoc.
    apply dated_app; [|exact R]. apply dated_snoc; [apply dated_app; [now apply dated_silent|exact H1]|]. now apply dated_in_quiet.
  Qed.
  Lemma well_fa_recv ke : well (fa_recv s ke).
  Proof.
    unfold fa_recv. apply well_bind; [apply well_untold; ut'|]. intros r. cbv zeta. destruct (_ && _); [apply well_ret|].
    destruct (_ <? 0)%Z; [apply well_ret|]. apply well_bind; [apply well_fa_loop|]. intros res. apply well_ret.
  Qed.
  Lemma well_fa_make fuel path il : well (fa_make_sysres s fuel path il).
  Proof.
    unfold fa_make_sysres. apply well_bind; [apply well_untold; ut'|]. intros fd. cbv zeta. destruct (fd <? 1)%Z; [apply well_ret|].
    apply well_bind; [apply well_walk; intros p st; apply well_bind; [apply well_hushed, hushed_fa_mark|intros ?; apply well_ret]|].
    intros ?. apply well_bind; [apply well_untold, untold_make_ep|]. intros ep. destruct (ep <? 1)%Z; apply well_untold; ut'.
  Qed.

  (** The whole adapter. *)
  Lemma well_platform K (kfd : K -> Z) recv il fuel make : (forall ke, well (recv ke)) -> well make -> well (platform_watch s K kfd recv il fuel make).
  Proof.
    intros Hr Hm. unfold platform_watch. apply well_bind; [exact Hm|]. intros [[ok ke] ep]. apply well_bind; [|intros [ok' ke']; apply well_untold; ut'].
    revert ok ke. induction fuel as [|n IH]; intros ok ke; [apply well_fuel|]. cbn [ep_loop]. destruct (negb _); [apply well_ret|].
    apply well_bind; [apply well_untold; ut'|]. intros [fds|]; [|apply IH]. apply well_bind; [|intros [ok' ke']; apply IH].
    generalize (firstn 64 fds) as l. intros l. revert ok ke. induction l as [|fd l IHl]; intros ok ke; [apply well_ret|]. cbn [each_ready].
    destruct (fd =? il)%Z; [apply IHl|]. destruct (fd =? kfd ke)%Z; [|apply IHl]. apply well_bind; [apply Hr|]. intros [r ke']. apply IHl.
  Qed.
  Lemma well_linux fuel path il : well (linux_watch s fuel path il).
  Proof.
    unfold linux_watch. apply well_bind.
    - unfold try_fanotify. apply well_bind; [apply well_untold; ut'|]. intros u. destruct (u =? 0)%Z; [|apply well_ret].
      apply well_platform; [apply well_fa_recv|apply well_fa_make].
    - intros r. apply well_bind.
      + destruct (r_eqb _ _); [|apply well_ret]. apply well_platform; [apply well_in_recv|apply well_in_make].
      + intros r'. destruct (r_ge _ _); [|apply well_ret]. apply well_bind; [apply well_hushed, hushed_send|intros ?; apply well_ret].
  Qed.
End Shared.

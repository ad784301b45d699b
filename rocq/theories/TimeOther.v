(** Event times in the fallback, Windows and Darwin adapters. *)
From Verif Require Import Base PathModel EventModel Mon WarthogModel WindowsModel DarwinModel TimeSpec TimeFacts.
From Verif Require Sys.

Section Gen.
  Context {O : Type}.
  Variable tick_of : O -> list tick.
  Definition tks (o : list O) : list tick := flat_map tick_of o.
  Lemma tks_app a b : tks (a ++ b) = tks a ++ tks b.
  Proof. apply flat_map_app. Qed.
  Definition wel {A} (m : pm O A) : Prop := adds (fun o => dated (tks o)) m.
  Lemma wel_bind {A B} (m : pm O A) (k : A -> pm O B) : wel m -> (forall a, wel (k a)) -> wel (pbind m k).
  Proof. apply adds_bind. intros a b. rewrite tks_app. apply dated_app. Qed.
  Lemma wel_ret {A} (a : A) : wel (pret a).
  Proof. intros tr. apply dated_nil. Qed.
  Lemma wel_stop {A} (r : out A) : wel (fun _ => ([], r)).
  Proof. intros tr. apply dated_nil. Qed.
  Lemma wel_ask {A} (f : list O -> A) ob : (forall a e, ~ In (Told e) (tick_of (ob a))) -> wel (ask f ob).
  Proof. intros H tr. apply dated_silent. unfold tks. cbn. rewrite app_nil_r. apply H. Qed.
  (** A single event, and a pair. *)
  Lemma wel_one (m : pm O unit) e : (forall tr, exists t, tks (fst (m tr)) = [Read t; Told (e t)]) -> (forall t, ev_time (e t) = t) -> (forall t, ev_assoc (e t) = None) -> wel m.
  Proof.
    intros H T A tr. destruct (H tr) as (t & ->). apply (dated_snoc [Read t]); [apply dated_silent; intros x [X|[]]; discriminate X|].
    exists [], []. rewrite T. split; [reflexivity|]. split; [apply quiet_nil|]. intros x. now rewrite A.
  Qed.
End Gen.

Lemma dated_trio t1 t2 t3 e x : ev_time e = t3 -> ev_assoc e = Some x -> ev_time x = t2 -> dated [Read t1; Read t2; Read t3; Told e].
Proof.
  intros H1 H2 H3. apply (dated_snoc [Read t1; Read t2; Read t3]); [apply dated_silent; intros y [X|[X|[X|[]]]]; discriminate X|].
  exists [Read t1; Read t2], []. rewrite H1. split; [reflexivity|]. split; [apply quiet_nil|]. intros y. rewrite H2. intros [= <-].
  exists [Read t1], []. rewrite H3. split; [reflexivity|apply quiet_nil].
Qed.

(** ** Fallback *)
Definition wtick (ob : wobs) : list tick := match ob with WNow t => [Read t] | WCb e => [Told e] | _ => [] end.
Section Warthog.
  Variable s : wfs.
  Notation well := (wel wtick).
  Lemma wh_send p f t : well (w_send s p f t).
  Proof. apply (wel_one _ _ (fun n => ev_make n p f t)); try reflexivity. intros tr. eexists. reflexivity. Qed.
  Lemma wh_throw {A} (m : W (option A)) : well m -> well (or_throw m).
  Proof. intros H. apply wel_bind; [exact H|]. intros [a|]; [apply wel_ret|apply wel_stop]. Qed.
  Ltac wl := repeat first [ apply wh_send | apply wh_throw | apply wel_ret | apply wel_stop
    | apply wel_ask; intros ? ? [] | apply wel_bind; [|intros ?]
    | match goal with
      | |- wel _ (if ?b then _ else _) => destruct b
      | |- wel _ (match ?x with _ => _ end) => destruct x end ].
  Lemma wh_each body : (forall e b, well (body e b)) -> forall es b, well (weach body es b).
  Proof. intros H es. induction es as [|e es IH]; intros b; [apply wel_ret|]. cbn. apply wel_bind; [apply H|]. intros b'. apply IH. Qed.
  Lemma wh_walk dir body b : (forall e b, well (body e b)) -> well (for_walk s dir body b).
  Proof.
    intros H. unfold for_walk, w_walk. apply wel_bind; [apply wel_ask; intros a e []|]. intros [es th]. apply wel_bind; [now apply wh_each|]. intros ?. wl.
  Qed.
  Lemma wh_file f b : well (scan_file s f b).
  Proof. unfold scan_file, w_exists, w_isreg, w_time. wl. Qed.
  Lemma wh_scan p b : well (scan s p b).
  Proof.
    unfold scan. apply wel_bind.
    - unfold scan_directory, w_isdir. apply wel_bind; [wl|]. intros d. destruct d; [|wl]. apply wel_bind; [|intros ?; wl].
      apply wh_walk. intros e b'. apply wel_bind; [apply wh_file|]. intros ?. wl.
    - intros r. destruct (fst r); [wl|apply wh_file].
  Qed.
  Lemma wh_tend p b : well (tend_bucket s p b).
  Proof.
    unfold tend_bucket. destruct b as [|x b]; [|wl]. apply wel_bind.
    - unfold populate, w_exists, w_isdir, w_time_throwing, w_time. apply wel_bind; [wl|]. intros ex. destruct (negb ex); [wl|].
      apply wel_bind; [wl|]. intros d. destruct (negb d); [wl|]. apply wel_bind; [|intros ?; wl]. apply wh_walk. intros e b. wl.
    - intros r. destruct (fst r); [wl|]. unfold prune. apply wel_bind; [|intros ?; wl].
      assert (K : forall todo b, well (prune_from s p todo b)).
      { induction todo as [|[q t] todo IH]; intros b; [apply wel_ret|]. cbn [prune_from]. apply wel_bind; [unfold w_exists; wl|]. intros ex.
        destruct ex; [apply IH|]. apply wel_bind; [unfold w_isreg; wl|]. intros reg. apply wel_bind; [unfold w_isdir, w_islink; wl|]. intros pt.
        apply wel_bind; [apply wh_send|]. intros ?. apply IH. }
      apply K.
  Qed.
  Lemma wh_watch fuel path : well (warthog_watch s fuel path).
  Proof.
    unfold warthog_watch. generalize (@nil (text * Z)) as b. induction fuel as [|n IH]; intros b; [apply wel_stop|]. cbn [warthog_loop].
    apply wel_bind; [wl|]. intros p. destruct (negb p); [wl|]. apply wel_bind; [apply wh_tend|]. intros r1. destruct (negb _); [wl|].
    apply wel_bind; [apply wh_scan|]. intros r2. destruct (negb _); [wl|apply IH].
  Qed.
End Warthog.

(** ** Windows *)
Definition ntick (ob : nobs) : list tick := match ob with NNow t => [Read t] | NCb e => [Told e] | _ => [] end.
Section Windows.
  Variable s : nfs.
  Notation well := (wel ntick).
  Lemma nt_send p f t : well (n_send s p f t).
  Proof. apply (wel_one _ _ (fun n => ev_make n p f t)); try reflexivity. intros tr. eexists. reflexivity. Qed.
  Lemma nt_trigger a b : well (trigger_rename s a b).
  Proof. intros tr. cbn. eapply dated_trio; reflexivity. Qed.
  Ltac wl := repeat first [ apply nt_send | apply nt_trigger | apply wel_ret | apply wel_stop
    | apply wel_ask; intros ? ? [] | apply wel_bind; [|intros ?]
    | match goal with
      | |- wel _ (if ?b then _ else _) => destruct b
      | |- wel _ (match ?x with _ => _ end) => destruct x end ].
  Lemma nt_bytes b o l : well (bytes_at b o l).
  Proof. unfold bytes_at. cbv zeta. wl. Qed.
  Lemma nt_dword b o : well (dword_at b o).
  Proof. unfold dword_at. apply wel_bind; [apply nt_bytes|]. intros ?. wl. Qed.
  Lemma nt_recv w : well (do_event_recv s w).
  Proof. unfold do_event_recv. wl. Qed.
  Lemma nt_record r a n o w : well (win_record s r a n o w).
  Proof. unfold win_record, win_ptype. cbv zeta. wl. Qed.
  Lemma nt_loop root buf len : forall fuel off old new, well (send_loop s fuel root buf len off old new).
  Proof.
    induction fuel as [|n IH]; intros off old new; [apply wel_stop|]. cbn [send_loop]. destruct (_ <=? _)%N; [|wl].
    apply wel_bind; [apply nt_dword|]. intros nl. destruct (_ =? _)%N; [|apply IH]. apply wel_bind; [apply nt_bytes|]. intros name.
    apply wel_bind; [apply nt_dword|]. intros act. apply wel_bind; [apply nt_record|]. intros [o' n']. apply wel_bind; [apply nt_dword|]. intros next.
    destruct (next =? 0)%N; [wl|apply IH].
  Qed.
  Lemma nt_do fuel w : well (do_event_send s fuel w).
  Proof. unfold do_event_send. destruct (px_valid w); [apply nt_loop|wl]. Qed.
  Lemma nt_send_recv : forall fuel w, well (send_recv s fuel w).
  Proof.
    induction fuel as [|n IH]; intros w; [apply wel_stop|]. cbn [send_recv]. destruct (_ && _); [|wl].
    apply wel_bind; [apply nt_do|]. intros ?. apply wel_bind; [apply nt_recv|]. intros w'. apply IH.
  Qed.
  Lemma nt_win_loop : forall fuel w, well (win_loop s fuel w).
  Proof.
    induction fuel as [|n IH]; intros w; [apply wel_stop|]. cbn [win_loop]. apply wel_bind; [wl|]. intros p. destruct p; [|wl].
    apply wel_bind; [wl|]. intros a. destruct a; try apply IH. apply wel_bind; [apply nt_send_recv|]. intros w'. apply IH.
  Qed.
  Lemma nt_watch fuel path : well (win_watch s fuel path).
  Proof.
    unfold win_watch. apply wel_bind; [unfold make_proxy; wl|]. intros w. unfold win_body. destruct (px_valid w); [|wl].
    apply wel_bind; [apply nt_recv|]. intros w1. apply wel_bind; [|intros ?; apply nt_win_loop].
    assert (K : forall f, well (first_sends s f w1)).
    { induction f as [|n IH]; [apply wel_stop|]. cbn [first_sends]. destruct (_ && _); [|wl]. apply wel_bind; [apply nt_do|]. intros ?. exact IH. }
    apply K.
  Qed.
End Windows.

(** ** Darwin *)
Definition dtick (ob : dobs) : list tick := match ob with DNow t => [Read t] | DCb e => [Told e] | _ => [] end.
Section Darwin.
  Variable s : dfs.
  Notation well := (wel dtick).
  Lemma dw_send p f t : well (d_send s p f t).
  Proof. apply (wel_one _ _ (fun n => ev_make n p f t)); try reflexivity. intros tr. eexists. reflexivity. Qed.
  Lemma dw_one c p fl : well (event_recv_one s c p fl).
  Proof.
    unfold event_recv_one. cbv zeta. destruct (negb _); [apply wel_bind; [apply dw_send|intros ?; apply wel_ret]|].
    apply wel_bind; [|intros c1; apply wel_bind; [|intros c2; apply wel_bind; [|intros c3]]].
    - unfold recv_create. destruct (flag _ _); [|apply wel_ret]. destruct (is_seen _ _); [apply wel_ret|]. apply wel_bind; [apply dw_send|intros ?; apply wel_ret].
    - unfold recv_remove. destruct (flag _ _); [|apply wel_ret]. destruct (is_seen _ _); [|apply wel_ret]. apply wel_bind; [apply dw_send|intros ?; apply wel_ret].
    - unfold recv_modify. destruct (flag _ _); [|apply wel_ret]. apply wel_bind; [apply dw_send|intros ?; apply wel_ret].
    - unfold recv_rename. destruct (flag _ _); [|apply wel_ret]. cbv zeta. apply wel_bind; [apply wel_ask; intros a e []|]. intros th.
      destruct (_ && _); [|apply wel_ret]. intros tr. cbn. eapply dated_trio; reflexivity.
  Qed.
  Lemma dated_more {A} (f : A -> list tick) o l : (forall e x, In x l -> ~ In (Told e) (f x)) -> dated (flat_map f o) -> dated (flat_map f (o ++ l)).
  Proof.
    intros H D. rewrite flat_map_app. apply dated_app; [exact D|]. apply dated_silent. intros e He. apply in_flat_map in He as (x & X & Y). now apply (H e x X).
  Qed.
  Lemma dw_step w w' : dstep s w w' -> dated (tks dtick (dlog w)) -> dated (tks dtick (dlog w')).
  Proof.
    intros S D. destruct S; cbn [dlog] in *; try exact D;
      try (apply dated_more; [|exact D]; intros e x X; cbn in X; intuition; subst; cbn in *; intuition; discriminate).
    rewrite tks_app. apply dated_app; [exact D|]. cbn. pose proof (dw_one c p fl (o ++ [DRec p fl])) as W. rewrite H in W. exact W.
  Qed.
  Lemma dw_reach w w' : dreach s w w' -> dated (tks dtick (dlog w)) -> dated (tks dtick (dlog w')).
  Proof. induction 1 as [w|w w' w'' R IH S]; intros D; [exact D|]. apply (dw_step _ _ S). now apply IH. Qed.
End Darwin.

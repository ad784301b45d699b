(** Theorem C160: the fallback adapter looks at everything a listing gives it, before anything
    else (include/wtr/watcher.hpp:1995-2188). *)
From Verif Require Import Base EventModel InotifySpec Mon WarthogModel WarthogSpec PropsWarthog PropsWarthogWhole.

(** What the last listing gave and has not been asked about since: whether it exists, or when
    it was last written. *)
Definition look (l : list text) (x : wobs) : list text :=
  match x with
  | WWalk _ es _ => es
  | WExists p _ | WTime p _ => filter (fun q => negb (text_eqb q p)) l
  | _ => l
  end.
Definition left_over (o : list wobs) : list text := fold_left look o [].
(** A new listing, and the question whether to end. *)
Definition turn (x : wobs) : Prop := match x with WWalk _ _ _ | WState _ => True | _ => False end.
Definition tidy (o : list wobs) : Prop := forall a x rest, o = a ++ x :: rest -> turn x -> left_over a = [].

Lemma left_app a b : left_over (a ++ b) = fold_left look b (left_over a).
Proof. apply fold_left_app. Qed.
Lemma tidy_snoc o x : tidy o -> (turn x -> left_over o = []) -> tidy (o ++ [x]).
Proof.
  intros T H a y rest E Ty. destruct (exists_last (l := y :: rest)) as (r & z & Er); [discriminate|]. rewrite Er, app_assoc in E.
  apply app_inj_tail in E as [Eo Ez]. subst z o. destruct r as [|u r]; cbn in Er.
  - injection Er as -> _. rewrite app_nil_r in H. now apply H.
  - injection Er as <- _. exact (T a y r eq_refl Ty).
Qed.

Section S.
  Variable s : wfs.
  Variable root : text.
  Definition within (es : list text) (tr : list wobs) : Prop := tidy tr /\ forall q, In q (left_over tr) -> In q es.
  Definition keeps {A} (P : list wobs -> Prop) (m : pm wobs A) (Q : A -> list wobs -> Prop) : Prop :=
    forall tr, P tr -> tidy (tr ++ fst (m tr)) /\ forall a, snd (m tr) = Ok a -> Q a (tr ++ fst (m tr)).
  Lemma k_bind {A B} (P : list wobs -> Prop) Q R (m : pm wobs A) (k : A -> pm wobs B) : keeps P m Q -> (forall a, keeps (Q a) (k a) R) -> keeps P (pbind m k) R.
  Proof.
    intros Hm Hk tr Pt. destruct (Hm tr Pt) as [H1 H2]. unfold pbind. destruct (m tr) as [o1 [a|u| |]]; cbn [fst snd] in *; try (split; [exact H1|discriminate]).
    destruct (Hk a (tr ++ o1) (H2 a eq_refl)) as [H3 H4]. destruct (k a (tr ++ o1)) as [o2 r]. cbn [fst snd] in *. rewrite app_assoc. now split.
  Qed.
  Lemma k_ret {A} es (a : A) : keeps (within es) (pret a) (fun _ => within es).
  Proof. intros tr Pt. cbn. rewrite app_nil_r. split; [apply Pt|]. now intros b [= <-]. Qed.
  Lemma k_end {A} es (Q : A -> list wobs -> Prop) (r : out A) : (forall a, r <> Ok a) -> keeps (within es) (fun _ => ([], r)) Q.
  Proof. intros H tr Pt. cbn. rewrite app_nil_r. split; [apply Pt|]. intros a E. now contradiction (H a). Qed.
  Lemma within_quiet es tr x : within es tr -> ~ turn x -> within es (tr ++ [x]).
  Proof.
    intros [T W] H. split; [apply tidy_snoc; tauto|]. rewrite left_app. cbn. intros q Hq. apply W.
    destruct x; cbn in *; auto; try (apply filter_In in Hq; tauto); tauto.
  Qed.
  Definition about (p : text) (x : wobs) : Prop := match x with WExists q _ | WTime q _ => p = q | _ => False end.
  Lemma within_about p es tr x : within (p :: es) tr -> about p x -> within es (tr ++ [x]).
  Proof.
    intros [T W] H. split; [apply tidy_snoc; [exact T|now destruct x]|]. rewrite left_app. cbn. intros q Hq.
    destruct x; cbn in H; try contradiction; subst; cbn in Hq; apply filter_In in Hq as [Hq N]; (destruct (W q Hq) as [<-|]; [|assumption]);
      rewrite (proj2 (text_eqb_eq _ _) eq_refl) in N; discriminate N.
  Qed.
  Lemma k_ask {A} es (f : list wobs -> A) ob : (forall a, ~ turn (ob a)) -> keeps (within es) (ask f ob) (fun _ => within es).
  Proof. intros H tr K. cbn. pose proof (within_quiet es tr (ob (f tr)) K (H _)) as X. split; [apply X|]. intros a _. exact X. Qed.
  Lemma k_asked {A} p es (f : list wobs -> A) ob : (forall a, about p (ob a)) -> keeps (within (p :: es)) (ask f ob) (fun _ => within es).
  Proof. intros H tr K. cbn. pose proof (within_about p es tr (ob (f tr)) K (H _)) as X. split; [apply X|]. intros a _. exact X. Qed.
  Lemma k_throw {A} P es (m : pm wobs (option A)) : keeps P m (fun _ => within es) -> keeps P (or_throw m) (fun _ => within es).
  Proof. intros H. unfold or_throw. eapply k_bind; [exact H|]. intros [a|]; [apply k_ret|apply k_end; discriminate]. Qed.
  Lemma k_send es p f t : keeps (within es) (w_send s p f t) (fun _ => within es).
  Proof.
    unfold w_send. eapply k_bind; [apply k_ask; intros a []|]. intros n tr K. cbn. pose proof (within_quiet es tr (WCb (ev_make n p f t)) K (fun x => x)) as X.
    split; [apply X|]. intros a _. exact X.
  Qed.
  Lemma within_more p es tr : within es tr -> within (p :: es) tr.
  Proof. intros [T W]. split; [exact T|]. intros q Hq. right. now apply W. Qed.
  Lemma k_more {A} p es (m : pm wobs A) Q : keeps (within (p :: es)) m Q -> keeps (within es) m Q.
  Proof. intros H tr K. apply H. now apply within_more. Qed.
  Lemma k_file p es b : keeps (within (p :: es)) (scan_file s p b) (fun _ => within es).
  Proof.
    unfold scan_file. eapply k_bind; [apply k_throw, k_asked; intros a; exact eq_refl|]. intros ex.
    eapply k_bind with (Q := fun _ => within es); [destruct ex; [apply k_throw, k_ask; intros a []|apply k_ret]|]. intros [|]; [|apply k_ret].
    eapply k_bind; [apply k_ask; intros a []|]. intros [t|].
    - destruct (tfind p b) as [t0|]; [destruct (t0 =? t)%Z; [apply k_ret|]|]; (eapply k_bind; [apply k_send|intros []; apply k_ret]).
    - eapply k_bind; [apply k_send|]. intros []. apply k_ret.
  Qed.
  Lemma k_each body : (forall p es b, keeps (within (p :: es)) (body p b) (fun _ => within es)) -> forall es b, keeps (within es) (weach body es b) (fun _ => within []).
  Proof.
    intros H. induction es as [|e es IH]; intros b; [apply k_ret|]. cbn [weach]. eapply k_bind; [apply H|]. exact IH.
  Qed.
  Lemma k_walk body : (forall p es b, keeps (within (p :: es)) (body p b) (fun _ => within es)) -> forall b, keeps (within []) (for_walk s root body b) (fun _ => within []).
  Proof.
    intros H b. unfold for_walk. eapply k_bind with (Q := fun r => within (fst r)).
    - intros tr [T W]. cbn. assert (E : left_over tr = []) by (destruct (left_over tr) as [|q l]; [reflexivity|destruct (W q); now left]).
      assert (X : tidy (tr ++ [WWalk root (fst (wf_walk s tr scan_dir_opts root)) (snd (wf_walk s tr scan_dir_opts root))])) by (apply tidy_snoc; auto).
      split; [exact X|]. intros a [= <-]. split; [exact X|]. rewrite left_app. cbn. auto.
    - intros [es th]. cbn [fst]. eapply k_bind; [now apply k_each|]. intros b'. destruct th; [apply k_end; discriminate|apply k_ret].
  Qed.
  Lemma k_scan b : keeps (within []) (scan s root b) (fun _ => within []).
  Proof.
    unfold scan, scan_directory. eapply k_bind with (Q := fun _ => within []).
    - eapply k_bind; [apply k_throw, k_ask; intros a []|]. intros [|]; [|apply k_ret].
      eapply k_bind; [|intros b'; apply k_ret]. apply k_walk. intros p es b'. eapply k_bind; [apply k_file|]. intros r. apply k_ret.
    - intros [r b']. destruct r; [apply k_ret|]. apply (k_more root), k_file.
  Qed.
  Lemma k_populate b : keeps (within []) (populate s root b) (fun _ => within []).
  Proof.
    unfold populate. eapply k_bind; [apply k_throw, k_ask; intros a []|]. intros [|]; cbn [negb]; [|apply k_ret].
    eapply k_bind; [apply k_throw, k_ask; intros a []|]. intros [|]; cbn [negb].
    2:{ eapply k_bind; [apply k_throw, k_ask; intros a []|]. intros a. apply k_end. discriminate. }
    eapply k_bind; [|intros b'; apply k_ret]. apply k_walk. intros p es b'. eapply k_bind; [apply k_asked; intros a; exact eq_refl|].
    intros [t|]; [apply k_ret|]. eapply k_bind; [apply k_throw, k_ask; intros a []|]. intros a. apply k_ret.
  Qed.
  Lemma k_prune todo : forall b, keeps (within []) (prune_from s root todo b) (fun _ => within []).
  Proof.
    induction todo as [|[p t] todo IH]; intros b; cbn [prune_from]; [apply k_ret|].
    eapply k_bind; [apply k_throw, k_ask; intros a []|]. intros [|]; [apply IH|].
    eapply k_bind; [apply k_throw, k_ask; intros a []|]. intros r.
    eapply k_bind with (Q := fun _ => within []).
    { destruct r; [apply k_ret|]. eapply k_bind; [apply k_throw, k_ask; intros a []|]. intros [|]; [apply k_ret|].
      eapply k_bind; [apply k_throw, k_ask; intros a []|]. intros l. apply k_ret. }
    intros t'. eapply k_bind; [apply k_send|]. intros []. apply IH.
  Qed.
  Lemma k_tend b : keeps (within []) (tend_bucket s root b) (fun _ => within []).
  Proof.
    destruct b as [|x b]; cbn [tend_bucket]; [|apply k_ret]. eapply k_bind; [apply k_populate|]. intros [[|] b']; cbn [fst snd]; [apply k_ret|].
    eapply k_bind; [apply k_prune|]. intros b2. apply k_ret.
  Qed.
  Lemma k_loop fuel : forall b, keeps (within []) (warthog_loop s fuel root b) (fun _ => within []).
  Proof.
    induction fuel as [|n IH]; intros b; [apply k_end; discriminate|]. cbn [warthog_loop].
    eapply k_bind with (Q := fun _ => within []).
    { intros tr [T W]. cbn. assert (E : left_over tr = []) by (destruct (left_over tr) as [|q l]; [reflexivity|destruct (W q); now left]).
      assert (X : tidy (tr ++ [WState (wf_pending s tr)])) by (apply tidy_snoc; auto). split; [exact X|]. intros a _. split; [exact X|]. rewrite left_app. cbn. now rewrite E. }
    intros [|]; cbn [negb]; [|apply k_ret].
    eapply k_bind; [apply k_tend|]. intros [r1 b1]. cbn [fst snd]. destruct r1; cbn [negb]; [|apply k_ret].
    eapply k_bind; [apply k_scan|]. intros [r2 b2]. cbn [fst snd]. destruct r2; cbn [negb]; [apply IH|apply k_ret].
  Qed.
End S.

(** In every run on every filesystem: before the next listing, before the watcher asks whether
    it should end, and when it has ended, nothing is left that was not looked at. *)
Theorem C160_fallback_looks_at_everything : forall s fuel root,
  (forall a x rest, fst (warthog_watch s fuel root []) = a ++ x :: rest -> turn x -> left_over a = []) /\
  (forall r, snd (warthog_watch s fuel root []) = Ok r -> left_over (fst (warthog_watch s fuel root [])) = []).
Proof.
  intros s fuel root. destruct (k_loop s root fuel [] []) as [T R].
  - split; [|intros q []]. intros [|] x r E; discriminate E.
  - split; [exact T|]. intros r E. destruct (R r E) as [_ W]. cbn [app] in W. unfold warthog_watch in *.
    destruct (left_over _) as [|q l]; [reflexivity|destruct (W q); now left].
Qed.
Print Assumptions C160_fallback_looks_at_everything.

(** In the run of C104's example: a listing, what is left after it, and after the first file
    has been looked at. *)
Example C160_example : exists a m rest, let es := [lit "/w/a"; lit "/w/d"; lit "/w/n"] in
  fst (warthog_watch (hist (lit "/w") 5 c104_h) 9 (lit "/w") []) = a ++ (WWalk (lit "/w") es false :: m) ++ WExists (lit "/w/d") (Some true) :: rest /\
  left_over (a ++ [WWalk (lit "/w") es false]) = es /\ left_over (a ++ WWalk (lit "/w") es false :: m) = [lit "/w/d"; lit "/w/n"].
Proof.
  set (o := fst (warthog_watch (hist (lit "/w") 5 c104_h) 9 (lit "/w") [])). exists (firstn 25 o), (firstn 5 (skipn 26 o)), (skipn 32 o). vm_compute. auto.
Qed.

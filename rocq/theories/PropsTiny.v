(** Theorems C71: the lines of the small example program. *)
From Verif Require Import Base EventModel EventSpec TinyModel.

(** What a line is to tell: the effect, the kind of path, the path, and the
    associated path if there is one. *)
Definition tells (e : event) : effect_type * path_type * text * option text :=
  (ev_effect e, ev_ptype e, ev_path e, option_map ev_path (ev_assoc e)).
(** No newline in either path, no " ->" in the first. *)
Definition clear_paths (e : event) : Prop :=
  ~ In 10%N (ev_path e) /\ (forall a, ev_assoc e = Some a -> ~ In 10%N (ev_path a)) /\
  ~ exists x y, ev_path e = x ++ lit " ->" ++ y.

(** A reader: at the first newline, the first two spaces, the first " -> ". *)
Fixpoint cut (sep : text) (t : text) : text * option text :=
  match strip sep t with
  | Some r => ([], Some r)
  | None => match t with [] => ([], None) | c :: t' => let (a, b) := cut sep t' in (c :: a, b) end
  end.
Definition arrow : text := lit " -> ".
Definition effects : list effect_type := [EtRename; EtModify; EtCreate; EtDestroy; EtOwner; EtOther].
Definition ptypes : list path_type := [PtDir; PtFile; PtHardLink; PtSymLink; PtWatcher; PtOther].
Definition read_line (l : text) : option (effect_type * path_type * text * option text) :=
  match cut (lit " ") l with
  | (f, Some l1) =>
      match cut (lit " ") l1 with
      | (t, Some l2) =>
          match find (fun x => text_eqb (effect_name x) f) effects, find (fun x => text_eqb (ptype_name x) t) ptypes with
          | Some f', Some t' => let (p, q) := cut arrow l2 in Some (f', t', p, q)
          | _, _ => None
          end
      | _ => None
      end
  | _ => None
  end.
Fixpoint read_output (fuel : nat) (t : text) : list (option (effect_type * path_type * text * option text)) :=
  match fuel with
  | O => []
  | S n => match cut [10%N] t with (l, Some r) => read_line l :: read_output n r | (_, None) => [] end
  end.

Lemma cut_char c a b : ~ In c a -> cut [c] (a ++ c :: b) = (a, Some b).
Proof.
  induction a as [|x a IH]; intros H; cbn.
  - now rewrite N.eqb_refl.
  - replace (c =? x)%N with false; [rewrite IH; [reflexivity|intros Hc; apply H; now right]|].
    symmetry. apply N.eqb_neq. intros ->. apply H. now left.
Qed.
Lemma cut_arrow a b : ~ (exists u v, a = u ++ lit " ->" ++ v) -> cut arrow (a ++ arrow ++ b) = (a, Some b).
Proof.
  induction a as [|x a IH]; intros H; [destruct b; reflexivity|].
  assert (E : cut arrow (a ++ arrow ++ b) = (a, Some b)) by (apply IH; intros (u & v & ->); apply H; now exists (x :: u), v).
  cbn [app cut]. replace (strip arrow (x :: a ++ arrow ++ b)) with (@None text); [now rewrite E|]. clear E IH.
  cbn. destruct (N.eqb_spec 32 x) as [<-|]; [|destruct x; [reflexivity|]; repeat (destruct p; try reflexivity); now destruct n].
  destruct a as [|y a]; [reflexivity|]. cbn. destruct (N.eqb_spec 45 y) as [<-|].
  2:{ destruct y; [reflexivity|]. repeat (destruct p; try reflexivity); now destruct n. }
  destruct a as [|z a]; [reflexivity|]. cbn. destruct (N.eqb_spec 62 z) as [<-|].
  2:{ destruct z; [reflexivity|]. repeat (destruct p; try reflexivity); now destruct n. }
  exfalso. apply H. now exists [], a.
Qed.
Lemma cut_no_arrow a : ~ (exists u v, a = u ++ lit " ->" ++ v) -> cut arrow a = (a, None).
Proof.
  induction a as [|x a IH]; intros H; [reflexivity|].
  assert (E : cut arrow a = (a, None)) by (apply IH; intros (u & v & ->); apply H; now exists (x :: u), v).
  cbn [cut]. destruct (strip arrow (x :: a)) as [r|] eqn:S; [|now rewrite E]. exfalso. apply H. exists [], (32%N :: r).
  unfold arrow in S. cbn in S. clear -S.
  assert (G : forall c l m, (match l with [] => None | b :: t' => if (c =? b)%N then m t' else None end : option text) = Some r -> exists t', l = c :: t' /\ m t' = Some r).
  { intros c [|b t'] m Hm; [discriminate|]. destruct (N.eqb_spec c b) as [<-|]; [eauto|discriminate]. }
  revert S. change (match x :: a with [] => None | b :: t' => if (32 =? b)%N then strip (lit "-> ") t' else None end = Some r -> x :: a = [] ++ lit " ->" ++ 32%N :: r).
  intros S. apply G in S as (t1 & E1 & S). apply (G 45%N _ (strip (lit "> "))) in S as (t2 & -> & S).
  apply (G 62%N _ (strip (lit " "))) in S as (t3 & -> & S). apply (G 32%N _ (strip [])) in S as (t4 & -> & S). injection S as ->. rewrite E1. reflexivity.
Qed.
Lemma find_effect f : find (fun x => text_eqb (effect_name x) (effect_name f)) effects = Some f.
Proof. now destruct f. Qed.
Lemma find_ptype t : find (fun x => text_eqb (ptype_name x) (ptype_name t)) ptypes = Some t.
Proof. now destruct t. Qed.
Definition body (e : event) : text := effect_name (ev_effect e) ++ lit " " ++ ptype_name (ev_ptype e) ++ lit " " ++ ev_path e
  ++ (match ev_assoc e with Some a => arrow ++ ev_path a | None => [] end).
Lemma line_body e : tiny_line e = body e ++ [10%N].
Proof. unfold tiny_line, body, arrow. now rewrite <- !app_assoc. Qed.
Lemma read_body e : clear_paths e -> read_line (body e) = Some (tells e).
Proof.
  intros (_ & _ & H). unfold read_line, body. change (lit " ") with [32%N].
  change (effect_name (ev_effect e) ++ [32%N] ++ ?r) with (effect_name (ev_effect e) ++ 32%N :: r).
  rewrite cut_char by (destruct (ev_effect e); cbn; intuition discriminate).
  change (ptype_name (ev_ptype e) ++ [32%N] ++ ?r) with (ptype_name (ev_ptype e) ++ 32%N :: r).
  rewrite cut_char by (destruct (ev_ptype e); cbn; intuition discriminate).
  rewrite find_effect, find_ptype. unfold tells. destruct (ev_assoc e) as [a|].
  - now rewrite cut_arrow.
  - rewrite app_nil_r. now rewrite cut_no_arrow.
Qed.
Lemma body_line e : clear_paths e -> ~ In 10%N (body e).
Proof.
  intros (H1 & H2 & _). unfold body. rewrite !in_app_iff. intros [H|[H|[H|[H|[H|H]]]]].
  - destruct (ev_effect e); cbn in H; intuition discriminate.
  - cbn in H; intuition discriminate.
  - destruct (ev_ptype e); cbn in H; intuition discriminate.
  - cbn in H; intuition discriminate.
  - auto.
  - destruct (ev_assoc e) as [a|]; [|destruct H]. apply in_app_iff in H as [H|H]; [cbn in H; intuition discriminate|]. exact (H2 a eq_refl H).
Qed.

(** For such paths, what the program shows can be read: there is a reader that
    finds, for every sequence of events, what each tells, in order. *)
Theorem C71_lines_can_be_read_partial :
  exists reader, forall es, Forall clear_paths es -> reader (tiny_output es) = map (fun e => Some (tells e)) es.
Proof.
  exists (fun t => read_output (length t) t). intros es H.
  assert (G : forall n, (length es <= n)%nat -> read_output n (tiny_output es) = map (fun e => Some (tells e)) es).
  { induction H as [|e es He _ IH]; intros n Hn; [now destruct n|]. destruct n as [|n]; [cbn in Hn; lia|].
    cbn [tiny_output flat_map read_output]. rewrite line_body, <- app_assoc. cbn [app]. rewrite cut_char by now apply body_line.
    rewrite read_body by exact He. cbn [map]. f_equal. apply IH. cbn in Hn. lia. }
  apply G. clear. unfold tiny_output. induction es as [|e es IH]; [apply le_n|]. cbn [flat_map]. rewrite line_body, !app_length. cbn [length]. lia.
Qed.
Print Assumptions C71_lines_can_be_read_partial.
Example C71_example : clear_paths (Ev (lit "/w/a b") EtRename PtFile 7 (Some (Ev (lit "/w/c -> d") EtRename PtFile 7 None))) /\
  tiny_output [Ev (lit "/w/a b") EtRename PtFile 7 (Some (Ev (lit "/w/c -> d") EtRename PtFile 7 None))] = lit "rename file /w/a b -> /w/c -> d" ++ [10%N].
Proof.
  split; [|reflexivity]. split; [cbn; intuition discriminate|]. split; [intros a [= <-]; cbn; intuition discriminate|].
  intros (x & y & E). cbn in E. repeat (destruct x as [|? x]; [discriminate|injection E as _ E]). destruct x; discriminate.
Qed.

(** Otherwise it cannot: a path with a newline, or with " -> ", makes the output of
    other events. *)
Theorem C71_other_paths_refuted :
  (exists es es', map tells es <> map tells es' /\ tiny_output es = tiny_output es' /\ length es <> length es') /\
  (exists e e', tells e <> tells e' /\ ~ In 10%N (ev_path e) /\ ~ In 10%N (ev_path e') /\ ev_assoc e = None /\ tiny_output [e] = tiny_output [e']) /\
  ~ exists reader, forall es, reader (tiny_output es) = map (fun e => Some (tells e)) es.
Proof.
  assert (H : exists es es', map tells es <> map tells es' /\ tiny_output es = tiny_output es' /\ length es <> length es').
  { exists [Ev (lit "a" ++ [10%N] ++ lit "create file b") EtCreate PtFile 7 None],
      [Ev (lit "a") EtCreate PtFile 7 None; Ev (lit "b") EtCreate PtFile 7 None]. split; [discriminate|]. split; [reflexivity|discriminate]. }
  split; [exact H|]. split.
  - exists (Ev (lit "a -> b") EtRename PtFile 7 None), (Ev (lit "a") EtRename PtFile 7 (Some (Ev (lit "b") EtRename PtFile 7 None))).
    split; [discriminate|]. split; [cbn; intuition discriminate|]. split; [cbn; intuition discriminate|]. split; reflexivity.
  - intros (reader & Hr). destruct H as (es & es' & Hne & E & Hl). apply Hl.
    rewrite <- (map_length (fun e => Some (tells e)) es), <- (map_length (fun e => Some (tells e)) es'), <- !Hr. now rewrite E.
Qed.
Print Assumptions C71_other_paths_refuted.

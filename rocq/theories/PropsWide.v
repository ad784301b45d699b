(** Theorems C68: an event as narrow and as wide text. *)
From Verif Require Import Base EventModel EventSpec EventFacts Utf8Spec BindModel BindFacts WideModel.

Lemma ascii_utf8 t : Forall (fun c => (c < 0x80)%N) t -> utf8 t = t /\ Forall scalar t.
Proof.
  induction 1 as [|c t Hc _ [IH IH']]; [split; [reflexivity|constructor]|]. unfold utf8 in *. cbn [flat_map]. unfold utf8_char at 1.
  replace (c <? 0x80)%N with true by lia. cbn [app]. split; [now rewrite IH|]. constructor; [left; lia|exact IH'].
Qed.
Lemma ascii_lit x : forallb (fun c => c <? 0x80)%N x = true -> Forall (fun c => (c < 0x80)%N) x.
Proof. rewrite forallb_forall, Forall_forall. intros H c Hc. apply H in Hc. lia. Qed.
Lemma ascii_num z : Forall (fun c => (c < 0x80)%N) (num_to_str z).
Proof.
  assert (Hd : forall n, Forall (fun c => (c < 0x80)%N) (chars_of_N n)).
  { intros n. unfold chars_of_N. destruct (digits_rev_spec (S (N.size_nat n)) n ltac:(lia)) as (_ & H & _).
    apply Forall_rev, Forall_forall. rewrite forallb_forall in H. intros c Hc. apply H in Hc. unfold is_digit in Hc. lia. }
  unfold num_to_str. destruct (Nat.ltb _ _); [constructor|]. apply Forall_app. split.
  - unfold chars_of_Z. destruct (z <? 0)%Z; [|apply Hd]. try (apply Forall_app; split; [now apply ascii_lit|apply Hd]); try (constructor; [lia|apply Hd]).
  - apply Forall_forall. intros c Hc. apply repeat_spec in Hc. lia.
Qed.
Lemma utf8_app a b : utf8 (a ++ b) = utf8 a ++ utf8 b.
Proof. apply flat_map_app. Qed.

(** Text [t] in wide characters stands for the bytes [u]. *)
Definition says (t u : text) : Prop := is_utf8 u t.
Lemma says_app a b c d : says a c -> says b d -> says (a ++ b) (c ++ d).
Proof. intros [H1 ->] [H2 ->]. split; [now apply Forall_app|]. now rewrite utf8_app. Qed.
Lemma says_ascii t : Forall (fun c => (c < 0x80)%N) t -> says t t.
Proof. intros H. apply ascii_utf8 in H as [E F]. split; [exact F|now rewrite E]. Qed.
Lemma says_quoted a b : says a b -> says (quoted a) (quoted b).
Proof. intros H. unfold quoted. repeat apply says_app; auto; apply says_ascii, ascii_lit; reflexivity. Qed.
Lemma says_path bs cs : is_utf8 bs cs -> widen bs = Some cs /\ says cs bs.
Proof. intros [F ->]. split; [now apply decode_utf8|split; auto]. Qed.
Lemma says_effect f : says (quoted (effect_name f)) (quoted (effect_name f)).
Proof. apply says_quoted, says_ascii, ascii_lit. now destruct f. Qed.
Lemma says_ptype t : says (quoted (ptype_name t)) (quoted (ptype_name t)).
Proof. apply says_quoted, says_ascii, ascii_lit. now destruct t. Qed.
Lemma says_num z : says (quoted (num_to_str z)) (quoted (num_to_str z)).
Proof. apply says_quoted, says_ascii, ascii_num. Qed.

(** In the native encoding nothing is converted: json_by is the text of C15. *)
Theorem C68_narrow_text : forall e, json_by Some e = Ok (event_json e).
Proof. intros [p f t tm [a|]]; reflexivity. Qed.
Print Assumptions C68_narrow_text.

(** If the paths are UTF-8, the wide text is the narrow text: its characters are
    the ones the narrow text encodes in UTF-8; and the same on streams. *)
Theorem C68_wide_agrees_with_narrow_partial :
  forall e, (exists cs, is_utf8 (ev_path e) cs) -> (forall a, ev_assoc e = Some a -> exists cs, is_utf8 (ev_path a) cs) ->
    exists w, json_by widen e = Ok w /\ is_utf8 (event_json e) w /\
      forall into wide_into, is_utf8 into wide_into ->
        exists w', stream_by widen wide_into e = Ok w' /\ is_utf8 (into ++ event_json e) w'.
Proof.
  intros e (cs & Hcs) Ha.
  assert (H : exists w, json_by widen e = Ok w /\ says w (event_json e)).
  { destruct (says_path _ _ Hcs) as [Ew Sw]. unfold json_by, path_by, event_json. rewrite Ew. destruct (ev_assoc e) as [a|].
    - destruct (Ha a eq_refl) as (ds & Hds). destruct (says_path _ _ Hds) as [Ew' Sw']. rewrite Ew'. eexists. split; [reflexivity|].
      repeat first [apply says_effect|apply says_ptype|apply says_num|apply says_quoted; assumption|apply says_app]; apply says_ascii, ascii_lit; reflexivity.
    - eexists. split; [reflexivity|].
      repeat first [apply says_effect|apply says_ptype|apply says_num|apply says_quoted; assumption|apply says_app]; apply says_ascii, ascii_lit; reflexivity. }
  destruct H as (w & E & S). exists w. split; [exact E|]. split; [exact S|]. intros into wi Hi. unfold stream_by. rewrite E.
  eexists. split; [reflexivity|]. exact (says_app wi w into (event_json e) Hi S).
Qed.
Print Assumptions C68_wide_agrees_with_narrow_partial.
Example C68_example : json_by widen (Ev (lit "/w/" ++ [0xC3; 0xA9]%N) EtCreate PtFile 1700000000000000000 None) =
  Ok (lit """1700000000000000000"":{""effect_type"":""create"",""path_name"":""/w/" ++ [0xE9]%N ++ lit """,""path_type"":""file""}").
Proof. vm_compute. reflexivity. Qed.

(** A path that is not UTF-8, as file names on Linux may be, ends the program when
    its event is made wide text or written to a wide stream; the narrow text of the
    same event is fine. *)
Theorem C68_other_paths_end_the_program_refuted :
  (forall e into, (~ exists cs, is_utf8 (ev_path e) cs) \/ (exists a, ev_assoc e = Some a /\ ~ exists cs, is_utf8 (ev_path a) cs) ->
     json_by widen e = Crash /\ stream_by widen into e = Crash) /\
  (let e := Ev [0x2F; 0xFF]%N EtCreate PtFile 1700000000000000000 None in ~ exists cs, is_utf8 (ev_path e) cs) /\
  (forall narrow e into, narrow (ev_path e) = None -> json_by narrow e = Crash /\ stream_by narrow into e = Crash).
Proof.
  split; [|split].
  - intros e into H. assert (E : json_by widen e = Crash).
    { unfold json_by, path_by. destruct (widen (ev_path e)) as [p|] eqn:Ep; [|reflexivity]. destruct H as [H|(a & -> & H)].
      - apply decode_none in H. unfold widen in Ep. congruence.
      - apply decode_none in H. unfold widen. now rewrite H. }
    split; [exact E|]. unfold stream_by. now rewrite E.
  - cbv zeta. apply decode_none. vm_compute. reflexivity.
  - intros narrow e into H. assert (E : json_by narrow e = Crash) by (unfold json_by, path_by; now rewrite H).
    split; [exact E|]. unfold stream_by. now rewrite E.
Qed.
Print Assumptions C68_other_paths_end_the_program_refuted.

(** Lemmas for C120: what follows about an event from its text being read back. *)
From Verif Require Import Base EventModel EventSpec EventFacts JsonSpec BindModel BindSpec BindFacts.

(** The first quote of a text either ends the string that is read, or was escaped
    and is then among the first characters read. *)
Lemma first_quote n : forall u, (length u <= n)%nat -> ~ In 34%N u -> forall rest s r, read_string (u ++ 34%N :: rest) = Some (s, r) ->
  (r = rest /\ (length s <= length u)%nat /\ (length s = length u -> s = u /\ plain u = true)) \/
  (exists j, (j < length u)%nat /\ nth_error s j = Some 34%N).
Proof.
  induction n as [|n IH]; intros u Hn Hq rest s r H.
  { destruct u; [|cbn in Hn; lia]. cbn in H. injection H as <- <-. left. repeat split; cbn; lia. }
  destruct u as [|c u]. { cbn in H. injection H as <- <-. left. repeat split; cbn; lia. }
  cbn [app read_string] in H. assert (Hc : c <> 34%N) by (intros ->; apply Hq; now left).
  assert (Hq' : ~ In 34%N u) by (intros K; apply Hq; now right). cbn [length] in Hn.
  apply N.eqb_neq in Hc. rewrite Hc in H. apply N.eqb_neq in Hc.
  destruct (N.eqb_spec c 92) as [-> |Hb].
  - destruct u as [|e u].
    + cbn [app] in H. cbn [escape] in H. destruct (read_string rest) as [[s' r']|]; [|discriminate]. injection H as <- <-.
      right. exists 0%nat. cbn. split; [lia|reflexivity].
    + cbn [app] in H. cbn [length] in *.
      assert (Simple : forall x s', s = x :: s' -> read_string (u ++ 34%N :: rest) = Some (s', r) ->
        (r = rest /\ (length s <= S (S (length u)))%nat /\ (length s = S (S (length u)) -> s = 92%N :: e :: u /\ plain (92%N :: e :: u) = true)) \/
        (exists j, (j < S (S (length u)))%nat /\ nth_error s j = Some 34%N)).
      { intros x s' -> K. destruct (IH u ltac:(lia) ltac:(intros L; apply Hq'; now right) rest s' r K) as [(-> & L & _)|(j & Hj & E)].
        - left. cbn [length]. split; [reflexivity|]. split; [lia|intros; lia].
        - right. exists (S j). split; [lia|exact E]. }
      destruct (N.eqb_spec e 117) as [-> |He].
      * (* an escape by number: all four places lie before the quote *)
        assert (Hex : forall x, hex x <> None -> x <> 34%N) by (intros x K ->; now apply K).
        destruct u as [|a [|b [|c' [|d u]]]]; cbn [app] in H.
        { destruct rest as [|b [|c' [|d rest]]]; discriminate H. }
        { destruct rest as [|c' [|d rest]]; [discriminate H|discriminate H|]. destruct (hex a); discriminate H. }
        { destruct rest as [|d rest]; [discriminate H|]. destruct (hex a); [|discriminate H]. destruct (hex b); discriminate H. }
        { destruct (hex a); [|discriminate H]. destruct (hex b); [|discriminate H]. destruct (hex c'); discriminate H. }
        destruct (hex a); [|discriminate H]. destruct (hex b); [|discriminate H]. destruct (hex c'); [|discriminate H]. destruct (hex d); [|discriminate H].
        destruct (read_string (u ++ 34%N :: rest)) as [[s' r']|] eqn:E; [|discriminate H]. injection H as <- <-.
        cbn [length] in *. destruct (IH u ltac:(lia) ltac:(intros L; apply Hq'; cbn; tauto) rest s' r' E) as [(-> & L & _)|(j & Hj & E')].
        -- left. split; [reflexivity|]. split; [lia|intros; lia].
        -- right. exists (S j). split; [lia|exact E'].
      * assert (H' : match escape e, read_string (u ++ 34%N :: rest) with Some x, Some (s, rest) => Some (x :: s, rest) | _, _ => None end = Some (s, r)).
        { clear -H He. destruct e as [|p]; [exact H|]. repeat (destruct p; try exact H). now contradiction He. }
        destruct (escape e) as [x|]; [|discriminate H']. destruct (read_string (u ++ 34%N :: rest)) as [[s' r']|] eqn:E; [|discriminate H'].
        injection H' as <- <-. exact (Simple x s' eq_refl eq_refl).
  - destruct (N.ltb_spec c 32); [discriminate H|]. destruct (read_string (u ++ 34%N :: rest)) as [[s' r']|] eqn:E; [|discriminate H].
    injection H as <- <-. destruct (IH u ltac:(lia) Hq' rest s' r' E) as [(-> & L & K)|(j & Hj & E')].
    + left. cbn [length]. split; [reflexivity|]. split; [lia|]. intros L'. destruct K as [-> P]; [lia|]. split; [reflexivity|].
      unfold plain in *. cbn [forallb]. rewrite P. apply N.eqb_neq in Hb, Hc. rewrite Hb, Hc. destruct (N.leb_spec 32 c); [reflexivity|lia].
    + right. exists (S j). cbn [length]. split; [lia|exact E'].
Qed.
Lemma at_first_quote (p : text) : (~ In 34%N p) \/ exists u v, p = u ++ 34%N :: v /\ ~ In 34%N u.
Proof.
  induction p as [|c p [IH|(u & v & -> & IH)]]; [left; intros []| |].
  - destruct (N.eq_dec c 34) as [-> |]; [right; exists [], p; split; [reflexivity|intros []]|left; intros [K|K]; [congruence|exact (IH K)]].
  - destruct (N.eq_dec c 34) as [-> |]; [right; exists [], (u ++ 34%N :: v); split; [reflexivity|intros []]|].
    right. exists (c :: u), v. split; [reflexivity|]. intros [K|K]; [congruence|exact (IH K)].
Qed.
(** A string put between quotes as it is and read back as it was is plain. *)
Lemma read_back s rest r : read_string (s ++ 34%N :: rest) = Some (s, r) -> plain s = true /\ r = rest.
Proof.
  intros H. destruct (at_first_quote s) as [Q|(u & v & -> & Q)].
  - destruct (first_quote _ s (le_n _) Q rest s r H) as [(-> & _ & K)|(j & _ & K)]; [split; [now apply K|reflexivity]|].
    apply nth_error_In in K. contradiction.
  - rewrite <- app_assoc in H. cbn [app] in H. destruct (first_quote _ u (le_n _) Q _ _ _ H) as [(_ & L & _)|(j & Hj & K)].
    + rewrite app_length in L. cbn in L. lia.
    + rewrite nth_error_app1 in K by exact Hj. apply nth_error_In in K. contradiction.
Qed.

(** Values *)
Lemma str_back f s rest v r : read_value f (quoted s ++ rest) = Some (v, r) -> v = JStr s -> plain s = true /\ r = rest.
Proof.
  destruct f as [|f]; [discriminate|]. rewrite quoted_eq. cbn [read_value skip_ws is_ws N.eqb Pos.eqb orb]. intros H ->.
  apply bind_some in H as ([s' r'] & E & H). injection H as -> ->. exact (read_back _ _ _ E).
Qed.
Lemma str_plain_back f s rest v r : plain s = true -> read_value f (quoted s ++ rest) = Some (v, r) -> r = rest.
Proof.
  destruct f as [|f]; [discriminate|]. intros P. rewrite quoted_eq. cbn [read_value skip_ws is_ws N.eqb Pos.eqb orb]. rewrite read_string_plain by exact P.
  cbn. now intros [= _ ->].
Qed.
Lemma null_back f rest v r : read_value f (lit "null" ++ rest) = Some (v, r) -> r = rest.
Proof. destruct f as [|f]; [discriminate|]. cbn. now intros [= _ ->]. Qed.
(** The first member, and what comes after it. *)
Lemma member_back f k t ms r : read_members f (quoted k ++ lit ":" ++ t) = Some (ms, r) -> plain k = true ->
  exists g v r3, f = S g /\ read_value g t = Some (v, r3) /\
    ((exists r4 ms', eat 44 r3 = Some r4 /\ read_members g r4 = Some (ms', r) /\ ms = (k, v) :: ms') \/
     (eat 44 r3 = None /\ eat 125 r3 = Some r /\ ms = [(k, v)])).
Proof.
  destruct f as [|g]; [discriminate|]. intros H P. exists g. cbn [read_members] in H.
  rewrite quoted_eq in H. unfold eat at 1 in H. cbn [skip_ws is_ws N.eqb Pos.eqb orb opt_bind] in H. rewrite read_string_plain in H by exact P.
  cbn [opt_bind] in H. change (lit ":" ++ t) with (58%N :: t) in H. unfold eat at 1 in H. cbn [skip_ws is_ws N.eqb Pos.eqb orb opt_bind] in H.
  apply bind_some in H as ([v r3] & E & H). exists v, r3. split; [reflexivity|]. split; [exact E|]. destruct (eat 44 r3) as [r4|].
  - apply bind_some in H as ([ms' r5] & E' & H). injection H as <- <-. left. eauto 6.
  - apply bind_some in H as (r4 & E' & H). injection H as <- <-. right. auto.
Qed.
(** A member with more after it. *)
Lemma more_back f k t ms r x ms' : read_members f (quoted k ++ lit ":" ++ t) = Some (ms, r) -> plain k = true -> ms = x :: ms' -> ms' <> [] ->
  exists g v r3 r4, read_value g t = Some (v, r3) /\ eat 44 r3 = Some r4 /\ read_members g r4 = Some (ms', r) /\ x = (k, v).
Proof.
  intros H P -> N. destruct (member_back _ _ _ _ _ H P) as (g & v & r3 & -> & E & [(r4 & m & E4 & Em & K)|(_ & _ & K)]).
  - injection K as -> ->. exists g, v, r3, r4. auto.
  - injection K as _ ->. now contradiction N.
Qed.
Lemma one_back f k t r x : read_members f (quoted k ++ lit ":" ++ t) = Some ([x], r) -> plain k = true ->
  exists g v r3, read_value g t = Some (v, r3) /\ eat 44 r3 = None /\ eat 125 r3 = Some r /\ x = (k, v).
Proof.
  intros H P. destruct (member_back _ _ _ _ _ H P) as (g & v & r3 & -> & E & [(r4 & m & E4 & Em & K)|(E4 & E5 & K)]).
  - injection K as -> <-. destruct g; [discriminate Em|]. exfalso. clear -Em. cbn [read_members] in Em.
    apply bind_some in Em as (a & _ & Em). apply bind_some in Em as ([b c] & _ & Em). apply bind_some in Em as (d & _ & Em). apply bind_some in Em as ([v' r'] & _ & Em).
    destruct (eat 44 r'); apply bind_some in Em as (y & _ & Em); [destruct y|]; discriminate Em.
  - injection K as ->. exists g, v, r3. auto.
Qed.
(** An object whose first key is known. *)
Lemma obj_back f k rest v r ms : read_value f (lit "{" ++ quoted k ++ rest) = Some (v, r) -> v = JObj ms -> exists g, read_members g (quoted k ++ rest) = Some (ms, r).
Proof.
  destruct f as [|f]; [discriminate|]. intros H ->. change (lit "{" ++ quoted k ++ rest) with (123%N :: quoted k ++ rest) in H.
  cbn [read_value skip_ws is_ws N.eqb Pos.eqb orb] in H. assert (E : eat 125 (quoted k ++ rest) = None) by (rewrite quoted_eq; reflexivity).
  rewrite E in H. apply bind_some in H as ([ms' r'] & E' & H). injection H as -> ->. eauto.
Qed.
(** Times *)
Lemma num_is_chars z : in64 z -> (- 10 ^ 18 < z <= - 10 ^ 17 \/ 10 ^ 18 <= z)%Z -> num_to_str z = chars_of_Z z.
Proof.
  intros H T. pose proof (proj2 (chars_of_Z_len19 z H) T) as L. unfold num_to_str. rewrite L. cbn. apply app_nil_r.
Qed.
Lemma num_cases z : in64 z -> (is_decimal (num_to_str z) z /\ num_to_str z = chars_of_Z z) \/ num_to_str z = [] \/
  exists k, num_to_str z = chars_of_Z z ++ 0%N :: repeat 0%N k.
Proof.
  intros H. unfold num_to_str. destruct (Nat.ltb num_buflen (length (chars_of_Z z))); [now right; left|].
  destruct (num_buflen - length (chars_of_Z z))%nat as [|k]; [left; cbn; rewrite app_nil_r; split; [apply chars_of_Z_decimal|reflexivity]|right; right; now exists k].
Qed.
Lemma nul_not_read s k rest : In 0%N s -> ~ In 34%N s -> ~ In 92%N s -> read_string (s ++ k :: rest) = None.
Proof.
  induction s as [|c s IH]; intros H Q B; [destruct H|]. cbn [app read_string].
  assert (c <> 34)%N by (intros ->; apply Q; now left). assert (c <> 92)%N by (intros ->; apply B; now left).
  destruct (N.eqb_spec c 34); [contradiction|]. destruct (N.eqb_spec c 92); [contradiction|]. destruct (N.ltb_spec c 32); [reflexivity|].
  rewrite IH; [reflexivity| | |]; [destruct H as [-> |H]; [lia|exact H]|intros K; apply Q; now right|intros K; apply B; now right].
Qed.

Lemma chars_range z c : In c (chars_of_Z z) -> (45 <= c <= 57)%N.
Proof. apply (is_decimal_chars _ z), chars_of_Z_decimal. Qed.
Lemma chars_plain z : plain (chars_of_Z z) = true.
Proof.
  unfold plain. apply forallb_forall. intros c H. apply chars_range in H. destruct (N.leb_spec 32 c); [|lia].
  destruct (N.eqb_spec c 34); [lia|]. destruct (N.eqb_spec c 92); [lia|]. reflexivity.
Qed.
Lemma key_back f z t key v r : in64 z -> read_members f (quoted (num_to_str z) ++ lit ":" ++ t) = Some ([(key, v)], r) -> is_decimal key z ->
  is_decimal (num_to_str z) z.
Proof.
  intros H6 H D. destruct (num_cases z H6) as [[K _]|[K|(k & K)]]; [exact K| |]; exfalso.
  - rewrite K in H. destruct (one_back _ _ _ _ _ H eq_refl) as (g & v' & r3 & _ & _ & _ & E). injection E as -> _.
    destruct D as [[_ (X & _)]|(_ & t' & X & _)]; [now apply X|discriminate X].
  - destruct f as [|f]; [discriminate H|]. cbn [read_members] in H. rewrite quoted_eq in H. unfold eat at 1 in H. cbn [skip_ws is_ws N.eqb Pos.eqb orb opt_bind] in H.
    rewrite K, nul_not_read in H; [discriminate H| | |].
    + apply in_or_app. right. now left.
    + intros X. apply in_app_or in X as [X|[X|X]]; [apply chars_range in X; lia|discriminate X|apply repeat_spec in X; discriminate X].
    + intros X. apply in_app_or in X as [X|[X|X]]; [apply chars_range in X; lia|discriminate X|apply repeat_spec in X; discriminate X].
Qed.
Lemma num_back f z rest v r : in64 z -> read_value f (num_to_str z ++ 44%N :: rest) = Some (v, r) -> eat 44 r <> None \/ eat 125 r <> None ->
  is_decimal (num_to_str z) z /\ r = 44%N :: rest.
Proof.
  intros H6 H E. destruct (num_cases z H6) as [[D K]|[K|(k & K)]]; rewrite K in H.
  - split; [exact D|]. destruct f as [|f]; [discriminate H|]. rewrite (value_int f z) in H by reflexivity. now injection H.
  - destruct f as [|f]; discriminate H.
  - destruct f as [|f]; [discriminate H|]. exfalso. rewrite <- app_assoc in H. cbn [app] in H. rewrite (value_int f z) in H by reflexivity.
    injection H as _ <-. destruct E as [E|E]; now apply E.
Qed.
Lemma eat_comma t q : eat 44 (lit "," ++ t) = Some q -> q = t.
Proof. now intros [= ->]. Qed.
Ltac eaten H := apply eat_comma in H; subst.

(** ** The three texts *)
Lemma fields_back g p f t t2 ms r : read_members g (quoted (lit "effect_type") ++ lit ":" ++ quoted (effect_name f) ++ lit ","
    ++ quoted (lit "path_name") ++ lit ":" ++ quoted p ++ lit "," ++ quoted (lit "path_type") ++ lit ":" ++ quoted (ptype_name t) ++ t2) = Some (ms, r) ->
  (exists more, ms = fields_json p f t ++ more) -> plain p = true /\
  forall more x, ms = fields_json p f t ++ x :: more -> exists g' r4, eat 44 t2 = Some r4 /\ read_members g' r4 = Some (x :: more, r).
Proof.
  intros H (more & ->). unfold fields_json in H.
  match type of H with _ = Some ([?a; ?b; ?c] ++ ?d, _) => change ([a; b; c] ++ d) with (a :: b :: c :: d) in H end.
  destruct (more_back _ _ _ _ _ _ _ H eq_refl eq_refl ltac:(discriminate)) as (g1 & v1 & r1 & q1 & V1 & E1 & M1 & _). clear H.
  apply str_plain_back in V1 as ->; [|apply lit_plain_effect]. eaten E1.
  destruct (more_back _ _ _ _ _ _ _ M1 eq_refl eq_refl ltac:(discriminate)) as (g2 & v2 & r2 & q2 & V2 & E2 & M2 & X). clear M1. injection X as <-.
  apply str_back in V2 as [P ->]; [|reflexivity]. eaten E2. split; [exact P|].
  intros more' x K. apply app_inv_head in K as ->.
  destruct (more_back _ _ _ _ _ _ _ M2 eq_refl eq_refl ltac:(discriminate)) as (g3 & v3 & r3 & q3 & V3 & E3 & M3 & _). clear M2.
  apply str_plain_back in V3 as ->; [|apply lit_plain_ptype]. eauto.
Qed.

Lemma json_value t v : read_json t = Some v -> exists n r, read_value n t = Some (v, r).
Proof.
  unfold read_json. intros H. destruct (read_value (S (length t)) t) as [[v' r]|] eqn:E; [|discriminate H]. destruct (skip_ws r); [|discriminate H].
  injection H as ->. eauto.
Qed.
Lemma event_json_back e key : in64 (ev_time e) ->
  read_json (lit "{" ++ event_json e ++ lit "}") = Some (JObj [(key, JObj (event_as_json e))]) -> is_decimal key (ev_time e) ->
  plain (ev_path e) = true /\ (forall a, ev_assoc e = Some a -> plain (ev_path a) = true) /\ is_decimal (num_to_str (ev_time e)) (ev_time e).
Proof.
  intros H6 H D. apply json_value in H as (n & r & H). unfold event_json in H. cbv zeta in H.
  change (lit ":{") with (lit ":" ++ lit "{") in H. change (lit """effect_type"":") with (quoted (lit "effect_type") ++ lit ":") in H.
  change (lit """path_name"":") with (quoted (lit "path_name") ++ lit ":") in H. change (lit """path_type"":") with (quoted (lit "path_type") ++ lit ":") in H.
  rewrite <- !app_assoc in H. apply obj_back with (ms := [(key, JObj (event_as_json e))]) in H as (g & H); [|reflexivity].
  assert (K : is_decimal (num_to_str (ev_time e)) (ev_time e)) by (eapply key_back; eauto).
  destruct (one_back _ _ _ _ _ H) as (g1 & v1 & r1 & V1 & _ & _ & E).
  { apply num_to_str_exact_iff in K; [|exact H6]. rewrite num_is_chars by assumption. apply chars_plain. }
  assert (Ev1 : v1 = JObj (event_as_json e)) by congruence. clear H E. apply obj_back with (ms := event_as_json e) in V1 as (g2 & M); [|exact Ev1]. clear Ev1 v1.
  unfold event_as_json in M. destruct (fields_back _ _ _ _ _ _ _ M) as [P Q]; [eauto|]. split; [exact P|]. split; [|exact K].
  intros a Ea. rewrite Ea in Q. destruct (Q _ _ eq_refl) as (g3 & r4 & E4 & M4). clear Q M.
  change (lit ",""associated""") with (lit "," ++ quoted (lit "associated")) in E4. rewrite <- !app_assoc in E4. eaten E4.
  destruct (one_back _ _ _ _ _ M4 eq_refl) as (g5 & v5 & r5 & V5 & _ & _ & E5).
  assert (Ev5 : v5 = JObj (fields_json (ev_path a) (ev_effect a) (ev_ptype a))) by congruence. clear E5 M4.
  apply obj_back with (ms := fields_json (ev_path a) (ev_effect a) (ev_ptype a)) in V5 as (g6 & M6); [|exact Ev5].
  apply (fields_back _ _ _ _ _ _ _ M6). exists []. now rewrite app_nil_r.
Qed.
Lemma event_json_exact e : in64 (ev_time e) -> plain (ev_path e) = true -> (forall a, ev_assoc e = Some a -> plain (ev_path a) = true) ->
  is_decimal (num_to_str (ev_time e)) (ev_time e) ->
  read_json (lit "{" ++ event_json e ++ lit "}") = Some (JObj [(num_to_str (ev_time e), JObj (event_as_json e))]).
Proof.
  intros H6 P Q D. assert (Q' : match ev_assoc e with Some a => plain (ev_path a) = true | None => True end).
  { destruct (ev_assoc e) as [a|]; [now apply Q|exact I]. }
  destruct (event_json_members 0 e P Q') as (rest & E & Hm). rewrite E, <- !app_assoc. apply (read_json_of 12).
  - apply value_obj.
    match goal with |- has_members _ ?s _ =>
      replace s with (quoted (num_to_str (ev_time e)) ++ lit ":" ++ (lit "{" ++ quoted (lit "effect_type") ++ rest) ++ lit "}") end.
    2:{ rewrite <- !app_assoc. reflexivity. }
    apply members_last; [|apply value_obj; exact Hm]. apply num_to_str_exact_iff in D; [|exact H6]. rewrite num_is_chars by assumption. apply chars_plain.
  - rewrite !app_length, !quoted_length. change (length (lit "effect_type")) with 11%nat. lia.
Qed.
(** The command line's text *)
Lemma cli_eq p f t tm a : cli_json (Ev p f t tm a) = lit "{" ++ quoted (lit "path_type") ++ lit ":" ++ quoted (ptype_name t) ++ lit "," ++
  quoted (lit "path_name") ++ lit ":" ++ quoted p ++ lit "," ++ quoted (lit "effect_type") ++ lit ":" ++ quoted (effect_name f) ++ lit "," ++
  quoted (lit "effect_time") ++ lit ":" ++ num_to_str tm ++ lit "," ++ quoted (lit "associated") ++ lit ":" ++
  match a with Some b => cli_json b | None => lit "null" end ++ lit "}".
Proof.
  cbn [cli_json].
  change (lit "{""path_type"":") with (lit "{" ++ quoted (lit "path_type") ++ lit ":").
  change (lit ",""path_name"":") with (lit "," ++ quoted (lit "path_name") ++ lit ":").
  change (lit ",""effect_type"":") with (lit "," ++ quoted (lit "effect_type") ++ lit ":").
  change (lit ",""effect_time"":") with (lit "," ++ quoted (lit "effect_time") ++ lit ":").
  change (lit ",""associated"":") with (lit "," ++ quoted (lit "associated") ++ lit ":").
  now rewrite <- !app_assoc.
Qed.
Lemma cli_back p f t tm a n rest r : in64 tm -> read_value n (cli_json (Ev p f t tm a) ++ rest) = Some (event_as_cli_json (Ev p f t tm a), r) ->
  plain p = true /\ is_decimal (num_to_str tm) tm /\
  forall b, a = Some b -> exists n' r', read_value n' (cli_json b ++ lit "}" ++ rest) = Some (event_as_cli_json b, r').
Proof.
  intros H6 H. rewrite cli_eq, <- !app_assoc in H. cbn [event_as_cli_json] in H.
  destruct (obj_back _ _ _ _ _ _ H eq_refl) as (g & M). clear H.
  destruct (more_back _ _ _ _ _ _ _ M eq_refl eq_refl ltac:(discriminate)) as (g1 & v1 & r1 & q1 & V1 & E1 & M1 & _). clear M.
  apply str_plain_back in V1 as ->; [|apply lit_plain_ptype]. eaten E1.
  destruct (more_back _ _ _ _ _ _ _ M1 eq_refl eq_refl ltac:(discriminate)) as (g2 & v2 & r2 & q2 & V2 & E2 & M2 & X). clear M1.
  apply str_back in V2 as [P ->]; [|congruence]. clear X. eaten E2. split; [exact P|].
  destruct (more_back _ _ _ _ _ _ _ M2 eq_refl eq_refl ltac:(discriminate)) as (g3 & v3 & r3 & q3 & V3 & E3 & M3 & _). clear M2.
  apply str_plain_back in V3 as ->; [|apply lit_plain_effect]. eaten E3.
  destruct (more_back _ _ _ _ _ _ _ M3 eq_refl eq_refl ltac:(discriminate)) as (g4 & v4 & r4 & q4 & V4 & E4 & M4 & _). clear M3.
  apply num_back in V4 as [T ->]; [|exact H6|left; rewrite E4; discriminate]. split; [exact T|].
  change (44%N :: ?x) with (lit "," ++ x) in E4. eaten E4.
  destruct (one_back _ _ _ _ _ M4 eq_refl) as (g5 & v5 & r5 & V5 & _ & _ & E5). intros b ->. exists g5, r5. rewrite V5. congruence.
Qed.
Lemma nineteen_exact z : in64 z -> (is_decimal (num_to_str z) z <-> nineteen z).
Proof. intros H. rewrite num_to_str_exact_iff by exact H. unfold nineteen, in64 in *. lia. Qed.
Lemma cli_back_all e : every (fun x => in64 (ev_time x)) e -> forall n rest r, read_value n (cli_json e ++ rest) = Some (event_as_cli_json e, r) ->
  every (fun x => plain (ev_path x) = true /\ nineteen (ev_time x)) e.
Proof.
  induction e as [p f t tm|p f t tm a IH] using event_ind'; cbn [every ev_path ev_time]; intros [H6 H7] n rest r H;
    destruct (cli_back _ _ _ _ _ _ _ _ H6 H) as (P & T & A); apply nineteen_exact in T; try exact H6; (split; [split; assumption|]).
  - exact I.
  - destruct (A a eq_refl) as (n' & r' & E). exact (IH H7 _ _ _ E).
Qed.
Lemma cli_forth e : every (fun x => in64 (ev_time x)) e -> every (fun x => plain (ev_path x) = true /\ nineteen (ev_time x)) e ->
  exists n, (n <= S (length (cli_json e)))%nat /\ has_value n (cli_json e) (event_as_cli_json e).
Proof.
  assert (Step : forall p f t tm a n v, in64 tm -> plain p = true -> nineteen tm -> (2 <= n)%nat ->
    has_value n (match a with Some b => cli_json b | None => lit "null" end) v ->
    has_value (S (S (S (S (S (S n)))))) (cli_json (Ev p f t tm a)) (JObj [(lit "path_type", JStr (lit (ptype_doc t))); (lit "path_name", JStr p);
      (lit "effect_type", JStr (lit (effect_doc f))); (lit "effect_time", JNum tm); (lit "associated", v)])).
  { intros p f t tm a n v H6 P T Hn V. rewrite cli_eq. rewrite <- effect_name_doc, <- ptype_name_doc. apply value_obj.
    apply members_cons; [reflexivity|apply value_str, lit_plain_ptype|].
    apply members_cons; [reflexivity|now apply value_str|].
    apply members_cons; [reflexivity|apply value_str, lit_plain_effect|].
    apply members_cons; [reflexivity| |].
    { rewrite num_is_chars; [apply value_int|exact H6|unfold nineteen in T; lia]. }
    apply members_last; [reflexivity|]. exact V. }
  induction e as [p f t tm|p f t tm a IH] using event_ind'; cbn [every ev_path ev_time]; intros [H6 H7] [[P T] Q].
  - exists 8%nat. split; [|apply (Step p f t tm None 2%nat JNull H6 P T ltac:(lia)), value_null].
    cbn [cli_json]. rewrite app_length. change (length (lit "{""path_type"":")) with 13%nat. lia.
  - destruct (IH H7 Q) as (n & Hn & V). exists (S (S (S (S (S (S (n + 2)))))))%nat. split.
    + cbn [cli_json]. rewrite !app_length, !quoted_length. change (length (lit "{""path_type"":")) with 13%nat. lia.
    + apply (Step p f t tm (Some a) (n + 2)%nat); auto; [lia|]. eapply value_more; [|exact V]. lia.
Qed.
(** Python's *)
Lemma py_json_back b : read_json (py_json b) = Some (py_event_as_json b) ->
  plain (b_path b) = true /\ (forall a, b_assoc b = Some a -> plain a = true /\ a <> []).
Proof.
  intros H. apply json_value in H as (n & r & H). unfold py_json, py_event_as_json in H. cbv zeta in H.
  change (lit "{""effect_time"":") with (lit "{" ++ quoted (lit "effect_time") ++ lit ":") in H.
  change (lit ",""path_name"":") with (lit "," ++ quoted (lit "path_name") ++ lit ":") in H.
  change (lit ",""associated_path_name"":") with (lit "," ++ quoted (lit "associated_path_name") ++ lit ":") in H.
  change (lit ",""effect_type"":") with (lit "," ++ quoted (lit "effect_type") ++ lit ":") in H.
  change (lit ",""path_type"":") with (lit "," ++ quoted (lit "path_type") ++ lit ":") in H.
  rewrite <- !app_assoc in H. destruct (obj_back _ _ _ _ _ _ H eq_refl) as (g & M). clear H.
  destruct (more_back _ _ _ _ _ _ _ M eq_refl eq_refl ltac:(discriminate)) as (g1 & v1 & r1 & q1 & V1 & E1 & M1 & _). clear M.
  assert (r1 = lit "," ++ quoted (lit "path_name") ++ lit ":" ++ quoted (b_path b) ++ lit "," ++ quoted (lit "associated_path_name") ++ lit ":" ++
    match b_assoc b with Some ((_ :: _) as a) => quoted a | _ => lit "null" end ++ lit "," ++ quoted (lit "effect_type") ++ lit ":" ++
    quoted (effect_name (b_effect b)) ++ lit "," ++ quoted (lit "path_type") ++ lit ":" ++ quoted (ptype_name (b_ptype b)) ++ lit "}") as ->.
  { destruct g1; [discriminate V1|]. rewrite value_int in V1 by reflexivity. now inversion V1. }
  clear V1. eaten E1.
  destruct (more_back _ _ _ _ _ _ _ M1 eq_refl eq_refl ltac:(discriminate)) as (g2 & v2 & r2 & q2 & V2 & E2 & M2 & X). clear M1.
  apply str_back in V2 as [P ->]; [|congruence]. clear X. eaten E2. split; [exact P|].
  destruct (more_back _ _ _ _ _ _ _ M2 eq_refl eq_refl ltac:(discriminate)) as (g3 & v3 & r3 & q3 & V3 & E3 & M3 & X). clear M2 M3 E3.
  intros a Ea. rewrite Ea in *. destruct a as [|c a].
  - exfalso. destruct g3; [discriminate V3|]. rewrite value_null in V3 by reflexivity. congruence.
  - split; [|discriminate]. apply str_back in V3 as [Q _]; [exact Q|congruence].
Qed.

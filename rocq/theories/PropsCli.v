(** Theorem C56: the command line program.  Statements use CliModel (the code) and
    CliSpec (the help text). *)
From Coq Require Import QArith.
From Verif Require Import Base PathModel EventModel EventSpec EventFacts CliModel CliSpec.
Local Open Scope Z_scope.

Lemma help_argis prog a rest : argis (prog :: a :: rest) 1 (lit "-h") || argis (prog :: a :: rest) 1 (lit "--help") = true <-> is_help a.
Proof.
  unfold argis, is_help. cbn [nth_error]. rewrite orb_true_iff, !text_eqb_eq. split; intros [H|H]; auto.
Qed.
Lemma no_help prog a rest : ~ is_help a -> argis (prog :: a :: rest) 1 (lit "-h") || argis (prog :: a :: rest) 1 (lit "--help") = false.
Proof. intros H. apply not_true_iff_false. now rewrite help_argis. Qed.
Lemma ttons_unit prog a u ns more : In (u, ns) units -> ttons (prog :: a :: lit u :: more) = ns.
Proof. intros H. unfold units in H. cbn [In] in H. repeat (destruct H as [H|H]; [injection H as <- <-; reflexivity|]). destruct H. Qed.
Lemma ttons_other prog a u more : (forall x ns, In (x, ns) units -> u <> lit x) -> ttons (prog :: a :: u :: more) = 10 ^ 6.
Proof.
  intros H. assert (K : forall x ns, In (x, ns) units -> argis (prog :: a :: u :: more) 2 (lit x) = false).
  { intros x ns Hx. unfold argis. cbn [nth_error]. apply not_true_iff_false. rewrite text_eqb_eq. intros E. eapply H; [exact Hx|]. now symmetry. }
  unfold ttons, targis. cbn [existsb]. unfold units in K. cbn [In] in K.
  rewrite !(fun x => K x 1), !(fun x => K x 1000), !(fun x => K x 1000000), !(fun x => K x 1000000000), !(fun x => K x 60000000000), !(fun x => K x 3600000000000),
    !(fun x => K x 86400000000000), !(fun x => K x 604800000000000), !(fun x => K x 2592000000000000), !(fun x => K x 31536000000000000) by tauto. reflexivity.
Qed.
Lemma round_int os q n : (q == inject_Z n)%Q -> 0 <= n < 2 ^ 63 -> llround os (DFin q) = n.
Proof.
  intros E H. unfold llround. destruct q as [a d]. unfold Qeq in E. cbn in E. rewrite Z.mul_1_r in E. subst a. cbn [Qnum Qden].
  assert (K : (Z.sgn (n * Z.pos d) * ((2 * Z.abs (n * Z.pos d) + Z.pos d) / (2 * Z.pos d))) = n).
  { destruct (Z.eq_dec n 0) as [-> |Hn]; [reflexivity|]. replace (Z.sgn (n * Z.pos d)) with 1 by nia. rewrite Z.mul_1_l.
    symmetry. apply Z.div_unique with (r := Z.pos d); nia. }
  rewrite K. unfold int64. now replace (_ && _) with true by lia.
Qed.
Lemma main_given os closed prog a rest : ~ is_help a -> exists_ os a = Some true ->
  cli_main os closed (prog :: a :: rest) =
    match cli_time os (prog :: a :: rest) false with
    | Ok t => Ok (Watched a t, if closed then 0 else 1)
    | Undef u => Undef u | Crash => Crash | Fuel => Fuel
    end.
Proof.
  intros H E. unfold cli_main, try_parse. rewrite no_help by exact H. unfold cli_path. cbn [nth_error]. rewrite E.
  destruct (cli_time os (prog :: a :: rest) false); reflexivity.
Qed.
Lemma time_given os prog a u t more n : reads_integers os -> is_decimal t n -> 0 < n <= 2 ^ 53 ->
  cli_time os (prog :: a :: u :: t :: more) false =
    let ns := (n * ttons (prog :: a :: u :: t :: more)) in if int64 ns then Ok (Some ns) else Undef SignedOverflow.
Proof.
  intros R D H. destruct (R t n D ltac:(lia)) as (q & Eq & Q). unfold cli_time. cbn [nth_error orb]. rewrite Eq. cbn [huge not_positive orb].
  assert (P : Qnum q <=? 0 = false).
  { destruct q as [x d]. unfold Qeq in Q. cbn in *. nia. }
  rewrite P, (round_int os q n Q) by lia. reflexivity.
Qed.
Lemma time_zero os : reads_integers os -> exists q, strtod os (lit "0") = DFin q /\ Qnum q = 0.
Proof.
  intros R. destruct (R (lit "0") 0) as (q & E & Q); [apply (chars_of_Z_decimal 0)|lia|]. exists q. split; [exact E|].
  destruct q as [x d]. unfold Qeq in Q. cbn in *. lia.
Qed.

(** Help, whatever else is there. *)
Theorem C56_help_shown : forall os closed prog a rest, is_help a -> cli_main os closed (prog :: a :: rest) = Ok (HelpOut, 0).
Proof.
  intros os closed prog a rest H. unfold cli_main, try_parse. rewrite (proj2 (help_argis prog a rest) H). reflexivity.
Qed.
Print Assumptions C56_help_shown.
(** No argument: the current directory, until a key is pressed. *)
Theorem C56_current_directory_by_default : forall os closed prog p, reads_integers os -> cwd os = Some p ->
  cli_main os closed [prog] = Ok (Watched p None, if closed then 0 else 1).
Proof.
  intros os closed prog p R C. destruct (time_zero os R) as (q & E & Q). unfold cli_main, try_parse, cli_path. cbn [argis nth_error orb]. rewrite C.
  unfold cli_time. cbn [nth_error orb]. rewrite E. cbn [huge not_positive orb]. rewrite Q. reflexivity.
Qed.
Print Assumptions C56_current_directory_by_default.
(** A path that exists, no time: that path, until a key is pressed. *)
Theorem C56_given_path_watched : forall os closed prog a rest, reads_integers os -> ~ is_help a -> exists_ os a = Some true -> (length rest < 2)%nat ->
  cli_main os closed (prog :: a :: rest) = Ok (Watched a None, if closed then 0 else 1).
Proof.
  intros os closed prog a rest R H E L. rewrite main_given by assumption. destruct (time_zero os R) as (q & E0 & Q).
  assert (T : cli_time os (prog :: a :: rest) false = Ok None).
  { unfold cli_time. replace (nth_error (prog :: a :: rest) 3) with (@None text); [|symmetry; apply nth_error_None; cbn; lia].
    rewrite E0. cbn. now rewrite Q. }
  now rewrite T.
Qed.
Print Assumptions C56_given_path_watched.
(** With a unit of the help text and a positive integer, for that time; up to the
    largest time the program can hold. *)
Theorem C56_times_partial : forall os closed prog a u ns t n more, reads_integers os -> ~ is_help a -> exists_ os a = Some true ->
  In (u, ns) units -> is_decimal t n -> 0 < n <= 2 ^ 53 -> n * ns < 2 ^ 63 ->
  cli_main os closed (prog :: a :: lit u :: t :: more) = Ok (Watched a (Some (n * ns)), if closed then 0 else 1).
Proof.
  intros os closed prog a u ns t n more R H E U D B L. rewrite main_given by assumption. rewrite (time_given os prog a (lit u) t more n R D B).
  rewrite (ttons_unit prog a u ns (t :: more) U). cbn zeta. replace (int64 (n * ns)) with true; [reflexivity|]. symmetry. unfold int64.
  assert (0 < ns) by (unfold units in U; cbn [In] in U; repeat (destruct U as [U|U]; [injection U as _ <-; lia|]); destruct U). nia.
Qed.
Print Assumptions C56_times_partial.
(** Longer times, far below ULONG_MAX: undefined behaviour. *)
Theorem C56_long_times_refuted : forall os closed prog a u ns t n more, reads_integers os -> ~ is_help a -> exists_ os a = Some true ->
  In (u, ns) units -> is_decimal t n -> 0 < n <= 2 ^ 53 -> 2 ^ 63 <= n * ns ->
  cli_main os closed (prog :: a :: lit u :: t :: more) = Undef SignedOverflow.
Proof.
  intros os closed prog a u ns t n more R H E U D B L. rewrite main_given by assumption. rewrite (time_given os prog a (lit u) t more n R D B).
  rewrite (ttons_unit prog a u ns (t :: more) U). cbn zeta. replace (int64 (n * ns)) with false; [reflexivity|]. symmetry. unfold int64. lia.
Qed.
Print Assumptions C56_long_times_refuted.
(** With a number that is not an integer: for the nearest whole number of units (a half
    counts up), not for the time given. *)
Theorem C56_fractions_are_rounded : forall os closed prog a u ns t q more, ~ is_help a -> exists_ os a = Some true ->
  In (u, ns) units -> strtod os t = DFin q -> (0 < q)%Q ->
  exists n, (2 * inject_Z n - 1 <= 2 * q)%Q /\ (2 * q < 2 * inject_Z n + 1)%Q /\
    (n * ns < 2 ^ 63 -> cli_main os closed (prog :: a :: lit u :: t :: more) = Ok (Watched a (Some (n * ns)), if closed then 0 else 1)) /\
    (n < 2 ^ 63 <= n * ns -> cli_main os closed (prog :: a :: lit u :: t :: more) = Undef SignedOverflow).
Proof.
  intros os closed prog a u ns t [x d] more H E U S P. rewrite main_given by assumption. unfold cli_time. cbn [nth_error orb]. rewrite S. cbn [huge not_positive orb Qnum].
  unfold Qlt in P. cbn in P. replace (x <=? 0) with false by lia. rewrite (ttons_unit prog a u ns (t :: more) U). unfold llround. cbn [Qnum Qden].
  replace (Z.sgn x) with 1 by lia. rewrite Z.mul_1_l, Z.abs_eq by lia.
  pose proof (Z.div_mod (2 * x + Z.pos d) (2 * Z.pos d) ltac:(lia)) as D. pose proof (Z.mod_pos_bound (2 * x + Z.pos d) (2 * Z.pos d) ltac:(lia)) as B.
  set (n := (2 * x + Z.pos d) / (2 * Z.pos d)) in *. set (r := (2 * x + Z.pos d) mod (2 * Z.pos d)) in *. clearbody n r.
  assert (1 <= ns) by (unfold units in U; cbn [In] in U; repeat (destruct U as [U|U]; [injection U as _ <-; lia|]); destruct U).
  assert (0 <= n) by nia.
  exists n. split.
  { unfold Qle. cbn -[Z.mul]. rewrite ?Pos2Z.inj_mul, ?Pos.mul_1_l, ?Z.mul_1_r. nia. }
  split; [unfold Qlt; cbn -[Z.mul]; rewrite ?Pos2Z.inj_mul, ?Pos.mul_1_l, ?Z.mul_1_r; nia|]. unfold int64. split; intros L.
  - replace ((- 2 ^ 63 <=? n) && (n <? 2 ^ 63)) with true by nia. cbv zeta. now replace ((- 2 ^ 63 <=? n * ns) && (n * ns <? 2 ^ 63)) with true by nia.
  - replace ((- 2 ^ 63 <=? n) && (n <? 2 ^ 63)) with true by lia. cbv zeta. now replace ((- 2 ^ 63 <=? n * ns) && (n * ns <? 2 ^ 63)) with false by lia.
Qed.
Print Assumptions C56_fractions_are_rounded.
(** "nan" is a number for strtod.  Where it is rounded to the smallest integer (x86-64) the
    program waits for a negative time, in nanoseconds; in every other unit the behaviour is
    undefined. *)
Theorem C56_not_a_number_refuted : forall os closed prog a u ns t more, ~ is_help a -> exists_ os a = Some true ->
  In (u, ns) units -> strtod os t = DNan -> unspecified_round os = - 2 ^ 63 ->
  cli_main os closed (prog :: a :: lit u :: t :: more) = if ns =? 1 then Ok (Watched a (Some (- 2 ^ 63)), if closed then 0 else 1) else Undef SignedOverflow.
Proof.
  intros os closed prog a u ns t more H E U S R. rewrite main_given by assumption. unfold cli_time. cbn [nth_error orb]. rewrite S. cbn [huge not_positive orb llround].
  rewrite (ttons_unit prog a u ns (t :: more) U), R. unfold units in U. cbn [In] in U. repeat (destruct U as [U|U]; [injection U as _ <-; reflexivity|]). destruct U.
Qed.
Print Assumptions C56_not_a_number_refuted.
(** Any other unit is taken for milliseconds. *)
Theorem C56_other_units_are_milliseconds : forall os closed prog a u t n more, reads_integers os -> ~ is_help a -> exists_ os a = Some true ->
  (forall x ns, In (x, ns) units -> u <> lit x) -> is_decimal t n -> 0 < n <= 2 ^ 43 ->
  cli_main os closed (prog :: a :: u :: t :: more) = Ok (Watched a (Some (n * 10 ^ 6)), if closed then 0 else 1).
Proof.
  intros os closed prog a u t n more R H E U D B. rewrite main_given by assumption. rewrite (time_given os prog a u t more n R D) by lia.
  rewrite (ttons_other prog a u (t :: more) U). cbn zeta. now replace (int64 (n * 10 ^ 6)) with true by (unfold int64; lia).
Qed.
Print Assumptions C56_other_units_are_milliseconds.
(** A path that does not exist: never the current directory. *)
Theorem C56_missing_path_refuted : forall os closed prog a rest r, ~ is_help a -> exists_ os a = Some false ->
  cli_main os closed (prog :: a :: rest) = Ok r -> r = (HelpErr, 1).
Proof.
  intros os closed prog a rest r H E. unfold cli_main, try_parse. rewrite no_help by exact H. unfold cli_path. cbn [nth_error]. rewrite E.
  destruct (cli_time os (prog :: a :: rest) false) as [[t|]|u| |]; cbn; intros K; congruence.
Qed.
Print Assumptions C56_missing_path_refuted.
(** The exit code is 0 exactly for help and for a watcher that closed with success. *)
Theorem C56_exit_code : forall os closed argv act code, cli_main os closed argv = Ok (act, code) ->
  (code = 0 <-> act = HelpOut \/ ((exists p t, act = Watched p t) /\ closed = true)).
Proof.
  intros os closed argv act code. unfold cli_main. destruct (try_parse os argv) as [[[h p t]|]|u| |]; try discriminate; cbn.
  - destruct h; [intros [= <- <-]; split; [now left|reflexivity]|]. destruct p as [p|]; intros [= <- <-].
    + destruct closed; split; try discriminate; [intros _; right; split; [eauto|reflexivity]|intros _; reflexivity|intros [H|[_ H]]; discriminate].
    + split; [discriminate|]. intros [H|[(p & t' & H) _]]; discriminate.
  - intros [= <- <-]. split; [discriminate|]. intros [H|[(p & t' & H) _]]; discriminate.
Qed.
Print Assumptions C56_exit_code.

(** A system for the examples: two directories, exact decimal numbers. *)
Definition demo_strtod (t : text) : dnum :=
  let (d, _) := read_digits t in match d with [] => DFin 0 | _ => DFin (inject_Z (Z.of_N (dec_value d))) end.
Definition demo : cli_os :=
  {| cwd := Some (lit "/here"); exists_ := fun t => Some (text_eqb t (lit "/here") || text_eqb t (lit "/there")); strtod := demo_strtod; unspecified_round := - 2 ^ 63 |}.
Lemma demo_reads : reads_integers demo.
Proof.
  intros t n D Hn. unfold is_decimal in D.
  assert (E : strtod demo t = DFin (inject_Z n)).
  { cbn. unfold demo_strtod. destruct D as [[_ (H1 & H2 & H3 & H4)]|[D _]]; [|lia].
    pose proof (read_digits_app t [] H2 I) as R. rewrite app_nil_r in R. rewrite R. destruct t as [|d t]; [contradiction|]. rewrite H3. now rewrite Z2N.id by lia. }
  rewrite E. exists (inject_Z n). split; [reflexivity|apply Qeq_refl].
Qed.
(** Half a second is a second, a third of one is none. *)
Definition odd_numbers : cli_os :=
  {| cwd := cwd demo; exists_ := exists_ demo; strtod := fun t => if text_eqb t (lit "0.5") then DFin (1 # 2) else if text_eqb t (lit "0.3") then DFin (3 # 10) else if text_eqb t (lit "nan") then DNan else demo_strtod t;
     unspecified_round := - 2 ^ 63 |}.
Example C56_numbers_example :
  cli_main odd_numbers true [lit "wtr"; lit "/there"; lit "-s"; lit "0.5"] = Ok (Watched (lit "/there") (Some 1000000000), 0) /\
  cli_main odd_numbers true [lit "wtr"; lit "/there"; lit "-s"; lit "0.3"] = Ok (Watched (lit "/there") (Some 0), 0) /\
  cli_main odd_numbers true [lit "wtr"; lit "/there"; lit "-ns"; lit "nan"] = Ok (Watched (lit "/there") (Some (- 2 ^ 63)), 0) /\
  cli_main odd_numbers true [lit "wtr"; lit "/there"; lit "-s"; lit "nan"] = Undef SignedOverflow.
Proof. repeat split. Qed.
Example C56_example :
  cli_main demo true [lit "wtr"; lit "/there"; lit "-m"; lit "3"] = Ok (Watched (lit "/there") (Some 180000000000), 0) /\
  cli_main demo false [lit "wtr"; lit "/there"] = Ok (Watched (lit "/there") None, 1) /\
  cli_main demo true [lit "wtr"; lit "/gone"; lit "-m"; lit "3"] = Ok (HelpErr, 1) /\
  cli_main demo true [lit "wtr"; lit "/there"; lit "-y"; lit "300"] = Undef SignedOverflow /\
  cli_main demo true [lit "wtr"; lit "--help"; lit "-y"; lit "300"] = Ok (HelpOut, 0).
Proof. repeat split. Qed.

(** Model of the command line program, src/wtr/watcher/main.cpp:50-90, 107-123.
    The text of its events (:92-105) is [cli_json] of EventModel.

    Not modelled: the output itself beyond which stream the help goes to, and the
    watcher (see the other models): only on what path it is opened, for how long, and
    that its close returns something. *)
From Coq Require Import QArith.
From Verif Require Import Base PathModel.

(** What strtod gives. *)
Inductive dnum := DNan | DInf | DNegInf | DFin (q : Q).
(** What the program asks its surroundings.  [None]: the call throws. *)
Record cli_os := {
  cwd : option text;                 (* fs::current_path() *)
  exists_ : text -> option bool;     (* fs::exists *)
  strtod : text -> dnum;
  unspecified_round : Z;             (* llroundl of what does not fit *)
}.

(** argis, :52-53. *)
Definition argis (argv : list text) (i : nat) (a : text) : bool :=
  match nth_error argv i with Some t => text_eqb a t | None => false end.
Definition targis (argv : list text) (names : list string) : bool := existsb (fun a => argis argv 2 (lit a)) names.
(** ttons, :67-77. *)
Definition ttons (argv : list text) : Z :=
  if targis argv ["-nanoseconds"; "-ns"]%string then 1
  else if targis argv ["-microseconds"; "-us"]%string then 10 ^ 3
  else if targis argv ["-milliseconds"; "-ms"]%string then 10 ^ 6
  else if targis argv ["-seconds"; "-s"]%string then 10 ^ 9
  else if targis argv ["-minutes"; "-m"]%string then 60 * 10 ^ 9
  else if targis argv ["-hours"; "-h"]%string then 60 * 60 * 10 ^ 9
  else if targis argv ["-days"; "-d"]%string then 24 * 60 * 60 * 10 ^ 9
  else if targis argv ["-weeks"; "-w"]%string then 7 * 24 * 60 * 60 * 10 ^ 9
  else if targis argv ["-months"; "-mts"]%string then 30 * 24 * 60 * 60 * 10 ^ 9
  else if targis argv ["-years"; "-y"]%string then 365 * 24 * 60 * 60 * 10 ^ 9
  else 10 ^ 6.
(** llroundl: to the nearest integer, halves away from zero. *)
Definition int64 (z : Z) : bool := (- 2 ^ 63 <=? z)%Z && (z <? 2 ^ 63)%Z.
Definition llround (os : cli_os) (d : dnum) : Z :=
  match d with
  | DFin q =>
      let a := Z.abs (Qnum q) in
      let r := (Z.sgn (Qnum q) * ((2 * a + Zpos (Qden q)) / (2 * Zpos (Qden q))))%Z in
      if int64 r then r else unspecified_round os
  | _ => unspecified_round os
  end.
Definition not_positive (d : dnum) : bool :=
  match d with DNan => false | DInf => false | DNegInf => true | DFin q => (Qnum q <=? 0)%Z end.
Definition huge (d : dnum) : bool := match d with DInf => true | _ => false end.
(** time, :63-83. *)
Definition cli_time (os : cli_os) (argv : list text) (is_help : bool) : out (option Z) :=
  let st := match nth_error argv 3 with Some t => t | None => lit "0" end in
  let td := strtod os st in
  if is_help || huge td || not_positive td then Ok None
  else
    let ns := (llround os td * ttons argv)%Z in
    if int64 ns then Ok (Some ns) else Undef SignedOverflow.
(** path, :57-61. *)
Definition cli_path (os : cli_os) (argv : list text) (is_help : bool) : out (option text) :=
  if is_help then Ok None
  else match nth_error argv 1 with
  | None => match cwd os with Some p => Ok (Some p) | None => Crash end
  | Some a => match exists_ os a with Some true => Ok (Some a) | Some false => Ok None | None => Crash end
  end.
(** Args, :46-48, and try_parse, :50-88. *)
Record cli_args := Args { a_help : bool; a_path : option text; a_time : option Z }.
Definition try_parse (os : cli_os) (argv : list text) : out (option cli_args) :=
  let is_help := argis argv 1 (lit "-h") || argis argv 1 (lit "--help") in
  match cli_path os argv is_help with
  | Ok path =>
      match cli_time os argv is_help with
      | Ok time =>
          Ok (if is_help || match path with Some _ => true | None => false end || match time with Some _ => true | None => false end
              then Some (Args is_help path time) else None)
      | Undef u => Undef u
      | Crash => Crash
      | Fuel => Fuel
      end
  | Undef u => Undef u
  | Crash => Crash
  | Fuel => Fuel
  end.
(** main, :110-123: what is shown or done, and the exit code.  [closed] is what the
    watcher's close returns. *)
Inductive cli_act := HelpOut | HelpErr | Watched (p : text) (time : option Z) (* None: until a key *).
Definition cli_main (os : cli_os) (closed : bool) (argv : list text) : out (cli_act * Z) :=
  match try_parse os argv with
  | Ok None => Ok (HelpErr, 1%Z)
  | Ok (Some a) =>
      if a_help a then Ok (HelpOut, 0%Z)
      else match a_path a with
      | None => Ok (HelpErr, 1%Z)
      | Some p => Ok (Watched p (a_time a), if closed then 0%Z else 1%Z)
      end
  | Undef u => Undef u
  | Crash => Crash
  | Fuel => Fuel
  end.

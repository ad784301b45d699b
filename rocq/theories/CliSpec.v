(** What the command line program should do.  Written from its help text,
    src/wtr/watcher/main.cpp:20-45, and the property. *)
From Coq Require Import QArith.
From Verif Require Import Base EventSpec CliModel.

(** The units of the help text, in nanoseconds. *)
Open Scope Z_scope.
Definition units : list (string * Z) :=
  [ ("-nanoseconds", 1); ("-ns", 1);
    ("-microseconds", 1000); ("-us", 1000);
    ("-milliseconds", 1000000); ("-ms", 1000000);
    ("-seconds", 1000000000); ("-s", 1000000000);
    ("-minutes", 60000000000); ("-m", 60000000000);
    ("-hours", 3600000000000); ("-h", 3600000000000);
    ("-days", 86400000000000); ("-d", 86400000000000);
    ("-weeks", 604800000000000); ("-w", 604800000000000);
    ("-months", 2592000000000000); ("-mts", 2592000000000000);
    ("-years", 31536000000000000); ("-y", 31536000000000000) ]%string.
(** strtod reads decimal integers, exactly up to 2^53. *)
Definition reads_integers (os : cli_os) : Prop :=
  forall t n, is_decimal t n -> 0 <= n <= 2 ^ 53 -> exists q, strtod os t = DFin q /\ (q == inject_Z n)%Q.
Definition is_help (t : text) : Prop := t = lit "-h" \/ t = lit "--help".

(** The world outside the program: observations, system answers and the
    computations of the Linux code.

    [obs] is one interaction of the program with the system or the user;
    [os] gives every answer of the system as a function of everything observed
    so far (and of the call's arguments).  Quantifying over all [os] covers
    every behaviour of kernel, filesystem and clock.  A directory is listed
    when it is opened; because the answer may be any list, this loses no run in
    which the directory stream is finite. *)
From Verif Require Import Base EventModel.

(** One directory entry: name and [d_type] ([DT_DIR] = 4). *)
Record dirent := { de_name : text; de_type : N }.

(** What [read] did: its return value, the bytes it stored, and the value of
    [errno] afterwards ([errno] is only meaningful on failure, but the code
    looks at it in other cases too). *)
Record rd := { rd_len : Z; rd_bytes : text; rd_errno : Z }.

Inductive obs :=
| OCallback (e : event)                       (* the user's callback is called *)
| ONow (t : Z)                                (* clock reading *)
| OGeteuid (uid : Z)
| ORealpath (p : text) (r : option text)
| OStatDir (p : text) (b : bool)              (* stat + S_ISDIR *)
| OOpendir (p : text) (r : option (list dirent))
| OClosedir (p : text)
| OInotifyInit (fd : Z)
| OAddWatch (fd : Z) (p : text) (mask : N) (wd : Z)
| OFanInit (fd : Z)
| OFanMark (fd : Z) (p : text) (mask : N) (rc : Z)
| OEpollCreate (fd : Z)
| OEpollCtl (ep fd : Z) (rc : Z)
| OEpollWait (ep : Z) (r : option (list Z))   (* None: failure; else the ready descriptors *)
| ORead (fd : Z) (r : rd)
| OOpenHandle (h : text) (fd : Z) (err : Z)   (* open_by_handle_at *)
| OReadlink (fd : Z) (r : option text)        (* readlink /proc/self/fd/<fd> *)
| OClose (fd : Z).

Definition trace := list obs.

Record os := {
  os_now : trace -> Z;
  os_geteuid : trace -> Z;
  os_realpath : trace -> text -> option text;
  os_is_dir : trace -> text -> bool;
  os_opendir : trace -> text -> option (list dirent);
  os_inotify_init : trace -> Z;
  os_add_watch : trace -> Z -> text -> N -> Z;
  os_fan_init : trace -> Z;
  os_fan_mark : trace -> Z -> text -> N -> Z;
  os_epoll_create : trace -> Z;
  os_epoll_ctl : trace -> Z -> Z -> Z;
  os_epoll_wait : trace -> Z -> option (list Z);
  os_read : trace -> Z -> N -> rd;
  os_open_handle : trace -> text -> Z * Z;
  os_readlink : trace -> Z -> option text;
}.

(** A computation: given everything observed before, what it adds and how it ends. *)
Definition M (A : Type) := trace -> trace * out A.

Definition ret {A} (a : A) : M A := fun _ => ([], Ok a).
Definition undef {A} (u : ub) : M A := fun _ => ([], Undef u).
Definition no_fuel {A} : M A := fun _ => ([], Fuel).

Definition bind {A B} (m : M A) (k : A -> M B) : M B :=
  fun tr =>
    let (o1, r1) := m tr in
    match r1 with
    | Ok a => let (o2, r2) := k a (tr ++ o1) in (o1 ++ o2, r2)
    | Undef u => (o1, Undef u)
    | Crash => (o1, Crash)
    | Fuel => (o1, Fuel)
    end.

Notation "x <- m ;; k" := (bind m (fun x => k)) (at level 60, m at level 55, right associativity).
Notation "' p <- m ;; k" := (bind m (fun x => match x with p => k end))
  (at level 60, p pattern, m at level 55, right associativity).
Notation "m ;;; k" := (bind m (fun _ => k)) (at level 60, right associativity).

(** The calls. *)
Section Calls.
  Variable s : os.
  Definition now : M Z := fun tr => let t := os_now s tr in ([ONow t], Ok t).
  Definition callback (e : event) : M unit := fun _ => ([OCallback e], Ok tt).
  Definition geteuid : M Z := fun tr => let u := os_geteuid s tr in ([OGeteuid u], Ok u).
  Definition realpath (p : text) : M (option text) :=
    fun tr => let r := os_realpath s tr p in ([ORealpath p r], Ok r).
  Definition stat_dir (p : text) : M bool :=
    fun tr => let r := os_is_dir s tr p in ([OStatDir p r], Ok r).
  Definition opendir (p : text) : M (option (list dirent)) :=
    fun tr => let r := os_opendir s tr p in ([OOpendir p r], Ok r).
  Definition closedir (p : text) : M unit := fun _ => ([OClosedir p], Ok tt).
  Definition inotify_init : M Z := fun tr => let r := os_inotify_init s tr in ([OInotifyInit r], Ok r).
  Definition inotify_add_watch (fd : Z) (p : text) (m : N) : M Z :=
    fun tr => let r := os_add_watch s tr fd p m in ([OAddWatch fd p m r], Ok r).
  Definition fanotify_init : M Z := fun tr => let r := os_fan_init s tr in ([OFanInit r], Ok r).
  Definition fanotify_mark (fd : Z) (p : text) (m : N) : M Z :=
    fun tr => let r := os_fan_mark s tr fd p m in ([OFanMark fd p m r], Ok r).
  Definition epoll_create : M Z := fun tr => let r := os_epoll_create s tr in ([OEpollCreate r], Ok r).
  Definition epoll_ctl (ep fd : Z) : M Z :=
    fun tr => let r := os_epoll_ctl s tr ep fd in ([OEpollCtl ep fd r], Ok r).
  Definition epoll_wait (ep : Z) : M (option (list Z)) :=
    fun tr => let r := os_epoll_wait s tr ep in ([OEpollWait ep r], Ok r).
  Definition sys_read (fd : Z) (n : N) : M rd :=
    fun tr => let r := os_read s tr fd n in ([ORead fd r], Ok r).
  Definition open_by_handle (h : text) : M (Z * Z) :=
    fun tr => let r := os_open_handle s tr h in ([OOpenHandle h (fst r) (snd r)], Ok r).
  Definition readlink (fd : Z) : M (option text) :=
    fun tr => let r := os_readlink s tr fd in ([OReadlink fd r], Ok r).
  Definition sys_close (fd : Z) : M unit := fun _ => ([OClose fd], Ok tt).
End Calls.

(** Memory access: one byte, a little-endian word, a C string. *)
Definition byte_at (buf : text) (off : N) : M N :=
  match nth_error buf (N.to_nat off) with Some b => ret b | None => undef OobRead end.

Fixpoint le_word (bs : text) : N :=
  match bs with [] => 0 | b :: bs' => b + 256 * le_word bs' end%N.

Definition word_at (size : nat) (buf : text) (off : N) : M N :=
  let w := firstn size (skipn (N.to_nat off) buf) in
  if Nat.eqb (length w) size then ret (le_word w) else undef OobRead.

(** Two's complement reading of a 32-bit word. *)
Definition to_i32 (w : N) : Z :=
  if (w <? 2147483648)%N then Z.of_N w else (Z.of_N w - 4294967296)%Z.

(** A C string: the bytes up to the first NUL; none before the end of the
    memory is an out-of-bounds read. *)
Fixpoint c_string_in (bs : text) : option text :=
  match bs with
  | [] => None
  | b :: bs' =>
      if (b =? 0)%N then Some []
      else match c_string_in bs' with Some s => Some (b :: s) | None => None end
  end.
Definition c_string (buf : text) (off : N) : M text :=
  match c_string_in (skipn (N.to_nat off) buf) with Some s => ret s | None => undef OobRead end.

(** The buffer after [read] stored its bytes at the start of it. *)
Definition overwrite (buf bs : text) : text := bs ++ skipn (length bs) buf.

(** The events a trace shows to the user's callback. *)
Fixpoint callbacks (o : trace) : list event :=
  match o with
  | [] => []
  | OCallback e :: o' => e :: callbacks o'
  | _ :: o' => callbacks o'
  end.

Lemma callbacks_app a b : callbacks (a ++ b) = callbacks a ++ callbacks b.
Proof. induction a as [|[] a IH]; cbn; try rewrite IH; auto. Qed.

(** How the kernel writes words: little endian, two's complement. *)
Fixpoint le_bytes (size : nat) (v : N) : text :=
  match size with O => [] | S k => (v mod 256)%N :: le_bytes k (v / 256)%N end.
Definition of_i32 (z : Z) : N := if (z <? 0)%Z then Z.to_N (z + 4294967296) else Z.to_N z.

(** Model of the stop flag, include/wtr/watcher.hpp:387-466: class semabin on its
    three kinds of platform, one atomic access or system call per step.
    Simplification: the atomics are sequentially consistent (on Linux and
    elsewhere they are; on Darwin the acquire/release accesses of a single flag
    allow the same answers). *)
From Verif Require Import Base.

(** enum state, :389. *)
Inductive sst := pending | released | error.

(** The shared parts: the atomic [is] (:392); [tokens], on Linux the eventfd's
    counter (:397, opened as a semaphore: a read takes one), on Darwin the
    dispatch semaphore's value (:434).  [signals] counts all signals ever given
    (successful eventfd_write calls, dispatch_semaphore_signal calls). *)
Record sem := Sem { is : sst; tokens : nat; signals : nat }.
Definition sem_new : sem := Sem pending 0 0.
Definition set_is (m : sem) (v : sst) : sem := Sem v (tokens m) (signals m).
Definition signalled (m : sem) : sem := Sem (is m) (S (tokens m)) (S (signals m)).
Definition taken (m : sem) : sem := Sem (is m) (pred (tokens m)) (signals m).

(** [Linux true]: eventfd_read and eventfd_write may fail (for another reason
    than an empty counter); [Linux false]: they do not. *)
Inductive platform := Linux (faulty : bool) | Darwin | Other.

(** Where a thread is inside [release()] or [state()]. *)
Inductive pc :=
| RStart | RWrite | RStore (v : sst) | RSignal   (* release *)
| QStart | QRead | QStore (v : sst)              (* state *)
| Ret (v : sst).                                 (* about to return [v] *)

Inductive sem_step : platform -> sem -> pc -> sem -> pc -> Prop :=
  (* Linux release, :399-413: load; write; store.  The write may fail. *)
| L_r_again b m : is m = released -> sem_step (Linux b) m RStart m (Ret released)
| L_r_first b m : is m <> released -> sem_step (Linux b) m RStart m RWrite
| L_r_write b m : sem_step (Linux b) m RWrite (signalled m) (RStore released)
| L_r_fails m : sem_step (Linux true) m RWrite m (RStore error)
| L_r_store b m v : sem_step (Linux b) m (RStore v) (set_is m v) (Ret v)
  (* Linux state, :415-429: load; read; store.  The read takes one from the
     counter, answers EAGAIN when it is zero, or fails otherwise. *)
| L_q_pending b m : is m = pending -> sem_step (Linux b) m QStart m (Ret pending)
| L_q_other b m : is m <> pending -> sem_step (Linux b) m QStart m QRead
| L_q_take b m : (0 < tokens m)%nat -> sem_step (Linux b) m QRead (taken m) (QStore released)
| L_q_empty b m : tokens m = 0%nat -> sem_step (Linux b) m QRead m (QStore pending)
| L_q_fails m : sem_step (Linux true) m QRead m (QStore error)
| L_q_store b m v : sem_step (Linux b) m (QStore v) (set_is m v) (Ret v)
  (* Darwin, :436-454: compare and exchange; signal if it succeeded; load. *)
| D_r_won m : is m = pending -> sem_step Darwin m RStart (set_is m released) RSignal
| D_r_lost m : is m <> pending -> sem_step Darwin m RStart m (Ret released)
| D_r_signal m : sem_step Darwin m RSignal (signalled m) (Ret released)
| D_q m : sem_step Darwin m QStart m (Ret (is m))
  (* elsewhere, :460-462: store; load. *)
| O_r m : sem_step Other m RStart (set_is m released) (Ret released)
| O_q m : sem_step Other m QStart m (Ret (is m)).

(** ** Any number of threads, each doing any sequence of calls *)
Inductive call := Release | Query.
Definition entry_of (c : call) : pc := match c with Release => RStart | Query => QStart end.

(** A thread: what it is doing, if anything, and the calls still to come (the
    one it is in included). *)
Record thread := Thread { doing : option pc; todo : list call }.

(** An answer: which call, what it returned. *)
Definition answer := (call * sst)%type.

Record sworld := SW { shared : sem; threads : list thread; answers : list answer }.

(** One step of one thread: begin a call, go on, return. *)
Inductive tstep (pl : platform) : sem -> thread -> sem -> thread -> list answer -> Prop :=
| T_call m c cs : tstep pl m (Thread None (c :: cs)) m (Thread (Some (entry_of c)) (c :: cs)) []
| T_move m p m' p' cs : sem_step pl m p m' p' ->
    tstep pl m (Thread (Some p) cs) m' (Thread (Some p') cs) []
| T_ret m v c cs : tstep pl m (Thread (Some (Ret v)) (c :: cs)) m (Thread None cs) [(c, v)].

Inductive sstep (pl : platform) : sworld -> sworld -> Prop :=
| S_step m ts1 t ts2 m' t' an ans : tstep pl m t m' t' an ->
    sstep pl (SW m (ts1 ++ t :: ts2) ans) (SW m' (ts1 ++ t' :: ts2) (ans ++ an)).

Inductive sreach (pl : platform) : sworld -> sworld -> Prop :=
| SR_refl w : sreach pl w w
| SR_step w w' w'' : sreach pl w w' -> sstep pl w' w'' -> sreach pl w w''.

(** Threads about to do the given calls, nothing released yet. *)
Definition sem_start (cs : list (list call)) : sworld :=
  SW sem_new (map (fun c => Thread None c) cs) [].

(** Model of close() of the Python class Watch, watcher-py/watcher/watcher.py:183-190 (and __exit__,
    __del__, which call it, :192-202), called by several threads, and of the wtr_watcher_close it calls,
    watcher-c/src/watcher-c.cpp:69-75: closing and, if that returned true, deleting the watch, whose
    destructor closes again (include/wtr/watcher.hpp:2280).  The native call is made without the lock of
    the interpreter (ctypes.CDLL), so other threads go on meanwhile; they may also go on between any two
    readings and writings of [_watcher].

    Simplifications: those of [ManyModel]; the callback does not close its watcher. *)
From Verif Require Import Base EventModel SemabinModel WatchModel ManyModel.

Inductive ppc :=
| PIdle                     (* not in close() *)
| PTested                   (* [_watcher] was true, :188; it is read again as the argument, :189 *)
| PClose (t : cpc)          (* in wtr_watcher_close: in close(), watcher-c.cpp:72 *)
| PDelete (t : cpc)         (* in delete, :73: in the destructor's close() *)
| PSet.                     (* about to set [_watcher] to None, :190 *)

(** [p_alive]: the watch is not deleted.  [p_attr]: [_watcher] is not None.  [p_calls]: how often
    wtr_watcher_close was called with the watch.  [p_deletes]: how often it was deleted. *)
Record pworld := PWorld { p_sem : sem; p_watch : wpc; p_threads : list ppc; p_valid : bool; p_log : list entry;
  p_alive : bool; p_attr : bool; p_calls : nat; p_deletes : nat }.

(** Where the thread is in close() of the class watch. *)
Definition in_watch (t : ppc) : cpc := match t with PClose t | PDelete t => t | _ => CIdle end.

Section PyMany.
  Variable pl : platform.
  Variable runs : text -> list act -> option bool -> Prop.

  (** A step of a thread within Python or between the calls. *)
  Inductive py_step (alive attr : bool) (calls dels : nat) : ppc -> ppc -> bool -> bool -> nat -> nat -> Prop :=
  | P_none : attr = false -> py_step alive attr calls dels PIdle PIdle alive attr calls dels
  | P_some : attr = true -> py_step alive attr calls dels PIdle PTested alive attr calls dels
  | P_null : attr = false -> py_step alive attr calls dels PTested PSet alive attr calls dels
  | P_call : attr = true -> py_step alive attr calls dels PTested (PClose CIdle) alive attr (S calls) dels
  | P_set : py_step alive attr calls dels PSet PIdle alive false calls dels.

  (** A step within the native call: as in [ManyModel]; what follows a return of close() is told by
      what it returned. *)
  Inductive native_step (w : wpc) (m : sem) (dels : nat) : bool -> ppc -> sem -> bool -> ppc -> list entry -> bool -> nat -> Prop :=
  | N_close vd t m' vd' t' l : c_step pl w m vd t m' vd' t' l -> (forall v b, t <> CRet v b) ->
      native_step w m dels vd (PClose t) m' vd' (PClose t') l true dels
  | N_refused vd v : native_step w m dels vd (PClose (CRet v false)) m vd PSet [LClosed v false] true dels
  | N_closed vd v : native_step w m dels vd (PClose (CRet v true)) m vd (PDelete CIdle) [LClosed v true] true dels
  | N_delete vd t m' vd' t' l : c_step pl w m vd t m' vd' t' l -> (forall v b, t <> CRet v b) ->
      native_step w m dels vd (PDelete t) m' vd' (PDelete t') l true dels
  | N_deleted vd v b : native_step w m dels vd (PDelete (CRet v b)) m vd PSet [LClosed v b] false (S dels).

  (** [alone]: a thread calls close() only when no other is in it. *)
  Variable alone : bool.
  Inductive p_step : pworld -> pworld -> Prop :=
  | PS_watch m w ts vd l al at_ c d m' w' l' : w_step pl runs false vd m w m' w' l' ->
      p_step (PWorld m w ts vd l al at_ c d) (PWorld m' w' ts vd (l ++ l') al at_ c d)
  | PS_python m w ts1 t ts2 vd l al at_ c d t' al' at' c' d' :
      (alone = true -> t = PIdle -> Forall (eq PIdle) (ts1 ++ ts2)) ->
      py_step al at_ c d t t' al' at' c' d' ->
      p_step (PWorld m w (ts1 ++ t :: ts2) vd l al at_ c d) (PWorld m w (ts1 ++ t' :: ts2) vd l al' at' c' d')
  | PS_native m w ts1 t ts2 vd l at_ c d m' t' vd' l' al' d' :
      native_step w m d vd t m' vd' t' l' al' d' ->
      p_step (PWorld m w (ts1 ++ t :: ts2) vd l true at_ c d) (PWorld m' w (ts1 ++ t' :: ts2) vd' (l ++ l') al' at_ c d').
  Inductive p_reach : pworld -> pworld -> Prop :=
  | PReach0 w : p_reach w w
  | PReach1 w w' w'' : p_reach w w' -> p_step w' w'' -> p_reach w w''.
End PyMany.

(** [n] threads, right after [__init__]. *)
Definition p_constructed (n : nat) : pworld := PWorld sem_new WStart (repeat PIdle n) true [] true true 0 0.

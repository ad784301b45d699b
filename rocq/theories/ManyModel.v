(** Model of close() called by several threads on one object of class watch,
    include/wtr/watcher.hpp:2274-2278, around the watching thread of [WatchModel].  Each call is release()
    (step by step, [SemabinModel]), the call of watching.valid() and the call of watching.get().

    Simplifications: those of [WatchModel]; the callback calls no close() here, and the object is not
    destroyed. *)
From Verif Require Import Base EventModel SemabinModel WatchModel.

(** Where a thread is. *)
Inductive cpc :=
| CIdle                      (* not in close() *)
| CRelease (p : pc)          (* in release(), :2276 *)
| CValid (v : sst)           (* in watching.valid(), :2277 *)
| CGet (v : sst)             (* in watching.get(), :2277 *)
| CRet (v : sst) (b : bool). (* about to return [b] *)

Record mworld := MWorld { m_sem : sem; m_watch : wpc; m_threads : list cpc; m_valid : bool; m_log : list entry }.

Section Many.
  Variable pl : platform.
  Variable runs : text -> list act -> option bool -> Prop.

  (** One step of a thread.  get() waits until the watching thread is done, returns its result and
      leaves the future without a state (std::future); without a state it is undefined, so no step. *)
  Inductive c_step (w : wpc) (m : sem) : bool -> cpc -> sem -> bool -> cpc -> list entry -> Prop :=
  | C_begin vd : c_step w m vd CIdle m vd (CRelease RStart) [LRequest]
  | C_release vd p m' p' : sem_step pl m p m' p' -> c_step w m vd (CRelease p) m' vd (CRelease p') []
  | C_error vd : c_step w m vd (CRelease (Ret error)) m vd (CRet error false) [LReleased error]
  | C_valid vd v : v <> error -> c_step w m vd (CRelease (Ret v)) m vd (CValid v) [LReleased v]
  | C_has v : c_step w m true (CValid v) m true (CGet v) []
  | C_has_not v : c_step w m false (CValid v) m false (CRet v false) []
  | C_got v b : w = WDone b -> c_step w m true (CGet v) m false (CRet v b) []
  | C_closed vd v b : c_step w m vd (CRet v b) m vd CIdle [LClosed v b].

  (** [alone]: a thread calls close() only when no other is in it (it holds a lock, say). *)
  Variable alone : bool.
  Inductive m_step : mworld -> mworld -> Prop :=
  | MS_watch m w ts vd l m' w' l' : w_step pl runs false vd m w m' w' l' ->
      m_step (MWorld m w ts vd l) (MWorld m' w' ts vd (l ++ l'))
  | MS_thread m w ts1 t ts2 vd l m' t' vd' l' :
      (alone = true -> t = CIdle -> Forall (eq CIdle) (ts1 ++ ts2)) ->
      c_step w m vd t m' vd' t' l' ->
      m_step (MWorld m w (ts1 ++ t :: ts2) vd l) (MWorld m' w (ts1 ++ t' :: ts2) vd' (l ++ l')).
  Inductive m_reach : mworld -> mworld -> Prop :=
  | MReach0 w : m_reach w w
  | MReach1 w w' w'' : m_reach w w' -> m_step w' w'' -> m_reach w w''.
End Many.

(** [n] threads, right after construction. *)
Definition m_constructed (n : nat) : mworld := MWorld sem_new WStart (repeat CIdle n) true [].

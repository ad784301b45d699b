(** Model of class watch, include/wtr/watcher.hpp:2239-2282: the watching thread
    (the lambda given to std::async), the stop flag and the thread that owns the
    object, interleaved step by step.

    Simplifications: std::async is taken to succeed; callbacks return and do not
    throw; one thread at a time calls close() and the destructor (std::future
    allows no more).  The adapter is represented by the set of its possible runs
    ([runs]); see [linux_runs] below for the Linux one. *)
From Verif Require Import Base EventModel SemabinModel.

(** What an adapter does, as far as this class can tell: call the callback, see
    the stop signal, anything else. *)
Inductive act := ACb (e : event) | AStop | AOther.

(** The watching thread. *)
Inductive wpc :=
| WStart                                              (* before :2250 *)
| WCheck (abs : text) (p : pc)                        (* in living.state(), :2257 *)
| WLive (abs : text) (pre : bool)                     (* before the callback of :2260 *)
| WAdapt (abs : text)                                 (* before the adapter's watch, :2264 *)
| WRun (abs : text) (todo : list act) (r : option bool)  (* in it; [None]: a run that does not end *)
| WDie (abs : text) (pre post : bool)                 (* before the callback of :2267 *)
| WDone (b : bool)                                    (* the future is ready, :2271 *)
| WIn (k : wpc)                                       (* in a callback; [k] comes next *)
| WSelf (k : wpc) (p : pc)                            (* in a close() called by the callback: release() *)
| WSelfWait (k : wpc).                                (* the same: get() *)

(** The owner. *)
Inductive opc :=
| OIdle                                               (* between calls *)
| OClose (dtor : bool) (p : pc)                       (* in close(): release(), :2276 *)
| OWait (dtor : bool) (v : sst)                       (* in close(): get(), :2277 *)
| ORet (dtor : bool) (v : sst) (b : bool)             (* about to return [b]; release() said [v] *)
| OFuture                                             (* in the destructor of [watching], :2243 *)
| OGone.                                              (* destroyed *)

(** The log of what happens. *)
Inductive entry :=
| LLook (a : option text) (d : option bool)  (* absolute() and is_directory(): [None] is an error *)
| LCheck (v : sst)                           (* the answer of living.state() *)
| LCb (e : event)                            (* the callback is called *)
| LWatch (abs : text)                        (* the adapter is called *)
| LStop                                      (* the adapter sees the stop signal *)
| LRequest                                   (* close() or the destructor begins *)
| LReleased (v : sst)                        (* its release() answered *)
| LClosed (v : sst) (b : bool)               (* close() returned [b], its release() having answered [v] *)
| LGone.                                     (* the destructor has finished *)

Record world := World { sm : sem; wt : wpc; ow : opc; valid : bool; log : list entry }.

(** The messages, :2258-2263 and :2265-2270. *)
Definition live_event (pre : bool) (abs : text) (t : Z) : event :=
  Ev ((if pre then lit "s/self/live@" else lit "e/self/live@") ++ abs) EtCreate PtWatcher t None.
Definition die_event (post : bool) (abs : text) (t : Z) : event :=
  Ev ((if post then lit "s/self/die@" else lit "e/self/die@") ++ abs) EtDestroy PtWatcher t None.

(** When an adapter can see the stop: Linux, the eventfd is readable; Darwin
    (wait, :708-714), state() is not pending or dispatch_semaphore_wait returns;
    elsewhere, state() is not pending. *)
Definition stop_visible (pl : platform) (m : sem) : Prop :=
  match pl with
  | Linux _ => (0 < tokens m)%nat
  | Darwin => is m = released \/ (0 < tokens m)%nat
  | Other => is m = released
  end.

Section Step.
  Variable pl : platform.
  (** The runs of the adapter for a path: its actions and what it returns. *)
  Variable runs : text -> list act -> option bool -> Prop.
  (** May the callback call close()? *)
  Variable reentrant : bool.

  (** One step of the watching thread: new flag, new place, log entries.  [valid]
      is given. *)
  Inductive w_step (vd : bool) (m : sem) : wpc -> sem -> wpc -> list entry -> Prop :=
  | W_bad a d : ~ (exists abs, a = Some abs /\ d = Some true) ->
      w_step vd m WStart m (WLive (match a with Some x => x | None => [] end) false) [LLook a d]
  | W_good abs : w_step vd m WStart m (WCheck abs QStart) [LLook (Some abs) (Some true)]
  | W_check abs p m' p' : sem_step pl m p m' p' -> w_step vd m (WCheck abs p) m' (WCheck abs p') []
  | W_checked abs v : w_step vd m (WCheck abs (Ret v)) m (WLive abs (match v with pending => true | _ => false end)) [LCheck v]
  | W_live abs pre t : w_step vd m (WLive abs pre) m
      (WIn (if pre then WAdapt abs else WDie abs false false)) [LCb (live_event pre abs t)]
  | W_adapt abs st r : runs abs st r -> w_step vd m (WAdapt abs) m (WRun abs st r) [LWatch abs]
  | W_cb abs e st r : w_step vd m (WRun abs (ACb e :: st) r) m (WIn (WRun abs st r)) [LCb e]
  | W_stop abs st r : stop_visible pl m -> w_step vd m (WRun abs (AStop :: st) r) m (WRun abs st r) [LStop]
  | W_other abs st r : w_step vd m (WRun abs (AOther :: st) r) m (WRun abs st r) []
  | W_ended abs b : w_step vd m (WRun abs [] (Some b)) m (WDie abs true b) []
  | W_die abs pre post t : w_step vd m (WDie abs pre post) m (WIn (WDone (pre && post))) [LCb (die_event post abs t)]
  | W_return k : w_step vd m (WIn k) m k []
    (* close() inside the callback *)
  | W_self k : reentrant = true -> w_step vd m (WIn k) m (WSelf k RStart) [LRequest]
  | W_self_rel k p m' p' : sem_step pl m p m' p' -> w_step vd m (WSelf k p) m' (WSelf k p') []
  | W_self_wait k v : v <> error -> vd = true -> w_step vd m (WSelf k (Ret v)) m (WSelfWait k) [LReleased v]
  | W_self_false k v : v = error \/ vd = false -> w_step vd m (WSelf k (Ret v)) m (WIn k) [LClosed v false].

  (** One step of the owner.  [w] is where the watching thread is. *)
  Inductive o_step (w : wpc) (m : sem) : bool -> opc -> sem -> bool -> opc -> list entry -> Prop :=
  | O_begin vd dtor : o_step w m vd OIdle m vd (OClose dtor RStart) [LRequest]
  | O_release vd dtor p m' p' : sem_step pl m p m' p' -> o_step w m vd (OClose dtor p) m' vd (OClose dtor p') []
  | O_wait dtor v : v <> error -> o_step w m true (OClose dtor (Ret v)) m true (OWait dtor v) [LReleased v]
  | O_false vd dtor v : v = error \/ vd = false -> o_step w m vd (OClose dtor (Ret v)) m vd (ORet dtor v false) [LReleased v]
  | O_get vd dtor v b : w = WDone b -> o_step w m vd (OWait dtor v) m false (ORet dtor v b) []
  | O_closed vd v b : o_step w m vd (ORet false v b) m vd OIdle [LClosed v b]
    (* after the destructor's close() the members are destroyed: a future that is
       still valid waits for the thread *)
  | O_dtor vd v b : o_step w m vd (ORet true v b) m vd OFuture [LClosed v b]
  | O_future vd : vd = false \/ (exists b, w = WDone b) -> o_step w m vd OFuture m vd OGone [LGone].

  Inductive step : world -> world -> Prop :=
  | SW_watch m w o vd l m' w' l' : w_step vd m w m' w' l' ->
      step (World m w o vd l) (World m' w' o vd (l ++ l'))
  | SW_owner m w o vd l m' o' vd' l' : o_step w m vd o m' vd' o' l' ->
      step (World m w o vd l) (World m' w o' vd' (l ++ l')).

  Inductive reach : world -> world -> Prop :=
  | Reach0 w : reach w w
  | Reach1 w w' w'' : reach w w' -> step w' w'' -> reach w w''.

  (** Right after construction. *)
  Definition constructed : world := World sem_new WStart OIdle true [].
End Step.

(** Independent specification for the watch class (C01-C08): predicates on the
    log of a watcher's life. *)
From Verif Require Import Base EventModel SemabinModel WatchModel.

(** The events the callback received, in order. *)
Fixpoint received (l : list entry) : list event :=
  match l with [] => [] | LCb e :: l' => e :: received l' | _ :: l' => received l' end.

(** The messages of a watcher about its life. *)
Definition life_event (txt : string) (eff : effect_type) (abs : text) (e : event) : Prop :=
  ev_path e = lit txt ++ abs /\ ev_effect e = eff /\ ev_ptype e = PtWatcher /\ ev_assoc e = None.
Definition live_ok := life_event "s/self/live@" EtCreate.
Definition live_bad := life_event "e/self/live@" EtCreate.
Definition die_ok := life_event "s/self/die@" EtDestroy.
Definition die_bad := life_event "e/self/die@" EtDestroy.

(** An event that is neither creation nor destruction of a watcher. *)
Definition ordinary (e : event) : Prop :=
  ev_ptype e = PtWatcher -> ev_effect e <> EtCreate /\ ev_effect e <> EtDestroy.

(** The watching thread has finished. *)
Definition ended (w : world) : Prop := exists b, wt w = WDone b.

(** What is required of an adapter: it does not speak of watchers' creation or
    destruction; it returns true only after it saw the stop signal. *)
Record adapter_ok (runs : text -> list act -> option bool -> Prop) : Prop := {
  ao_quiet : forall abs st r e, runs abs st r -> In (ACb e) st -> ordinary e;
  ao_stop : forall abs st, runs abs st (Some true) -> In AStop st;
}.

(** For C08: every run of the adapter ends (once it has seen the stop signal). *)
Record adapter_ends (runs : text -> list act -> option bool -> Prop) : Prop := {
  ae_some : forall abs, exists st r, runs abs st r;
  ae_ends : forall abs st r, runs abs st r -> r <> None;
}.

(** The path was found to be a directory and no stop was visible (C02). *)
Definition accepted (abs : text) (l : list entry) : Prop :=
  In (LLook (Some abs) (Some true)) l /\ In (LCheck pending) l /\
  (forall v, In (LCheck v) l -> v = pending) /\
  (forall a d, In (LLook a d) l -> a = Some abs /\ d = Some true).
(** The path was not found to be a directory, or a stop was visible; nothing is
    watched. *)
Definition rejected (l : list entry) : Prop :=
  (forall p, ~ In (LWatch p) l) /\
  ((exists a d, In (LLook a d) l /\ ~ (exists x, a = Some x /\ d = Some true)) \/
   (exists v, In (LCheck v) l /\ v <> pending)).

(** [P] inevitably becomes true: as long as it is not, something can happen,
    and whatever happens leads on to it. *)
Inductive inevitable (step : world -> world -> Prop) (P : world -> Prop) (w : world) : Prop :=
| Now : P w -> inevitable step P w
| Later : (exists w', step w w') -> (forall w', step w w' -> inevitable step P w') -> inevitable step P w.

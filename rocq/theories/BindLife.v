(** Model of what the bindings hand to the watching thread, and of the Rust stream;
    beside the watcher of [WatchModel] (whose log this reads). *)
From Verif Require Import Base EventModel SemabinModel WatchModel BindModel.

(** The context: what the C callback uses.  Node, watcher-napi.cpp:70-88: the
    wrapper with the thread-safe function; Rust, lib.rs:104-108: the boxed sender;
    Python, watcher.py:166-173: the ctypes callback.  It is given back after the
    last call of the C close: Node :110-117 (after its only one), Rust (the fields
    are dropped after [drop], :147-151), Python (with the object, after [__del__]).
    [left]: how many closes still come; a close of the class that [delete] makes
    counts as one, which gives the context back earlier than the code does. *)
Fixpoint ctx_uses (left : nat) (l : list entry) : out unit :=
  match l with
  | [] => Ok tt
  | LCb _ :: l' => match left with O => Undef UseAfterFree | S _ => ctx_uses left l' end
  | LClosed _ _ :: l' => ctx_uses (pred left) l'
  | _ :: l' => ctx_uses left l'
  end.

(** The Rust stream.  fwd_ev, lib.rs:104-108, sends into an unbounded channel;
    poll_next, :138-144, receives.  The channel (futures::channel::mpsc): a message,
    or the end if there are none and no sender is left, or to be polled again.  The
    sender and the receiver are fields of the same object (:111-115), so whenever
    the stream can be polled there is a sender. *)
Inductive polled := PItem (e : bevent) | PEnd | PPending.
Definition poll (senders : nat) (q : list bevent) : polled * list bevent :=
  match q with
  | e :: q' => (PItem e, q')
  | [] => (match senders with O => PEnd | S _ => PPending end, [])
  end.
(** What happens: an entry of the watcher's log, or a poll. *)
Inductive rmove := RLog (x : entry) | RPoll.
Definition rust_senders : nat := 1.
Fixpoint rust_stream (q : list bevent) (ms : list rmove) : list polled * list bevent :=
  match ms with
  | [] => ([], q)
  | RLog (LCb e) :: ms' => rust_stream (q ++ [rust_event (view_of e)]) ms'
  | RLog _ :: ms' => rust_stream q ms'
  | RPoll :: ms' => let (a, q') := poll rust_senders q in let (l, q'') := rust_stream q' ms' in (a :: l, q'')
  end.

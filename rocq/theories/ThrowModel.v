(** Model of a callback that throws, include/wtr/watcher.hpp:2246-2281, on top of
    [WatchModel].  The exception leaves the callback; from the live and die messages
    it leaves the function given to std::async at once.  From within the adapter: on
    Linux it passes through (no noexcept on the way, :1644-1725); on Windows and in
    the fallback the adapter is noexcept (:1944, :2164), and on Darwin the callback
    runs on a thread of the system's; there the program ends.  What has left the
    function is stored in the future; get() throws it again, in close(), which is
    noexcept (:2275), so that the program ends.  Destroying the future does not
    throw. *)
From Verif Require Import Base EventModel SemabinModel WatchModel.

(** [XW w thrown]; [XDead l]: std::terminate, after [l]. *)
Inductive xworld := XW (w : world) (thrown : bool) | XDead (l : list entry).

Section Throw.
  Variable pl : platform.
  Variable runs : text -> list act -> option bool -> Prop.
  Variable re : bool.
  (** Does an exception pass through the adapter? *)
  Definition passes : bool := match pl with Linux _ => true | _ => false end.
  Definition in_adapter (k : wpc) : bool := match k with WRun _ _ _ => true | _ => false end.
  Inductive xstep : xworld -> xworld -> Prop :=
  | X_usual w w' : step pl runs re w w' -> xstep (XW w false) (XW w' false)
  | X_throw m k o vd l : passes = true \/ in_adapter k = false ->
      xstep (XW (World m (WIn k) o vd l) false) (XW (World m (WIn k) o vd l) true)
  | X_through m k o vd l : passes = false -> in_adapter k = true ->
      xstep (XW (World m (WIn k) o vd l) false) (XDead l)
    (* the watching thread is gone; the owner goes on *)
  | X_owner m k o vd l m' vd' o' l' : o_step pl (WIn k) m vd o m' vd' o' l' ->
      xstep (XW (World m (WIn k) o vd l) true) (XW (World m' (WIn k) o' vd' (l ++ l')) true)
  | X_get m k dtor v vd l : xstep (XW (World m (WIn k) (OWait dtor v) vd l) true) (XDead l)
  | X_future m k l : xstep (XW (World m (WIn k) OFuture true l) true) (XW (World m (WIn k) OGone true (l ++ [LGone])) true).
  Inductive xreach : xworld -> xworld -> Prop :=
  | XR0 x : xreach x x
  | XR1 x y z : xreach x y -> xstep y z -> xreach x z.
End Throw.

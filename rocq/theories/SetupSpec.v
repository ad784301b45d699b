(** Specification for C75 and C76, in terms of the calls a watcher makes. *)
From Verif Require Import Base EventModel Sys.

(** A call without which the adapter cannot work failed; the message's beginning. *)
Definition broken (x : obs) : option string :=
  match x with
  | OInotifyInit fd => if (fd <? 0)%Z then Some "e/sys/api/inotify@"%string else None
  | OEpollCreate fd => if (fd <? 0)%Z then Some "e/sys/api/epoll@"%string else None
  | OEpollCtl _ _ rc => if (rc <? 0)%Z then Some "e/sys/api/epoll@"%string else None
  | _ => None
  end.
(** No directory was marked by this call. *)
Definition no_mark (x : obs) : Prop := match x with OAddWatch _ _ _ wd => (wd <= 0)%Z | _ => True end.
(** Nor by this one, if it is fanotify's. *)
Definition no_fan_mark (x : obs) : Prop := match x with OFanMark _ _ _ rc => rc <> 0%Z | _ => True end.

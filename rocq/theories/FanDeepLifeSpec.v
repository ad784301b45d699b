(** What C148 and C149 say about the fanotify adapter in a watcher's life, in the environment of
    [FanDeepSpec]. *)
From Verif Require Import Base EventModel Sys FanotifySpec FanDeepSpec.

(** The stop descriptor [il] is another one; a wait that succeeds while records are waiting says so
    (at most 64 answers are asked for); reads take all the records that fit. *)
Record deep_honest (e : genv) (il : Z) : Prop := {
  dh_stop : ge_fd e <> il;
  dh_wait : forall tr ep fds, os_epoll_wait (ge_base e (gat_call e tr)) tr ep = Some fds -> gw_queue (gat_call e tr) <> [] -> In (ge_fd e) (firstn 64 fds);
  dh_read : forall tr, (256 <= ge_want e tr)%nat }.
(** How many bytes of records are waiting. *)
Definition deep_waiting (w : gworld) : nat := length (fencode (gw_queue w)).

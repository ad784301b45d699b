(** What C113 and C114 say about the fanotify adapter in a watcher's life, in the environment of
    [FanWorldSpec]. *)
From Verif Require Import Base EventModel Sys FanotifySpec FanWorldSpec.

(** The stop descriptor [il] is another one; a wait that succeeds while records are waiting says so
    (at most 64 answers are asked for); reads take all the records that fit. *)
Record fan_honest (e : fenv) (il : Z) : Prop := {
  fh_stop : fe_fd e <> il;
  fh_wait : forall tr ep fds, os_epoll_wait (fe_base e (at_call e tr)) tr ep = Some fds -> fw_queue (at_call e tr) <> [] -> In (fe_fd e) (firstn 64 fds);
  fh_read : forall tr, (256 <= fe_want e tr)%nat }.
(** How many bytes of records are waiting. *)
Definition fan_waiting (w : fworld) : nat := length (fencode (map Chg (fw_queue w))).

(** Words for C131 and C132: waits that tell the truth, on the systems of [DeepSpec]. *)
From Verif Require Import Base EventModel Sys InotifySpec KernelSpec DeepSpec.

(** The stop descriptor [il] is another one; a wait that succeeds while records are waiting
    says so (at most 64 answers are asked for); reads take all the records that fit. *)
Record dhonest (e : denv) (il : Z) : Prop := {
  dh_stop : de_fd e <> il;
  dh_wait : forall tr ep fds, os_epoll_wait (de_base e (dat_call e tr)) tr ep = Some fds -> dk_queue (dat_call e tr) <> [] -> In (de_fd e) (firstn 64 fds);
  dh_read : forall tr, (256 <= de_want e tr)%nat }.
(** How many bytes of records are waiting. *)
Definition dwaiting (k : dkern) : nat := length (encode (map fst (dk_queue k))).
(** The filesystem events and warnings of gaps among these; [news] of a run is that of its callbacks. *)
Definition news_in (l : list event) : list shape := filter is_news (map shape_of l).

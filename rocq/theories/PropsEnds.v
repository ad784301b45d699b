(** Theorem C65: what an interrupted wait does to the Linux watcher. *)
From Verif Require Import Base PathModel EventModel Sys LinuxModel InotifyModel FanotifyModel LinuxWatch
  LinuxSpec LinuxEnds InotifySpec ExampleOs.

Fixpoint takewhile (o : trace) : trace :=
  match o with OEpollWait _ None :: _ | [] => [] | x :: o' => x :: takewhile o' end.

(** [OEpollWait ep None] is an epoll_wait that failed, for whatever reason, EINTR
    among them (the code does not look at errno).  Such a wait ends
    the watcher, at once, with the message "e/sys/api/epoll" and a failure, under
    either system interface; so no change that comes later is reported.  The
    property, that a signal changes nothing, is refuted by every run in which one
    interrupts a wait, and there are such runs: here one with an event before. *)
Theorem C65_interrupted_waits_end_it_refuted :
  (forall s fuel path il tr o1 ep o2 b,
     linux_watch s fuel path il tr = (o1 ++ OEpollWait ep None :: o2, Ok b) ->
     b = false /\ exists c1 c2 t, o2 = [OClose c1; OClose c2; ONow t;
       OCallback (Ev (lit "e/sys/api/epoll@" ++ path) EtOther PtWatcher t None)]) /\
  (exists s fuel ep o1 o2 e, linux_watch s fuel (lit "/w") 5 [] = (o1 ++ OEpollWait ep None :: o2, Ok false) /\
     In (OCallback e) o1 /\ ev_ptype e <> PtWatcher) /\
  (exists s fuel ep o1 o2, linux_watch s fuel (lit "/w") 5 [] = (o1 ++ OEpollWait ep None :: o2, Ok false) /\ In (OGeteuid 0) o1).
Proof.
  split; [|split].
  - intros s fuel path il tr o1 ep o2 b H. exact (linux_failed s fuel path il tr o1 _ o2 b H I).
  - set (s1 := scripted 1000 tree_w [Some [3%Z]; None] [gives (encode [kr 1 KModify false 0 "x"])]).
    exists s1, 10%nat, 4%Z.
    set (r := linux_watch s1 _ _ _ _). set (n := length (takewhile (fst r))).
    destruct (find (fun x => match x with OCallback _ => true | _ => false end) (fst r)) as [[]|] eqn:E; try (vm_compute in E; discriminate).
    match type of E with _ = Some (OCallback ?x) => exists (firstn n (fst r)), (skipn (S n) (fst r)), x end.
    vm_compute in E. injection E as <-. split; [vm_compute; reflexivity|]. split; [vm_compute; auto 30|discriminate].
  - exists (scripted 0 tree_w [None] []), 10%nat, 4%Z.
    set (r := linux_watch _ _ _ _ _). set (n := length (takewhile (fst r))).
    exists (firstn n (fst r)), (skipn (S n) (fst r)). split; [vm_compute; reflexivity|]. vm_compute. auto 30.
Qed.
Print Assumptions C65_interrupted_waits_end_it_refuted.

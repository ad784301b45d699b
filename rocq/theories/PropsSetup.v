(** Theorems C75 and C76: failures while the Linux watcher sets itself up. *)
From Verif Require Import Base PathModel EventModel Sys LinuxModel InotifyModel FanotifyModel LinuxWatch
  LinuxSpec SetupSpec LinuxProps LinuxSetup InotifySpec ExampleOs.

(** If a call without which it cannot work fails, the watcher does not wait for
    anything, its last callback names the interface and the path, and it fails. *)
Theorem C75_setup_failures_are_fatal : forall s fuel path il tr o b,
  linux_watch s fuel path il tr = (o, Ok b) -> forall x m, In x o -> broken x = Some m ->
  b = false /\ Forall no_wait o /\
  exists o' t, o = o' ++ [ONow t; OCallback (Ev (lit m ++ path) EtOther PtWatcher t None)].
Proof. exact linux_broken. Qed.
Print Assumptions C75_setup_failures_are_fatal.

(** [with_fails s a b c d]: [s], but with these answers to inotify_init,
    epoll_create, epoll_ctl and fanotify_mark. *)
Definition with_fails (s : os) (ini epc ctl fm : Z) : os := {|
  os_now := os_now s; os_geteuid := os_geteuid s; os_realpath := os_realpath s; os_is_dir := os_is_dir s; os_opendir := os_opendir s;
  os_inotify_init := fun _ => ini; os_add_watch := os_add_watch s; os_fan_init := os_fan_init s; os_fan_mark := fun _ _ _ _ => fm;
  os_epoll_create := fun _ => epc; os_epoll_ctl := fun _ _ _ => ctl; os_epoll_wait := os_epoll_wait s; os_read := os_read s;
  os_open_handle := os_open_handle s; os_readlink := os_readlink s |}.
(** One run for each of the three failures; in the last two, directories had been marked. *)
Example C75_case :
  let run s := linux_watch s 10 (lit "/w") 5 [] in let s uid := scripted uid tree_w [Some [3%Z]] [] in
  (exists x, In x (fst (run (with_fails (s 1000%Z) (-1) 4 0 0))) /\ broken x = Some "e/sys/api/inotify@"%string) /\
  (exists x, In x (fst (run (with_fails (s 1000%Z) 3 (-1) 0 0))) /\ broken x = Some "e/sys/api/epoll@"%string) /\
  (exists x, In x (fst (run (with_fails (s 0%Z) 3 4 (-1) 0))) /\ broken x = Some "e/sys/api/epoll@"%string) /\
  snd (run (with_fails (s 1000%Z) (-1) 4 0 0)) = Ok false /\ snd (run (with_fails (s 1000%Z) 3 (-1) 0 0)) = Ok false /\
  snd (run (with_fails (s 0%Z) 3 4 (-1) 0)) = Ok false.
Proof.
  cbv zeta. repeat split; try (vm_compute; reflexivity).
  - exists (OInotifyInit (-1)). split; [vm_compute; auto 20|reflexivity].
  - exists (OEpollCreate (-1)). split; [vm_compute; auto 20|reflexivity].
  - exists (OEpollCtl 4 3 (-1)). split; [vm_compute; auto 20|reflexivity].
Qed.

(** If inotify could be set up but marked no directory, the watcher does not wait,
    its last callback says that the path is not there, and it fails; hence a
    watcher which waits under inotify had marked a directory.  Under fanotify
    this is not so (second part): the watcher waits, on a descriptor for which
    nothing will ever come, and when stopped says that it succeeded. *)
Theorem C76_nothing_marked_is_told_partial :
  (forall s fuel path il tr o b fd,
     linux_watch s fuel path il tr = (o, Ok b) -> In (OInotifyInit fd) o -> (0 <= fd)%Z -> Forall no_mark o ->
     b = false /\ Forall no_wait o /\
     exists o' t, o = o' ++ [ONow t; OCallback (Ev (lit "e/self/noent@" ++ path) EtOther PtWatcher t None)]) /\
  (exists s fuel o ep, linux_watch s fuel (lit "/w") 5 [] = (o, Ok true) /\
     Forall no_mark o /\ Forall no_fan_mark o /\ In (OEpollWait ep (Some [])) o /\ In (OEpollWait ep (Some [5%Z])) o).
Proof.
  split; [exact linux_empty|].
  exists (with_fails (scripted 0 tree_w [Some []] []) 3 4 0 (-1)), 10%nat.
  set (r := linux_watch _ _ _ _ _). exists (fst r), 4%Z.
  split; [vm_compute; reflexivity|]. split; [vm_compute; repeat constructor|]. split; [vm_compute; repeat constructor; discriminate|].
  split; vm_compute; auto 40.
Qed.
Print Assumptions C76_nothing_marked_is_told_partial.
(** There are such runs of inotify: nothing at the path. *)
Example C76_case : let r := linux_watch (scripted 1000 [] [] []) 10 (lit "/w") 5 [] in
  snd r = Ok false /\ In (OInotifyInit 3) (fst r) /\ Forall no_mark (fst r).
Proof. cbv zeta. split; [vm_compute; reflexivity|]. split; [vm_compute; auto 20|vm_compute; repeat constructor]. Qed.
(** Under fanotify it is so whatever could be marked: set up with descriptors other than 0, it waits. *)
Theorem C76_fanotify_waits_whatever_it_marked_refuted :
  forall s fuel path il tr o b fd,
    linux_watch s fuel path il tr = (o, Ok b) -> In (OFanInit fd) o -> (1 <= fd)%Z ->
    (forall x, In x o -> broken x = None) -> (forall e, In (OEpollCreate e) o -> (1 <= e)%Z) ->
    exists ep r, In (OEpollWait ep r) o.
Proof. exact linux_fan_waits. Qed.
Print Assumptions C76_fanotify_waits_whatever_it_marked_refuted.
(** Such a run, in which there is nothing at the path. *)
Definition no_files : os := scripted 0 [] [Some []] [].
Example C76_fanotify_case : let r := linux_watch no_files 10 (lit "/w") 5 [] in
  snd r = Ok true /\ In (OFanInit 3) (fst r) /\ forallb (fun x => match broken x with None => true | _ => false end) (fst r) = true /\
  Forall no_mark (fst r) /\ Forall no_fan_mark (fst r) /\ (forall e, In (OEpollCreate e) (fst r) -> e = 4%Z).
Proof.
  cbv zeta. split; [vm_compute; reflexivity|]. split; [vm_compute; auto 20|]. split; [vm_compute; reflexivity|]. split; [vm_compute; repeat constructor|].
  split; [vm_compute; repeat constructor; discriminate|]. intros e H. vm_compute in H. decompose [or] H; try discriminate; try contradiction; congruence.
Qed.

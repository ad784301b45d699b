(** The Linux adapter as built for Android, or for a kernel older than 5.9
    (include/wtr/watcher.hpp:1710-1724 with the lines 1712-1714 left out): try_fanotify
    (:1708-1716) is the constant e_sys_api_fanotify, so watch (:1654-1726) runs the inotify
    adapter at once.  epoll_create(1) instead of epoll_create1 (:927-931) is the same call
    of [Sys]. *)
From Verif Require Import Base EventModel Sys LinuxModel LinuxWatch.

Definition android_watch (s : os) (fuel : nat) (path : text) (il_fd : Z) : M bool :=
  let r := r_e_sys_api_fanotify in
  r' <- (if r_eqb r r_e_sys_api_fanotify then run_inotify s fuel path il_fd else ret r) ;;
  if r_ge r' r_e then send_msg s r' path ;;; ret false else ret true.

(** For C135 and C136: a system that answers like another one, and so does a moment later. *)
From Verif Require Import Base EventModel Sys DeepSpec.

(** [behind n s u f]: the answers of [s], of which the first [n] calls are kept secret; but
    the user is [u], and fanotify_init answers [f]. *)
Definition behind (n : nat) (s : os) (u f : Z) : os := {|
  os_now := fun tr => os_now s (skipn n tr);
  os_geteuid := fun _ => u;
  os_realpath := fun tr => os_realpath s (skipn n tr);
  os_is_dir := fun tr => os_is_dir s (skipn n tr);
  os_opendir := fun tr => os_opendir s (skipn n tr);
  os_inotify_init := fun tr => os_inotify_init s (skipn n tr);
  os_add_watch := fun tr => os_add_watch s (skipn n tr);
  os_fan_init := fun _ => f;
  os_fan_mark := fun tr => os_fan_mark s (skipn n tr);
  os_epoll_create := fun tr => os_epoll_create s (skipn n tr);
  os_epoll_ctl := fun tr => os_epoll_ctl s (skipn n tr);
  os_epoll_wait := fun tr => os_epoll_wait s (skipn n tr);
  os_read := fun tr => os_read s (skipn n tr);
  os_open_handle := fun tr => os_open_handle s (skipn n tr);
  os_readlink := fun tr => os_readlink s (skipn n tr) |}.

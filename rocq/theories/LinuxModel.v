(** Model of the code shared by the Linux adapters,
    include/wtr/watcher.hpp:835-984. *)
From Verif Require Import Base EventModel Sys.

(** enum class result, include/wtr/watcher.hpp:845-864, in declaration order. *)
Inductive result :=
| r_pending | r_w | r_w_sys_not_watched | r_w_sys_phantom | r_w_sys_bad_fd | r_w_sys_bad_meta
| r_w_sys_q_overflow | r_complete | r_e | r_e_sys_api_inotify | r_e_sys_api_fanotify
| r_e_sys_api_epoll | r_e_sys_api_read | r_e_sys_api_eventfd | r_e_sys_ret
| r_e_sys_lim_kernel_version | r_e_self_noent | r_e_self_ev_recv.

(** The underlying [unsigned short]. *)
Definition code (r : result) : N :=
  match r with
  | r_pending => 0 | r_w => 1 | r_w_sys_not_watched => 2 | r_w_sys_phantom => 3 | r_w_sys_bad_fd => 4
  | r_w_sys_bad_meta => 5 | r_w_sys_q_overflow => 6 | r_complete => 7 | r_e => 8
  | r_e_sys_api_inotify => 9 | r_e_sys_api_fanotify => 10 | r_e_sys_api_epoll => 11
  | r_e_sys_api_read => 12 | r_e_sys_api_eventfd => 13 | r_e_sys_ret => 14
  | r_e_sys_lim_kernel_version => 15 | r_e_self_noent => 16 | r_e_self_ev_recv => 17
  end%N.

(** [a < b] and [a >= b] on results (scoped enumerations compare by value). *)
Definition r_lt (a b : result) : bool := (code a <? code b)%N.
Definition r_ge (a b : result) : bool := (code b <=? code a)%N.
Definition r_eqb (a b : result) : bool := (code a =? code b)%N.

(** to_str, :890-915. *)
Definition to_str (r : result) : text :=
  lit match r with
      | r_pending => "pending@"
      | r_w => "w@"
      | r_w_sys_not_watched => "w/sys/not_watched@"
      | r_w_sys_phantom => "w/sys/phantom@"
      | r_w_sys_bad_fd => "w/sys/bad_fd@"
      | r_w_sys_bad_meta => "w/sys/bad_meta@"
      | r_w_sys_q_overflow => "w/sys/q_overflow@"
      | r_complete => "complete@"
      | r_e => "e@"
      | r_e_sys_api_inotify => "e/sys/api/inotify@"
      | r_e_sys_api_fanotify => "e/sys/api/fanotify@"
      | r_e_sys_api_epoll => "e/sys/api/epoll@"
      | r_e_sys_api_read => "e/sys/api/read@"
      | r_e_sys_api_eventfd => "e/sys/api/eventfd@"
      | r_e_sys_ret => "e/sys/ret@"
      | r_e_sys_lim_kernel_version => "e/sys/lim/kernel_version@"
      | r_e_self_noent => "e/self/noent@"
      | r_e_self_ev_recv => "e/self/ev_recv@"
      end.

Section Shared.
  Variable s : os.

  (** Construction of an event: one clock reading, :92-94 and :111-117. *)
  Definition new_event (p : text) (f : effect_type) (t : path_type) : M event :=
    n <- now s ;; ret (ev_make n p f t).

  (** Construction of an event from a base and an associated one, :119-123. *)
  Definition new_pair (base assoc : event) : M event :=
    n <- now s ;; ret (ev_pair n base assoc).

  (** send_msg, :917-923. *)
  Definition send_msg (r : result) (path : text) : M unit :=
    ev <- new_event (to_str r ++ path) EtOther PtWatcher ;; callback ev.

  (** make_ep, :925-939; -1 on failure, closing what was opened.  Returns the
      epoll descriptor. *)
  Definition make_ep (ev_fs_fd ev_il_fd : Z) : M Z :=
    fd <- epoll_create s ;;
    if (fd <? 0)%Z then ret fd
    else
      a <- epoll_ctl s fd ev_fs_fd ;;
      if (a <? 0)%Z then sys_close fd ;;; ret (-1)%Z
      else
        b <- epoll_ctl s fd ev_il_fd ;;
        if (b <? 0)%Z then sys_close fd ;;; ret (-1)%Z
        else ret fd.

  (** PATH_MAX - 1: the longest string a [char[PATH_MAX]] holds. *)
  Definition path_ulim : nat := N.to_nat 4095.

  (** walkdir_do, :967-984.  [f] is the callable; its captured state is [S].
      [snprintf] cuts the joined path to PATH_MAX - 1 bytes; its result is not
      compared with PATH_MAX.  Recursion depth is bounded by fuel. *)
  Fixpoint walkdir {S : Type} (fuel : nat) (path : text) (f : text -> S -> M S) (st : S) : M S :=
    match fuel with
    | O => no_fuel
    | Datatypes.S k =>
        d <- opendir s path ;;
        match d with
        | None => ret st
        | Some ents =>
            st1 <- f path st ;;
            st2 <- (fix each (es : list dirent) (st : S) : M S :=
                     match es with
                     | [] => ret st
                     | de :: es' =>
                         if negb (de_type de =? 4)%N then each es' st
                         else if text_eqb (de_name de) (lit ".") then each es' st
                         else if text_eqb (de_name de) (lit "..") then each es' st
                         else
                           r <- realpath s (firstn path_ulim (path ++ lit "/" ++ de_name de)) ;;
                           match r with
                           | None => each es' st
                           | Some real => st' <- walkdir k real f st ;; each es' st'
                           end
                     end) ents st1 ;;
            closedir path ;;; ret st2
        end
    end.
End Shared.

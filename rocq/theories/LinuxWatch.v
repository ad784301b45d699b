(** Model of the Linux adapter's event loop and adapter choice,
    include/wtr/watcher.hpp:1652-1724. *)
From Verif Require Import Base PathModel EventModel Sys LinuxModel InotifyModel FanotifyModel.

Section Watch.
  Variable s : os.

  Section Platform.
    (** What the loop needs to know of an adapter: its state, the state's
        descriptor and its receive function. *)
    Variable K : Type.
    Variable k_fd : K -> Z.
    Variable recv : K -> M (result * K).
    Variable il_fd : Z.

    (** The body of the for loop, :1671-1677: each ready descriptor overwrites
        the result of the one before.  At most q_ulim = 64 of them (:878). *)
    Fixpoint each_ready (fds : list Z) (ok : result) (ke : K) : M (result * K) :=
      match fds with
      | [] => ret (ok, ke)
      | fd :: fds' =>
          if (fd =? il_fd)%Z then each_ready fds' r_complete ke
          else if (fd =? k_fd ke)%Z then
            '(r, ke') <- recv ke ;; each_ready fds' r ke'
          else each_ready fds' r_e_sys_api_epoll ke
      end.

    (** The while loop, :1664-1678. *)
    Fixpoint ep_loop (fuel : nat) (ep : Z) (ok : result) (ke : K) : M (result * K) :=
      match fuel with
      | O => no_fuel
      | S n =>
          if negb (r_lt ok r_complete) then ret (ok, ke)
          else
            r <- epoll_wait s ep ;;
            match r with
            | None => ep_loop n ep r_e_sys_api_epoll ke
            | Some fds =>
                '(ok', ke') <- each_ready (firstn 64 fds) ok ke ;;
                ep_loop n ep ok' ke'
            end
      end.

    (** platform_watch, :1657-1697. *)
    Definition platform_watch (fuel : nat) (make : M (result * K * Z)) : M result :=
      '(ok, ke, ep) <- make ;;
      '(ok', ke') <- ep_loop fuel ep ok ke ;;
      sys_close (k_fd ke') ;;; sys_close ep ;;; ret ok'.
  End Platform.

  (** The two adapters. *)
  Definition run_fanotify (fuel : nat) (path : text) (il_fd : Z) : M result :=
    platform_watch kfa kfa_fd (fa_recv s) il_fd fuel (fa_make_sysres s fuel path il_fd).
  Definition run_inotify (fuel : nat) (path : text) (il_fd : Z) : M result :=
    platform_watch kin kin_fd (in_recv s) il_fd fuel (in_make_sysres s fuel path il_fd).

  (** try_fanotify, :1712-1719. *)
  Definition try_fanotify (fuel : nat) (path : text) (il_fd : Z) : M result :=
    u <- geteuid s ;;
    if (u =? 0)%Z then run_fanotify fuel path il_fd else ret r_e_sys_api_fanotify.

  (** watch, :1654-1726. *)
  Definition linux_watch (fuel : nat) (path : text) (il_fd : Z) : M bool :=
    r <- try_fanotify fuel path il_fd ;;
    r' <- (if r_eqb r r_e_sys_api_fanotify then run_inotify fuel path il_fd else ret r) ;;
    if r_ge r' r_e then send_msg s r' path ;;; ret false else ret true.
End Watch.

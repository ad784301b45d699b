(** Model of the inotify adapter, include/wtr/watcher.hpp:1299-1635. *)
From Verif Require Import Base PathModel EventModel Sys LinuxModel.

(** Constants of <sys/inotify.h>. *)
Definition IN_MODIFY      : N := 0x2.
Definition IN_MOVED_FROM  : N := 0x40.
Definition IN_MOVED_TO    : N := 0x80.
Definition IN_CREATE      : N := 0x100.
Definition IN_DELETE      : N := 0x200.
Definition IN_DELETE_SELF : N := 0x400.
Definition IN_MOVE_SELF   : N := 0x800.
Definition IN_Q_OVERFLOW  : N := 0x4000.
Definition IN_IGNORED     : N := 0x8000.
Definition IN_ISDIR       : N := 0x40000000.
Definition IN_MOVE        : N := N.lor IN_MOVED_FROM IN_MOVED_TO.

(** ke_in_ev::buf_len, c_ulim, recv_mask, :1327-1366. *)
Definition in_buf_len : N := 4096.
Definition in_c_ulim : N := 256.
Definition in_recv_mask : N :=
  N.lor IN_CREATE (N.lor IN_DELETE (N.lor IN_DELETE_SELF (N.lor IN_MODIFY
    (N.lor IN_MOVE_SELF (N.lor IN_MOVED_FROM IN_MOVED_TO))))).

(** The fields of ke_in_ev that live across calls, :1368-1372.  [rm_wd_buf] is
    only meaningful up to [back_idx] within one call, see [in_loop]. *)
Record kin := { kin_fd : Z; kin_dm : zmap text; kin_buf : text }.

Section Inotify.
  Variable s : os.

  (** do_mark, :1386-1398. *)
  Definition in_mark (dirpath : text) (dirfd : Z) (dm : zmap text) : M (zmap text * result) :=
    r <- realpath s dirpath ;;
    match r with
    | None => send_msg s r_w_sys_not_watched dirpath ;;; ret (dm, r_w_sys_not_watched)
    | Some real =>
        d <- stat_dir s real ;;
        wd <- (if d : bool then inotify_add_watch s dirfd real in_recv_mask else ret (-1)%Z) ;;
        if (0 <? wd)%Z then ret (zemplace wd real dm, r_complete)
        else send_msg s r_w_sys_not_watched dirpath ;;; ret (dm, r_w_sys_not_watched)
    end.

  (** make_sysres, :1400-1443: result code, state, epoll descriptor. *)
  Definition in_make_sysres (fuel : nat) (base_path : text) (il_fd : Z) : M (result * kin * Z) :=
    in_fd <- inotify_init s ;;
    let buf := repeat 0%N (N.to_nat in_buf_len) in
    if (in_fd <? 0)%Z then
      ret (r_e_sys_api_inotify, {| kin_fd := in_fd; kin_dm := []; kin_buf := buf |}, (-1)%Z)
    else
      dm <- walkdir s fuel base_path
              (fun dir dm => p <- in_mark dir in_fd dm ;; ret (fst p)) [] ;;
      match dm with
      | [] => ret (r_e_self_noent, {| kin_fd := in_fd; kin_dm := []; kin_buf := buf |}, (-1)%Z)
      | _ =>
          ep <- make_ep s in_fd il_fd ;;
          ret (if (ep <? 0)%Z then r_e_sys_api_epoll else r_pending,
               {| kin_fd := in_fd; kin_dm := dm; kin_buf := buf |}, ep)
      end.

  (** The fields of the record at an offset (struct inotify_event: wd, mask,
      cookie, len, name). *)
  Definition in_wd (buf : text) (off : N) : M Z := x <- word_at 4 buf off ;; ret (to_i32 x).
  Definition in_mask (buf : text) (off : N) : M N := word_at 4 buf (off + 4).
  Definition in_cookie (buf : text) (off : N) : M N := word_at 4 buf (off + 8).
  Definition in_len (buf : text) (off : N) : M N := word_at 4 buf (off + 12).
  Definition in_name (buf : text) (off : N) : M text := c_string buf (off + 16).

  (** peek, :1445-1452 (the record pointer is never null where it is called). *)
  Definition in_peek (buf : text) (off : N) (tail : Z) : M (option N) :=
    len <- in_len buf off ;;
    let next := (off + 16 + len)%N in
    ret (if (Z.of_N next <? tail)%Z then Some next else None).

  (** parse_ev, :1459-1488. *)
  Definition in_parse (dirname : text) (buf : text) (off : N) (tail : Z) : M (event * option N) :=
    mask <- in_mask buf off ;;
    let pt := if flag mask IN_ISDIR then PtDir else PtFile in
    let et := if flag mask IN_CREATE then EtCreate
              else if flag mask IN_DELETE then EtDestroy
              else if flag mask IN_MOVE then EtRename
              else if flag mask IN_MODIFY then EtModify
              else EtOther in
    let mk o := nm <- in_name buf o ;; new_event s (path_append dirname nm) et pt in
    let one next := ev <- mk off ;; ret (ev, next) in
    let assoc a b :=
      ea <- mk a ;; eb <- mk b ;; ev <- new_pair s ea eb ;;
      nn <- in_peek buf b tail ;; ret (ev, nn) in
    next <- in_peek buf off tail ;;
    match next with
    | None => one next
    | Some n =>
        cn <- in_cookie buf n ;;
        ci <- in_cookie buf off ;;
        let is_rename := match et with EtRename => true | _ => false end in
        if negb (negb (cn =? 0)%N && (cn =? ci)%N && is_rename) then one next
        else
          mn <- in_mask buf n ;;
          if flag mask IN_MOVED_FROM && flag mn IN_MOVED_TO then assoc off n
          else if flag mn IN_MOVED_FROM && flag mask IN_MOVED_TO then assoc n off
          else one next
    end.

  (** is_parity_lost and is_real_event, :1594-1602. *)
  Definition is_parity_lost (m : N) : bool := flag m IN_DELETE_SELF && negb (flag m IN_MOVE_SELF).
  Definition is_real_event (m : N) : bool :=
    flag m in_recv_mask && negb (flag m (N.lor IN_IGNORED (N.lor IN_DELETE_SELF IN_MOVE_SELF))).

  (** The while loop of do_ev_recv, :1613-1632.  [rm] is rm_wd_buf[0..back_idx).
      The counter check bounds the loop, so [fuel] never runs out (proved). *)
  Fixpoint in_loop (fuel : nat) (fd : Z) (buf : text) (tail : Z) (in_ev : option N) (c : N)
      (dm : zmap text) (rm : list Z) : M (result * zmap text * list Z) :=
    match fuel with
    | O => no_fuel
    | S k =>
        match in_ev with
        | None => ret (r_pending, dm, rm)
        | Some off =>
            if negb (Z.of_N off <? tail)%Z then ret (r_pending, dm, rm)
            else
              next <- in_peek buf off tail ;;
              msk <- in_mask buf off ;;
              wd <- in_wd buf off ;;
              if (in_c_ulim <? c)%N then ret (r_e_sys_ret, dm, rm)
              else
                let lost := is_parity_lost msk in
                if lost && negb (N.of_nat (length rm) <? in_buf_len)%N
                then ret (r_e_sys_ret, dm, rm)
                else
                  let rm := if lost then rm ++ [wd] else rm in
                  match zfind wd dm with
                  | None =>
                      send_msg s r_w_sys_phantom [] ;;;
                      in_loop k fd buf tail next (c + 1) dm rm
                  | Some dir =>
                      if flag msk IN_Q_OVERFLOW then
                        send_msg s r_w_sys_q_overflow dir ;;;
                        in_loop k fd buf tail next (c + 1) dm rm
                      else if is_real_event msk then
                        '(ev, nx) <- in_parse dir buf off tail ;;
                        dm1 <- (if flag msk IN_ISDIR && flag msk IN_CREATE
                                then p <- in_mark (ev_path ev) fd dm ;; ret (fst p)
                                else ret dm) ;;
                        callback ev ;;;
                        in_loop k fd buf tail nx (c + 1) dm1 rm
                      else in_loop k fd buf tail next (c + 1) dm rm
                  end
        end
    end.

  (** do_ev_recv, :1592-1635.  The destructor of [dmrm] (:1510-1517) removes the
      deferred descriptors on every way out. *)
  Definition in_recv (ke : kin) : M (result * kin) :=
    r <- sys_read s (kin_fd ke) in_buf_len ;;
    let buf := overwrite (kin_buf ke) (firstn (Z.to_nat (rd_len r)) (rd_bytes r)) in
    if (rd_len r <? 0)%Z && negb (rd_errno r =? 11)%Z
    then ret (r_e_sys_api_read, {| kin_fd := kin_fd ke; kin_dm := kin_dm ke; kin_buf := buf |})
    else
      '(res, dm, rm) <- in_loop (N.to_nat 260) (kin_fd ke) buf (rd_len r) (Some 0%N) 0 (kin_dm ke) [] ;;
      ret (res, {| kin_fd := kin_fd ke;
                   kin_dm := fold_left (fun m wd => zerase wd m) rm dm;
                   kin_buf := buf |}).
End Inotify.

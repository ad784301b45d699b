(** Model of the fanotify adapter, include/wtr/watcher.hpp:1007-1278. *)
From Verif Require Import Base PathModel EventModel Sys LinuxModel.

(** Constants of <sys/fanotify.h>. *)
Definition FAN_MODIFY     : N := 0x2.
Definition FAN_MOVED_FROM : N := 0x40.
Definition FAN_MOVED_TO   : N := 0x80.
Definition FAN_CREATE     : N := 0x100.
Definition FAN_DELETE     : N := 0x200.
Definition FAN_Q_OVERFLOW : N := 0x4000.
Definition FAN_EVENT_ON_CHILD : N := 0x08000000.
Definition FAN_ONDIR      : N := 0x40000000.
Definition FAN_MOVE       : N := N.lor FAN_MOVED_FROM FAN_MOVED_TO.
Definition FAN_NOFD : Z := -1.
Definition FANOTIFY_METADATA_VERSION : N := 3.
Definition FAN_EVENT_INFO_TYPE_DFID_NAME : N := 2.

(** ke_fa_ev, :1020-1046: buf_len, c_ulim = 4096 / 24, recv_flags. *)
Definition fa_buf_len : N := 4096.
Definition fa_c_ulim : N := 170.
Definition fa_recv_flags : N :=
  N.lor FAN_ONDIR (N.lor FAN_CREATE (N.lor FAN_MODIFY (N.lor FAN_MOVE
    (N.lor FAN_DELETE FAN_EVENT_ON_CHILD)))).
Record kfa := { kfa_fd : Z; kfa_buf : text }.

Section Fanotify.
  Variable s : os.

  (** do_mark, :1057-1070. *)
  Definition fa_mark (dirpath : text) (fa_fd : Z) : M result :=
    r <- realpath s dirpath ;;
    match r with
    | None => send_msg s r_w_sys_not_watched dirpath ;;; ret r_w_sys_not_watched
    | Some real =>
        d <- stat_dir s real ;;
        rc <- (if d : bool then fanotify_mark s fa_fd real fa_recv_flags else ret (-1)%Z) ;;
        if (rc =? 0)%Z then ret r_complete
        else send_msg s r_w_sys_not_watched dirpath ;;; ret r_w_sys_not_watched
    end.

  (** make_sysres, :1077-1095.  Descriptors below 1 count as failures. *)
  Definition fa_make_sysres (fuel : nat) (base_path : text) (il_fd : Z) : M (result * kfa * Z) :=
    fa_fd <- fanotify_init s ;;
    let buf := repeat 0%N (N.to_nat fa_buf_len) in
    let bad r := (r, {| kfa_fd := (-1)%Z; kfa_buf := buf |}, (-1)%Z) in
    if (fa_fd <? 1)%Z then ret (bad r_e_sys_api_fanotify)
    else
      walkdir s fuel base_path (fun dir _ => fa_mark dir fa_fd ;;; ret tt) tt ;;;
      ep <- make_ep s fa_fd il_fd ;;
      if (ep <? 1)%Z then sys_close fa_fd ;;; ret (bad r_e_sys_api_epoll)
      else ret (r_pending, {| kfa_fd := fa_fd; kfa_buf := buf |}, ep).

  (** The fields of the record at an offset: struct fanotify_event_metadata
      (event_len 0, vers 4, mask 8, fd 16, size 24) followed by struct
      fanotify_event_info_fid (info_type 0, fsid 4, handle 12). *)
  Definition fa_event_len (buf : text) (m : N) : M N := word_at 4 buf m.
  Definition fa_vers (buf : text) (m : N) : M N := byte_at buf (m + 4).
  Definition fa_mask (buf : text) (m : N) : M N := word_at 8 buf (m + 8).
  Definition fa_evfd (buf : text) (m : N) : M Z := x <- word_at 4 buf (m + 16) ;; ret (to_i32 x).
  Definition fa_info_type (buf : text) (m : N) : M N := byte_at buf (m + 24).
  Definition fa_handle_bytes (buf : text) (m : N) : M N := word_at 4 buf (m + 36).
  (** The handle the kernel is given: its header and its bytes (:1131-1132). *)
  Definition fa_handle (buf : text) (m : N) : M text :=
    hb <- fa_handle_bytes buf m ;;
    let h := firstn (N.to_nat (8 + hb)) (skipn (N.to_nat (m + 36)) buf) in
    if Nat.eqb (length h) (N.to_nat (8 + hb)) then ret h else undef OobRead.

  (** pathof, :1126-1157: the path and the error number it stores.  [None]
      means [*ec] is left alone.  [readlink] stores at most PATH_MAX - 1 bytes;
      when it fails, path_buf[-1] is written.  [snprintf] cuts the joined path
      to PATH_MAX - 1 bytes. *)
  Definition fa_pathof (buf : text) (m : N) : M (text * option Z) :=
    h <- fa_handle buf m ;;
    '(fd, err) <- open_by_handle s h ;;
    if (fd <=? 0)%Z then ret ([], Some err)
    else
      l <- readlink s fd ;;
      sys_close fd ;;;
      match l with
      | None => undef OobWrite
      | Some d0 =>
          let d := firstn path_ulim d0 in
          match d with
          | [] => ret ([], None)
          | _ =>
              hb <- fa_handle_bytes buf m ;;
              nm <- c_string buf (m + 44 + hb) ;;
              if text_eqb nm (lit ".") then ret (d, None)
              else ret (firstn path_ulim (d ++ lit "/" ++ nm), None)
          end
      end.

  (** FAN_EVENT_OK(meta, len): the length test comes first and guards the read. *)
  Definition fan_event_ok (buf : text) (m : N) (len : Z) : M bool :=
    if (len <? 24)%Z then ret false
    else
      el <- fa_event_len buf m ;;
      ret ((24 <=? el)%N && (Z.of_N el <=? len)%Z).

  (** peek, :1159-1169 (the pointer is never null where it is called). *)
  Definition fa_peek (buf : text) (m : N) (read_len : Z) : M (option N) :=
    el <- fa_event_len buf m ;;
    ok <- fan_event_ok buf (m + el) (read_len - Z.of_N el) ;;
    ret (if ok : bool then Some (m + el)%N else None).

  Definition set_ec (ec : Z) (o : option Z) : Z := match o with Some v => v | None => ec end.

  (** parse_ev, :1177-1206: event, next record, bytes consumed, error number.
      The two [pathof] arguments of a pair may be evaluated in either order
      (:1198); the model takes them left to right. *)
  Definition fa_parse (buf : text) (m : N) (read_len : Z) (ec : Z) : M (event * option N * Z * Z) :=
    n <- fa_peek buf m read_len ;;
    mask <- fa_mask buf m ;;
    let pt := if flag mask FAN_ONDIR then PtDir else PtFile in
    let et := if flag mask FAN_CREATE then EtCreate
              else if flag mask FAN_DELETE then EtDestroy
              else if flag mask FAN_MODIFY then EtModify
              else if flag mask FAN_MOVE then EtRename
              else EtOther in
    let is_rename := match et with EtRename => true | _ => false end in
    let one :=
      '(p, x) <- fa_pathof buf m ;;
      ev <- new_event s p et pt ;;
      el <- fa_event_len buf m ;;
      ret (ev, n, Z.of_N el, set_ec ec x) in
    let assoc a b :=
      nn <- fa_peek buf b read_len ;;
      la <- fa_event_len buf a ;;
      lb <- fa_event_len buf b ;;
      '(pa, xa) <- fa_pathof buf a ;;
      ea <- new_event s pa et pt ;;
      '(pb, xb) <- fa_pathof buf b ;;
      eb <- new_event s pb et pt ;;
      ev <- new_pair s ea eb ;;
      ret (ev, nn, (Z.of_N la + Z.of_N lb)%Z, set_ec (set_ec ec xa) xb) in
    match n with
    | None => one
    | Some nx =>
        mn <- fa_mask buf nx ;;
        if is_rename && flag mask FAN_MOVED_FROM && flag mn FAN_MOVED_TO then assoc m nx
        else if is_rename && flag mn FAN_MOVED_FROM && flag mask FAN_MOVED_TO then assoc nx m
        else one
    end.

  (** do_mark_if_newdir, :1208-1217. *)
  Definition fa_mark_if_newdir (ev : event) (fa_fd : Z) : M result :=
    match ev_effect ev, ev_ptype ev with
    | EtCreate, PtDir => fa_mark (ev_path ev) fa_fd
    | _, _ => ret r_complete
    end.

  (** The while loop of do_ev_recv, :1255-1275. *)
  Fixpoint fa_loop (fuel : nat) (fd : Z) (buf : text) (mtd : option N) (read_len : Z) (c : N)
      : M result :=
    match fuel with
    | O => no_fuel
    | S k =>
        match mtd with
        | None => ret r_pending
        | Some m =>
            ok <- fan_event_ok buf m read_len ;;
            if negb ok then ret r_pending
            else if (fa_c_ulim <? c)%N then ret r_e_sys_ret
            else
              vers <- fa_vers buf m ;;
              if negb (vers =? FANOTIFY_METADATA_VERSION)%N then ret r_e_sys_lim_kernel_version
              else
                evfd <- fa_evfd buf m ;;
                if negb (evfd =? FAN_NOFD)%Z then ret r_w_sys_bad_fd
                else
                  mask <- fa_mask buf m ;;
                  if flag mask FAN_Q_OVERFLOW then ret r_w_sys_q_overflow
                  else
                    it <- fa_info_type buf m ;;
                    if negb (it =? FAN_EVENT_INFO_TYPE_DFID_NAME)%N then ret r_w_sys_bad_meta
                    else
                      '(ev, n, l, ec) <- fa_parse buf m read_len 0 ;;
                      if negb (ec =? 0)%Z then ret r_w_sys_bad_fd
                      else
                        fa_mark_if_newdir ev fd ;;;
                        callback ev ;;;
                        fa_loop k fd buf n (read_len - l) (c + 1)
        end
    end.

  (** do_ev_recv, :1240-1276. *)
  Definition fa_recv (ke : kfa) : M (result * kfa) :=
    r <- sys_read s (kfa_fd ke) fa_buf_len ;;
    let buf := overwrite (kfa_buf ke) (firstn (Z.to_nat (rd_len r)) (rd_bytes r)) in
    let ke' := {| kfa_fd := kfa_fd ke; kfa_buf := buf |} in
    if (rd_len r <=? 0)%Z && negb (rd_errno r =? 11)%Z then ret (r_pending, ke')
    else if (rd_len r <? 0)%Z then ret (r_e_sys_api_read, ke')
    else
      res <- fa_loop (N.to_nat 180) (kfa_fd ke) buf (Some 0%N) (rd_len r) 0 ;;
      ret (res, ke').
End Fanotify.

(** Model of the Windows adapter, include/wtr/watcher.hpp:1730-1972.

    The system is an oracle: every answer is a function of everything observed so
    far.  Text is UTF-16 units; the buffer is bytes.  Simplifications: the handles
    are represented by whether they are valid; appending a name to the watched
    path treats the name as relative (the system's names are); the event token
    (:1756, only ever reset and closed) always can be made. *)
From Verif Require Import Base EventModel Mon.
From Verif Require Sys.

(** ReadDirectoryChangesW: success, with the bytes already stored (usually none);
    failure with ERROR_IO_PENDING; failure otherwise. *)
Inductive rdans := RdOk (bs : text) | RdPending | RdFail.
(** GetQueuedCompletionStatus: time out or no port; a read that failed; a read
    that is complete and stored these bytes. *)
Inductive waitans := WtNone | WtFail | WtDone (bs : text).
(** CreateFileW: null, INVALID_HANDLE_VALUE, a handle. *)
Inductive hnd := HNull | HInvalid | HOk.

Inductive nobs :=
| NCb (e : event)                          (* the callback is called *)
| NNow (t : Z)
| NIsDir (p : text) (r : option bool)      (* is_directory; [None]: throws *)
| NOpen (p : text) (h : hnd)
| NPort (ok : bool)                        (* the first CreateIoCompletionPort *)
| NBind (ok : bool)                        (* the second, and ResetEvent *)
| NRead (r : rdans)
| NWait (r : waitans)
| NState (pending : bool).                 (* living.state() *)

Record nfs := {
  nf_now : list nobs -> Z;
  nf_isdir : list nobs -> text -> option bool;
  nf_narrow : text -> option N;            (* path.string().size(); [None]: throws *)
  nf_open : list nobs -> text -> hnd;
  nf_port : list nobs -> bool;
  nf_bind : list nobs -> hnd -> bool;
  nf_read : list nobs -> rdans;
  nf_wait : list nobs -> waitans;
  nf_pending : list nobs -> bool;
}.

(** The handles of a proxy: event_token (:1756, made with it), event_completion_token
    (:1755) and path_handle (:1754). *)
Inductive handle := HToken | HPort | HDir.

(** The proxy, :1742-1759. *)
Record proxy := { px_path : text; px_valid : bool; px_port : bool; px_buf : text; px_len : N }.
(** sizeof(FILE_NOTIFY_INFORMATION): three 32-bit words and a unit, rounded up. *)
Definition fni_size : N := 16.
(** event_buf: 8192 such structures (:1750, :1758). *)
Definition win_buf_bytes : N := 8192 * fni_size.
(** path_name: 256 units of two bytes (:1753). *)
Definition win_path_bytes : N := 512.

(** winnt.h *)
Definition FILE_ACTION_ADDED : N := 1.
Definition FILE_ACTION_REMOVED : N := 2.
Definition FILE_ACTION_MODIFIED : N := 3.
Definition FILE_ACTION_RENAMED_OLD_NAME : N := 4.
Definition FILE_ACTION_RENAMED_NEW_NAME : N := 5.

(** path::operator/ for a relative right side (Windows): a separator goes between
    unless the left side is empty or ends in a separator or colon. *)
Definition win_sep (c : N) : bool := ((c =? 92) || (c =? 47) || (c =? 58))%N.
Definition win_join (p q : text) : text :=
  match p with [] => q | _ => if win_sep (last p 0%N) then p ++ q else p ++ 92%N :: q end.

(** UTF-16 units from bytes. *)
Fixpoint units (bs : text) : text :=
  match bs with a :: b :: bs' => (a + 256 * b)%N :: units bs' | _ => [] end.

(** RenameEventTracker, :1848-1853. *)
Definition tracker := option (text * path_type).

Section Windows.
  Variable s : nfs.
  Definition NT (A : Type) := pm nobs A.
  Definition n_now : NT Z := ask (fun tr => nf_now s tr) NNow.
  Definition n_send (p : text) (f : effect_type) (t : path_type) : NT unit :=
    now <- n_now ;; emit (NCb (ev_make now p f t)).

  (** Memory access in the buffer. *)
  Definition bytes_at (buf : text) (off len : N) : NT text :=
    let bs := firstn (N.to_nat len) (skipn (N.to_nat off) buf) in
    if Nat.eqb (length bs) (N.to_nat len) then pret bs else pundef OobRead.
  Definition dword_at (buf : text) (off : N) : NT N :=
    bs <- bytes_at buf off 4 ;; pret (Sys.le_word bs).

  (** watch_event_proxy, :1761-1783. *)
  Definition make_proxy (path : text) : NT proxy :=
    match nf_narrow s path with
    | None => pcrash
    | Some n =>
        (* :1764, memcpy of [n] bytes from the wide path and its terminator (two
           bytes each) into path_name *)
        if (win_path_bytes <? n)%N then pundef OobWrite
        else if (2 * (N.of_nat (length path) + 1) <? n)%N then pundef OobRead
        else
          h <- ask (fun tr => nf_open s tr path) (NOpen path) ;;
          port <- match h with HNull => pret false | _ => ask (fun tr => nf_port s tr) NPort end ;;
          valid <- (if port : bool then ask (fun tr => nf_bind s tr h) NBind else pret true) ;;
          pret {| px_path := path; px_valid := valid; px_port := port;
                  px_buf := repeat 0%N (N.to_nat win_buf_bytes); px_len := 0 |}
    end.

  Definition px_set (w : proxy) (valid : bool) (buf : text) (len : N) : proxy :=
    {| px_path := px_path w; px_valid := valid; px_port := px_port w; px_buf := buf; px_len := len |}.
  (** has_event, :1792-1795. *)
  Definition has_event (w : proxy) : bool := negb (px_len w =? 0)%N.

  (** do_event_recv, :1797-1840; the result is never used. *)
  Definition do_event_recv (w : proxy) : NT proxy :=
    if px_valid w then
      r <- ask (fun tr => nf_read s tr) NRead ;;
      match r with
      | RdOk bs => pret (px_set w true (Sys.overwrite (px_buf w) bs) (N.of_nat (length bs)))
      | RdPending => n_send (lit "e/sys/read/pending") EtOther PtWatcher ;;; pret (px_set w false (px_buf w) 0)
      | RdFail => n_send (lit "e/sys/read") EtOther PtWatcher ;;; pret (px_set w true (px_buf w) 0)
      end
    else pret (px_set w false (px_buf w) 0).

  (** :1886-1896 *)
  Definition win_effect (action : N) : effect_type :=
    if (action =? FILE_ACTION_MODIFIED)%N then EtModify
    else if (action =? FILE_ACTION_ADDED)%N then EtCreate
    else if (action =? FILE_ACTION_REMOVED)%N then EtDestroy
    else if (action =? FILE_ACTION_RENAMED_OLD_NAME)%N then EtRename
    else if (action =? FILE_ACTION_RENAMED_NEW_NAME)%N then EtRename
    else EtOther.
  (** :1898-1907 *)
  Definition win_ptype (p : text) : NT path_type :=
    d <- ask (fun tr => nf_isdir s tr p) (NIsDir p) ;;
    pret match d with Some true => PtDir | Some false => PtFile | None => PtOther end.
  (** trigger_rename_callback, :1864-1878. *)
  Definition trigger_rename (from to : text * path_type) : NT unit :=
    t1 <- n_now ;; t2 <- n_now ;; t3 <- n_now ;;
    emit (NCb (ev_pair t3 (ev_make t1 (fst from) EtRename (snd from)) (ev_make t2 (fst to) EtRename (snd to)))).

  (** One turn of the loop with a good name length, :1883-1925: the new trackers. *)
  Definition win_record (root : text) (action : N) (name : text) (old new : tracker) : NT (tracker * tracker) :=
    let p := win_join root name in
    t <- win_ptype p ;;
    if (action =? FILE_ACTION_RENAMED_OLD_NAME)%N then
      match new with
      | Some n => trigger_rename (p, t) n ;;; pret (None, None)
      | None => pret (Some (p, t), new)
      end
    else if (action =? FILE_ACTION_RENAMED_NEW_NAME)%N then
      match old with
      | Some o => trigger_rename o (p, t) ;;; pret (None, None)
      | None => pret (old, Some (p, t))
      end
    else n_send p (win_effect action) t ;;; pret (old, new).

  (** The loop, :1881-1931.  Its condition compares [buf + 16] with [buf + len], in
      structures, so it does not depend on where [buf] is.  With an odd name length
      nothing changes. *)
  Fixpoint send_loop (fuel : nat) (root buf : text) (len off : N) (old new : tracker) : NT unit :=
    match fuel with
    | O => pfuel
    | S n =>
        if (fni_size <=? len)%N then
          nl <- dword_at buf (off + 8) ;;
          if (nl mod 2 =? 0)%N then
            name <- bytes_at buf (off + 12) nl ;;
            action <- dword_at buf (off + 4) ;;
            '(old', new') <- win_record root action (units name) old new ;;
            next <- dword_at buf off ;;
            if (next =? 0)%N then pret tt else send_loop n root buf len (off + next) old' new'
          else send_loop n root buf len off old new
        else pret tt
    end.
  (** do_event_send, :1842-1933; the result is never used. *)
  Definition do_event_send (fuel : nat) (w : proxy) : NT unit :=
    if px_valid w then send_loop fuel (px_path w) (px_buf w) (px_len w) 0 None None else pret tt.

  (** :1950 *)
  Fixpoint first_sends (fuel : nat) (w : proxy) : NT unit :=
    match fuel with
    | O => pfuel
    | S n => if px_valid w && has_event w then do_event_send fuel w ;;; first_sends n w else pret tt
    end.
  (** :1961-1964 *)
  Fixpoint send_recv (fuel : nat) (w : proxy) : NT proxy :=
    match fuel with
    | O => pfuel
    | S n =>
        if px_valid w && has_event w then
          do_event_send fuel w ;;; w' <- do_event_recv w ;; send_recv n w'
        else pret w
    end.
  (** :1951-1966 *)
  Fixpoint win_loop (fuel : nat) (w : proxy) : NT bool :=
    match fuel with
    | O => pfuel
    | S n =>
        p <- ask (fun tr => nf_pending s tr) NState ;;
        if p : bool then
          a <- (if px_port w then ask (fun tr => nf_wait s tr) NWait else pret WtNone) ;;
          match a with
          | WtDone bs =>
              w' <- send_recv fuel (px_set w (px_valid w) (Sys.overwrite (px_buf w) bs) (N.of_nat (length bs))) ;;
              win_loop n w'
          | _ => win_loop n w
          end
        else pret true
    end.
  (** watch, :1941-1968: the body, with the proxy made; and the whole. *)
  Definition win_body (fuel : nat) (w : proxy) : NT bool :=
    if px_valid w then
      w1 <- do_event_recv w ;;
      first_sends fuel w1 ;;;
      win_loop fuel w1
    else pret false.
  Definition win_watch (fuel : nat) (path : text) : NT bool :=
    w <- make_proxy path ;; win_body fuel w.

  (** ~watch_event_proxy, :1785-1789: the handles it closes. *)
  Definition close_proxy (w : proxy) : list handle := HToken :: if px_port w then [HPort] else [].
  (** watch with the destruction of its proxy when it returns. *)
  Definition win_life (fuel : nat) (path : text) : list nobs * out bool * list handle :=
    let (o1, r1) := make_proxy path [] in
    match r1 with
    | Ok w =>
        let (o2, r2) := win_body fuel w o1 in
        (o1 ++ o2, r2, match r2 with Ok _ => close_proxy w | _ => [] end)
    | Undef u => (o1, Undef u, [])
    | Crash => (o1, Crash, [])
    | Fuel => (o1, Fuel, [])
    end.
End Windows.

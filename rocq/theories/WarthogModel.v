(** Model of the fallback adapter ("warthog"), include/wtr/watcher.hpp:1995-2188.

    The filesystem is an oracle: every answer is a function of everything
    observed so far.  A directory walk is answered as a whole: its entries, and
    whether the iterator throws after them.  A walk that cannot be started sets
    [ec] and is an empty walk (the test of [ec] inside of the loop, :2068, then never
    runs).  Exceptions meet a noexcept function: [Crash]. *)
From Verif Require Import Base EventModel Mon.

Inductive wobs :=
| WCb (e : event)                                   (* the callback is called *)
| WNow (t : Z)
| WState (pending : bool)                           (* living.state() *)
| WExists (p : text) (r : option bool)              (* [None]: throws *)
| WIsDir (p : text) (r : option bool)
| WIsReg (p : text) (r : option bool)
| WIsLink (p : text) (r : option bool)
| WTime (p : text) (r : option Z)                   (* last_write_time; [None]: error *)
| WWalk (p : text) (es : list text) (throws : bool).

Record wfs := {
  wf_now : list wobs -> Z;
  wf_pending : list wobs -> bool;
  wf_exists : list wobs -> text -> option bool;
  wf_isdir : list wobs -> text -> option bool;
  wf_isreg : list wobs -> text -> option bool;
  wf_islink : list wobs -> text -> option bool;
  wf_time : list wobs -> text -> option Z;
  wf_walk : list wobs -> N -> text -> list text * bool;   (* with directory_options *)
}.

Definition bucket := tmap Z.

(** std::filesystem::directory_options, and scan_dir_opts, :1997-1999: the two are
    combined with [&], which leaves nothing. *)
Definition follow_directory_symlink : N := 1.
Definition skip_permission_denied : N := 2.
Definition scan_dir_opts : N := N.land skip_permission_denied follow_directory_symlink.

Section Warthog.
  Variable s : wfs.
  Definition W (A : Type) := pm wobs A.

  Definition or_throw {A} (m : W (option A)) : W A :=
    r <- m ;; match r with Some a => pret a | None => pcrash end.
  Definition w_exists (p : text) : W bool := or_throw (ask (fun tr => wf_exists s tr p) (WExists p)).
  Definition w_isdir (p : text) : W bool := or_throw (ask (fun tr => wf_isdir s tr p) (WIsDir p)).
  Definition w_isreg (p : text) : W bool := or_throw (ask (fun tr => wf_isreg s tr p) (WIsReg p)).
  Definition w_islink (p : text) : W bool := or_throw (ask (fun tr => wf_islink s tr p) (WIsLink p)).
  (** last_write_time with and without error code. *)
  Definition w_time (p : text) : W (option Z) := ask (fun tr => wf_time s tr p) (WTime p).
  Definition w_time_throwing (p : text) : W Z := or_throw (w_time p).
  Definition w_walk (p : text) : W (list text * bool) :=
    ask (fun tr => wf_walk s tr scan_dir_opts p) (fun r => WWalk p (fst r) (snd r)).
  (** event{path, effect, type}, then send_event. *)
  Definition w_send (p : text) (f : effect_type) (t : path_type) : W unit :=
    now <- ask (fun tr => wf_now s tr) WNow ;;
    emit (WCb (ev_make now p f t)).

  (** The range-for over a recursive_directory_iterator. *)
  Fixpoint weach (body : text -> bucket -> W bucket) (es : list text) (b : bucket) : W bucket :=
    match es with [] => pret b | e :: es' => b' <- body e b ;; weach body es' b' end.
  Definition for_walk (dir : text) (body : text -> bucket -> W bucket) (b : bucket) : W bucket :=
    '(es, throws) <- w_walk dir ;;
    b' <- weach body es b ;;
    if throws : bool then pcrash else pret b'.

  (** scan_file, :2015-2056: the result and the new bucket. *)
  Definition scan_file (file : text) (b : bucket) : W (bool * bucket) :=
    ex <- w_exists file ;;
    reg <- (if ex : bool then w_isreg file else pret false) ;;
    if reg : bool then
      ts <- w_time file ;;
      match ts with
      | None =>
          w_send file EtDestroy PtFile ;;;
          pret (true, match tfind file b with Some _ => terase file b | None => b end)
      | Some t =>
          match tfind file b with
          | None => w_send file EtCreate PtFile ;;; pret (true, tset file t b)
          | Some t0 =>
              if (t0 =? t)%Z then pret (true, b)
              else w_send file EtModify PtFile ;;; pret (true, tset file t b)
          end
      end
    else pret (false, b).

  (** scan_directory, :2062-2076: the result of scan_file is ignored. *)
  Definition scan_directory (dir : text) (b : bucket) : W (bool * bucket) :=
    d <- w_isdir dir ;;
    if d : bool then
      b' <- for_walk dir (fun e b => r <- scan_file e b ;; pret (snd r)) b ;;
      pret (true, b')
    else pret (false, b).

  (** scan, :2006-2081. *)
  Definition scan (path : text) (b : bucket) : W (bool * bucket) :=
    r <- scan_directory path b ;;
    if fst r then pret (true, snd r) else scan_file path (snd r).

  (** populate, :2091-2116.  For a path that is not a directory there is no
      return statement. *)
  Definition populate (path : text) (b : bucket) : W (bool * bucket) :=
    ex <- w_exists path ;;
    if negb ex then pret (false, b)
    else
      d <- w_isdir path ;;
      if negb d then w_time_throwing path ;;; pundef MissingReturn
      else
        b' <- for_walk path (fun e b =>
          ts <- w_time e ;;
          match ts with
          | Some t => pret (tset e t b)
          | None => t <- w_time_throwing path ;; pret (tset e t b)
          end) b ;;
        pret (true, b').

  (** prune, :2119-2151: the entries in map order; the path type is asked of the
      watched path, not of the entry. *)
  Fixpoint prune_from (path : text) (todo : bucket) (b : bucket) : W bucket :=
    match todo with
    | [] => pret b
    | (p, _) :: todo' =>
        ex <- w_exists p ;;
        if ex : bool then prune_from path todo' b
        else
          reg <- w_isreg path ;;
          t <- (if reg : bool then pret PtFile
                else d <- w_isdir path ;;
                     if d : bool then pret PtDir
                     else l <- w_islink path ;;
                          pret (if l : bool then PtSymLink else PtOther)) ;;
          w_send p EtDestroy t ;;;
          prune_from path todo' (terase p b)
    end.
  Definition prune (path : text) (b : bucket) : W (bool * bucket) :=
    b' <- prune_from path b b ;; pret (true, b').

  (** tend_bucket, :2085-2157: [empty ? (populate ? true : (prune ? true : false)) : true]. *)
  Definition tend_bucket (path : text) (b : bucket) : W (bool * bucket) :=
    match b with
    | [] =>
        r <- populate path b ;;
        if fst r then pret (true, snd r) else prune path (snd r)
    | _ => pret (true, b)
    end.

  (** watch, :2161-2183, without the sleep. *)
  Fixpoint warthog_loop (fuel : nat) (path : text) (b : bucket) : W bool :=
    match fuel with
    | O => pfuel
    | S n =>
        p <- ask (fun tr => wf_pending s tr) WState ;;
        if negb p then pret true
        else
          r1 <- tend_bucket path b ;;
          if negb (fst r1) then pret false
          else
            r2 <- scan path (snd r1) ;;
            if negb (fst r2) then pret false else warthog_loop n path (snd r2)
    end.
  Definition warthog_watch (fuel : nat) (path : text) : W bool := warthog_loop fuel path [].
End Warthog.

(** Model of the Darwin adapter, include/wtr/watcher.hpp:470-818: what is made of
    the records FSEvents hands over, and the handing over itself beside the thread
    that waits for the stop and closes the stream.

    The system is an oracle where it answers ([access], the clock) and
    nondeterministic where it acts (when events occur, when it calls event_recv).
    Simplifications: paths are C strings, as text; FSEventStreamFlushSync returns
    when event_recv has returned for all that had occurred when it was called, and
    after FSEventStreamStop there are no calls any more (both documented by Apple;
    the comment at :716-745 doubts the latter). *)
From Verif Require Import Base PathModel EventModel Mon.

(** A record: path and flags.  A batch without its context, paths or flags is
    [None] (:644-645). *)
Definition record := (text * N)%type.
Definition batch := option (list record).

Inductive dobs :=
| DCb (e : event)                            (* the callback is called *)
| DNow (t : Z)
| DAccess (p : text) (there : bool)          (* access(p, F_OK) *)
| DRec (p : text) (fl : N)                   (* event_recv_one is called *)
| DOccur (n : nat) (b : batch)               (* the [n]th batch of changes happens *)
| DTake (n : nat)                            (* event_recv, for batch [n], has the mutex *)
| DDrop (n : nat)                            (* event_recv, for batch [n], returns at once *)
| DLeave (n : nat)                           (* event_recv, for batch [n], is through *)
| DStream (ok : bool)                        (* open_event_stream *)
| DStop                                      (* wait(living) returns *)
| DLock                                      (* close_event_stream has the mutex *)
| DFlushed                                   (* FSEventStreamFlushSync returned *)
| DClosed                                    (* the stream is stopped, the mutex given back *)
| DRet (b : bool).                           (* the adapter returns *)

Record dfs := { df_now : list dobs -> Z; df_access : list dobs -> text -> bool }.

(** FSEvents.h and :499-527. *)
Definition f_created : N := 0x100.
Definition f_removed : N := 0x200.
Definition f_inodemeta : N := 0x400.
Definition f_renamed : N := 0x800.
Definition f_modified : N := 0x1000.
Definition f_finderinfo : N := 0x2000.
Definition f_chown : N := 0x4000.
Definition f_xattr : N := 0x8000.
Definition f_isfile : N := 0x10000.
Definition f_isdir : N := 0x20000.
Definition f_issymlink : N := 0x40000.
Definition f_ishardlink : N := 0x100000.
Definition f_islasthardlink : N := 0x200000.
Definition fsev_path_hard_link : N := N.lor f_ishardlink f_islasthardlink.
Definition fsev_modify_any : N := N.lor f_modified (N.lor f_chown (N.lor f_xattr (N.lor f_finderinfo f_inodemeta))).
Definition fsev_modify : N := N.ldiff fsev_modify_any f_inodemeta.
Definition fsev_any : N := N.lor f_created (N.lor f_removed (N.lor fsev_modify_any f_renamed)).

(** What the context points to, :531-540: the set of paths seen created (as
    strings), the last renamed path (an fs::path). *)
Record dctx := { seen : list text; last_rename : text }.
Definition is_seen (c : dctx) (p : text) : bool := existsb (text_eqb p) (seen c).

Section Recv.
  Variable s : dfs.
  Definition D (A : Type) := pm dobs A.
  Definition d_now : D Z := ask (fun tr => df_now s tr) DNow.
  Definition d_send (p : text) (f : effect_type) (t : path_type) : D unit :=
    now <- d_now ;; emit (DCb (ev_make now p f t)).

  (** :548-552 *)
  Definition darwin_ptype (fl : N) : path_type :=
    if flag fl f_isfile then PtFile
    else if flag fl f_isdir then PtDir
    else if flag fl f_issymlink then PtSymLink
    else if flag fl fsev_path_hard_link then PtHardLink
    else PtOther.

  (** :562-568 *)
  Definition recv_create (c : dctx) (p : text) (fl : N) (pt : path_type) : D dctx :=
    if flag fl f_created then
      if is_seen c p then pret c
      else d_send p EtCreate pt ;;; pret {| seen := p :: seen c; last_rename := last_rename c |}
    else pret c.
  (** :569-575 *)
  Definition recv_remove (c : dctx) (p : text) (fl : N) (pt : path_type) : D dctx :=
    if flag fl f_removed then
      if is_seen c p then
        d_send p EtDestroy pt ;;;
        pret {| seen := filter (fun q => negb (text_eqb p q)) (seen c); last_rename := last_rename c |}
      else pret c
    else pret c.
  (** :576-578 *)
  Definition recv_modify (c : dctx) (p : text) (fl : N) (pt : path_type) : D dctx :=
    if flag fl fsev_modify then d_send p EtModify pt ;;; pret c else pret c.
  (** :579-616.  [access] is called even if there is no last path.  The rename
      event reads the clock for each part and for the whole (:111-123). *)
  Definition recv_rename (c : dctx) (p : text) (fl : N) (pt : path_type) : D dctx :=
    if flag fl f_renamed then
      let lr := last_rename c in
      let differs := negb (is_nil lr) && negb (path_eqb lr p) in
      there <- ask (fun tr => df_access s tr lr) (DAccess lr) ;;
      if differs && negb there then
        t1 <- d_now ;; t2 <- d_now ;; t3 <- d_now ;;
        emit (DCb (ev_pair t3 (ev_make t1 lr EtRename pt) (ev_make t2 p EtRename pt))) ;;;
        pret {| seen := seen c; last_rename := [] |}
      else pret {| seen := seen c; last_rename := p |}
    else pret c.
  (** event_recv_one, :542-617. *)
  Definition event_recv_one (c : dctx) (p : text) (fl : N) : D dctx :=
    let pt := darwin_ptype fl in
    if negb (flag fl fsev_any) then d_send p EtOther pt ;;; pret c
    else
      c1 <- recv_create c p fl pt ;;
      c2 <- recv_remove c1 p fl pt ;;
      c3 <- recv_modify c2 p fl pt ;;
      recv_rename c3 p fl pt.
End Recv.

(** ** The adapter, all threads *)

(** One call of event_recv (:633-652): before the mutex, or in the loop with the
    records still to come. *)
Inductive rcv := RTry (b : batch) | RIn (rs : list record).
(** The thread in [watch] (:798-811), with wait (:708-714) and close_event_stream (:774-785). *)
Inductive clo :=
| COpen                     (* before open_event_stream *)
| CWait (ok : bool)         (* in wait(living); [ok]: there is a stream *)
| CClose (ok : bool)        (* in close_event_stream, before the mutex *)
| CFlush (upto : nat)       (* in FSEventStreamFlushSync; batches below [upto] had occurred *)
| CStop                     (* in FSEventStreamStop, Invalidate, Release *)
| CRet (b : bool).          (* has returned *)

Record dworld := DW {
  dc : dctx; locked : bool; next : nat;
  queued : list (nat * batch);         (* happened, not yet handed over *)
  recvs : list (nat * rcv);            (* calls of event_recv under way *)
  clos : clo; dlog : list dobs }.

Section World.
  Variable s : dfs.
  (** The stream exists and is not stopped. *)
  Definition streaming (k : clo) : Prop :=
    match k with CWait true | CClose true | CFlush _ | CStop => True | _ => False end.
  Inductive dstep : dworld -> dworld -> Prop :=
  | D_open c l n q r ok o : dstep (DW c l n q r COpen o) (DW c l n q r (CWait ok) (o ++ [DStream ok]))
  | D_occur c l n q r k o b : streaming k ->
      dstep (DW c l n q r k o) (DW c l (S n) (q ++ [(n, b)]) r k (o ++ [DOccur n b]))
    (* the system calls event_recv; batches may overtake each other *)
  | D_hand c l n q1 i b q2 r k o : streaming k ->
      dstep (DW c l n (q1 ++ (i, b) :: q2) r k o) (DW c l n (q1 ++ q2) (r ++ [(i, RTry b)]) k o)
  | D_bad c l n q r1 i r2 k o :
      dstep (DW c l n q (r1 ++ (i, RTry None) :: r2) k o) (DW c l n q (r1 ++ r2) k (o ++ [DDrop i]))
  | D_take c n q r1 i rs r2 k o :
      dstep (DW c false n q (r1 ++ (i, RTry (Some rs)) :: r2) k o) (DW c true n q (r1 ++ (i, RIn rs) :: r2) k (o ++ [DTake i]))
    (* std::mutex::try_lock may also fail on a free mutex *)
  | D_busy c l n q r1 i rs r2 k o :
      dstep (DW c l n q (r1 ++ (i, RTry (Some rs)) :: r2) k o) (DW c l n q (r1 ++ r2) k (o ++ [DDrop i]))
  | D_rec c l n q r1 i p fl rs r2 k o o' c' :
      event_recv_one s c p fl (o ++ [DRec p fl]) = (o', Ok c') ->
      dstep (DW c l n q (r1 ++ (i, RIn ((p, fl) :: rs)) :: r2) k o)
            (DW c' l n q (r1 ++ (i, RIn rs) :: r2) k (o ++ DRec p fl :: o'))
  | D_leave c l n q r1 i r2 k o :
      dstep (DW c l n q (r1 ++ (i, RIn []) :: r2) k o) (DW c false n q (r1 ++ r2) k (o ++ [DLeave i]))
  | D_stop c l n q r ok o : dstep (DW c l n q r (CWait ok) o) (DW c l n q r (CClose ok) (o ++ [DStop]))
  | D_null c l n q r o : dstep (DW c l n q r (CClose false) o) (DW c l n q r (CRet false) (o ++ [DRet false]))
  | D_lock c n q r o : dstep (DW c false n q r (CClose true) o) (DW c true n q r (CFlush n) (o ++ [DLock]))
  | D_flush c l n q r u o : (forall i b, In (i, b) q -> (u <= i)%nat) -> (forall i b, In (i, b) r -> (u <= i)%nat) ->
      dstep (DW c l n q r (CFlush u) o) (DW c l n q r CStop (o ++ [DFlushed]))
  | D_closed c l n q o :
      dstep (DW c l n q [] CStop o) (DW c false n [] [] (CRet true) (o ++ [DClosed; DRet true])).

  Inductive dreach : dworld -> dworld -> Prop :=
  | DR0 w : dreach w w
  | DR1 w w' w'' : dreach w w' -> dstep w' w'' -> dreach w w''.
  (** watch begins, :803-806. *)
  Definition dstart : dworld := DW {| seen := []; last_rename := [] |} false 0 [] [] COpen [].

  (** The same for a system that does not wait, in FSEventStreamStop and so on, for
      the calls of event_recv that are under way (the comment at :716-745 says that
      it happens).  What they then use, the context with the mutex and the
      callback, is gone (:803-806). *)
  Inductive dstep_late : dworld -> dworld -> Prop :=
  | D_usual w w' : dstep w w' -> dstep_late w w'
  | D_closed_early c l n q r o :
      dstep_late (DW c l n q r CStop o) (DW c false n [] r (CRet true) (o ++ [DClosed; DRet true])).
  Inductive dreach_late : dworld -> dworld -> Prop :=
  | DL0 w : dreach_late w w
  | DL1 w w' w'' : dreach_late w w' -> dstep_late w' w'' -> dreach_late w w''.
End World.

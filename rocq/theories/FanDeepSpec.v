(** A second filesystem and fanotify(7) for the adapter root uses: the environment of
    C145-C146.  Like [FanWorldSpec] it is not a model of code in the repository; it replaces
    five answers of the system (making the descriptor, marking a directory, reading
    records, opening a handle, the path of what was opened) by what a kernel would answer
    while others change files.  Beyond [FanWorldSpec], directories are removed, renamed and
    moved: a handle belongs to the directory and goes with it; the handle of a removed
    directory does not open (ESTALE); the path of a directory that is removed after it was
    opened ends with " (deleted)" (d_path, fs/d_path.c).  And the queue is limited:
    when it is full, records are dropped and one overflow record is put into it
    (fsnotify_insert_event, fs/notify/notification.c).

    Simplifications: there are no links; a moved directory replaces nothing and no
    directory's path grows beyond PATH_MAX (then readlink fails, C28's hypothesis); a mark
    stays as long as its directory does; the kernel looks for the record to join among all
    that wait; a read gives less than 4096 bytes.  Changes happen between the calls of the
    watcher, at any of them. *)
From Verif Require Import Base EventModel Sys InotifySpec FanotifySpec FanWorldSpec.

(** ** Changes *)
(** Made by the process [pid]. *)
Inductive gop :=
| GMake (pid : N) (dir : bool) (p n : text)            (* a file or directory [n] in [p] *)
| GWrite (pid : N) (p n : text)
| GRemove (pid : N) (p n : text)                       (* a file *)
| GRmdir (pid : N) (p n : text)                        (* an empty directory *)
| GMove (pid : N) (dir : bool) (p n q m : text).       (* [n] in [p] becomes [m] in [q]; a file there is replaced *)
Definition gpid (o : gop) : N := match o with GMake i _ _ _ | GWrite i _ _ | GRemove i _ _ | GRmdir i _ _ | GMove i _ _ _ _ _ => i end.
(** The entries it changes: the path of the directory, the name in it, how, and the entry's type. *)
Definition gtouches (o : gop) : list (text * text * fkind * bool) :=
  match o with
  | GMake _ d p n => [(p, n, FCreate, d)]
  | GWrite _ p n => [(p, n, FModify, false)]
  | GRemove _ p n => [(p, n, FDelete, false)]
  | GRmdir _ p n => [(p, n, FDelete, true)]
  | GMove _ d p n q m => [(p, n, FFrom, d); (q, m, FTo, d)]
  end.

(** ** The kernel *)
(** A change of the entry [n] of the directory with number [i]: of this kind, the entry
    being a directory or not; its record was kept, or lost because the queue was full. *)
Inductive change := Did (i : N) (n : text) (k : fkind) (dir : bool) (kept : bool).
Record gworld := GWorld {
  gw_dirs : list (text * bool);         (* the number of a directory is its place here; its path, or the last it had; whether it is there *)
  gw_files : list text;
  gw_marks : list N;                    (* the marked directories *)
  gw_queue : list fan;                  (* records not yet read *)
  (* for the theorems only: *)
  gw_batches : list (list fan);         (* what the reads gave *)
  gw_log : list change }.               (* every change of an entry of a marked directory *)
Definition gworld_start (dirs files : list text) : gworld := GWorld (map (fun p => (p, true)) dirs) files [] [] [] [].

(** The number of the directory at [p]. *)
Fixpoint number_in (p : text) (i : N) (dirs : list (text * bool)) : option N :=
  match dirs with
  | [] => None
  | (q, there) :: dirs' => if there && text_eqb p q then Some i else number_in p (i + 1)%N dirs'
  end.
Definition number (w : gworld) (p : text) : option N := number_in p 0 (gw_dirs w).
Definition is_dir (w : gworld) (p : text) : bool := match number w p with Some _ => true | None => false end.
(** [q] is below [p], or is it. *)
Definition at_or_in (p q : text) : bool := text_eqb p q || text_eqb (p ++ lit "/") (firstn (S (length p)) q).
Definition inside (p q : text) : bool := text_eqb (p ++ lit "/") (firstn (S (length p)) q).
(** Where [x] is after what was at [p] became [q]. *)
Definition relocated (p q x : text) : text := if at_or_in p x then q ++ skipn (length p) x else x.
Definition gmay (w : gworld) (o : gop) : bool :=
  match o with
  | GMake _ _ p n => is_dir w p && sound_name p n && negb (is_dir w (at_path p n)) && negb (mem (at_path p n) (gw_files w))
      && (N.of_nat (length (gw_dirs w)) <? 2 ^ 63)%N
  | GWrite _ p n | GRemove _ p n => is_dir w p && sound_name p n && mem (at_path p n) (gw_files w)
  | GRmdir _ p n => is_dir w p && sound_name p n && is_dir w (at_path p n)
      && negb (existsb (fun d => snd d && inside (at_path p n) (fst d)) (gw_dirs w)) && negb (existsb (inside (at_path p n)) (gw_files w))
  | GMove _ d p n q m =>
      is_dir w p && is_dir w q && sound_name p n && sound_name q m && negb (is_dir w (at_path q m)) && negb (text_eqb (at_path p n) (at_path q m))
      && if d then is_dir w (at_path p n) && negb (mem (at_path q m) (gw_files w)) && negb (at_or_in (at_path p n) q)
                   && forallb (fun x => (N.of_nat (length (relocated (at_path p n) (at_path q m) (fst x))) <=? 4095)%N) (gw_dirs w)
         else mem (at_path p n) (gw_files w)
  end.

(** *** Records *)
Definition g_rec (pid i : N) (n : text) (k : fkind) (d : bool) : frec :=
  {| f_kinds := [k]; f_dir := d; f_pid := pid; f_fsid := repeat 1%N 8; f_htype := 1;
     f_handle := le_bytes 8 i; f_name := n; f_pad := 4 - Nat.modulo (length n) 4 |}.
Definition is_ovf (x : fan) : bool := match x with Ovf => true | Chg _ => false end.
(** A record joins one that waits, or is the last. *)
Fixpoint gjoin (q : list fan) (r : frec) : list fan :=
  match q with
  | [] => [Chg r]
  | Chg x :: q' => if joins x r then Chg (joined x r) :: q' else Chg x :: gjoin q' r
  | Ovf :: q' => Ovf :: gjoin q' r
  end.
(** The queue has room for [max] records (and the overflow record). *)
Definition gpost (max : nat) (pid : N) (w : gworld) (t : text * text * fkind * bool) : gworld :=
  match t with
  | (p, n, k, d) =>
      match number w p with
      | Some i =>
          if existsb (N.eqb i) (gw_marks w) then
            let full := (max <=? length (gw_queue w))%nat in
            let q := if full then if existsb is_ovf (gw_queue w) then gw_queue w else gw_queue w ++ [Ovf] else gjoin (gw_queue w) (g_rec pid i n k d) in
            GWorld (gw_dirs w) (gw_files w) (gw_marks w) q (gw_batches w) (gw_log w ++ [Did i n k d (negb full)])
          else w
      | None => w
      end
  end.

(** *** A change happens *)
Definition gdirs_then (w : gworld) (o : gop) : list (text * bool) :=
  match o with
  | GMake _ true p n => gw_dirs w ++ [(at_path p n, true)]
  | GRmdir _ p n => map (fun d : text * bool => if text_eqb (at_path p n) (fst d) then (fst d, false) else d) (gw_dirs w)
  | GMove _ true p n q m => map (fun d : text * bool => if snd d then (relocated (at_path p n) (at_path q m) (fst d), true) else d) (gw_dirs w)
  | _ => gw_dirs w
  end.
Definition gfiles_then (w : gworld) (o : gop) : list text :=
  match o with
  | GMake _ false p n => at_path p n :: gw_files w
  | GRemove _ p n => less (at_path p n) (gw_files w)
  | GMove _ false p n q m => at_path q m :: less (at_path p n) (less (at_path q m) (gw_files w))
  | GMove _ true p n q m => map (relocated (at_path p n) (at_path q m)) (gw_files w)
  | _ => gw_files w
  end.
Definition ghappen (max : nat) (w : gworld) (o : gop) : gworld :=
  if gmay w o then
    let w1 := fold_left (gpost max (gpid o)) (gtouches o) w in
    GWorld (gdirs_then w o) (gfiles_then w o) (gw_marks w) (gw_queue w1) (gw_batches w) (gw_log w1)
  else w.
Definition ghappens (max : nat) (w : gworld) (os : list gop) : gworld := fold_left (ghappen max) os w.

(** *** Calls *)
(** fanotify_mark; see [FanWorldSpec]. *)
Definition gmarking (mine deny : bool) (m : N) (w : gworld) (p : text) : Z * gworld :=
  match number w p with
  | Some i =>
      if negb mine || deny then ((-1)%Z, w)
      else (0%Z, if asks m then GWorld (gw_dirs w) (gw_files w) (i :: gw_marks w) (gw_queue w) (gw_batches w) (gw_log w) else w)
  | None => ((-1)%Z, w)
  end.
Fixpoint gfitting (room : N) (n : nat) (q : list fan) : nat :=
  match n, q with
  | S n', x :: q' => let l := N.of_nat (length (fencode_rec x)) in if (l <=? room)%N then S (gfitting (room - l) n' q') else O
  | _, _ => O
  end.
Definition greading (mine : bool) (want : nat) (w : gworld) : rd * gworld :=
  match mine, gw_queue w with
  | true, (_ :: _) as q =>
      let b := firstn (gfitting 4095 (S want) q) q in
      ({| rd_len := Z.of_nat (length (fencode b)); rd_bytes := fencode b; rd_errno := 0 |},
       GWorld (gw_dirs w) (gw_files w) (gw_marks w) (skipn (gfitting 4095 (S want) q) q) (gw_batches w ++ [b]) (gw_log w))
  | _, _ => ({| rd_len := -1; rd_bytes := []; rd_errno := 11 |}, w)
  end.
(** open_by_handle_at, and the path of what was opened. *)
Fixpoint gopened (h : text) (i : N) (dirs : list (text * bool)) : Z * Z :=
  match dirs with
  | [] => (-1, 116)%Z
  | d :: dirs' =>
      if snd d && text_eqb h (le_bytes 4 8 ++ le_bytes 4 1 ++ le_bytes 8 i) then (1000 + Z.of_N i, 0)%Z else gopened h (i + 1) dirs'
  end.
Definition shown_as (d : text * bool) : text := if snd d then fst d else fst d ++ lit " (deleted)".
Definition gpath_of (fd : Z) (dirs : list (text * bool)) : text := shown_as (nth (Z.to_nat (fd - 1000)) dirs (lit "/", true)).

(** ** The whole system *)
(** As in [FanWorldSpec]; [ge_max] is the limit of the queue. *)
Record genv := {
  ge_fd : Z; ge_max : nat; ge_start : gworld; ge_ops : trace -> list gop; ge_deny : trace -> bool; ge_want : trace -> nat; ge_base : gworld -> os }.
Section Env.
  Variable e : genv.
  (** The state after these calls, the last first. *)
  Fixpoint gstate_rev (rtr : list obs) : gworld :=
    match rtr with
    | [] => ge_start e
    | x :: r =>
        let w := ghappens (ge_max e) (gstate_rev r) (ge_ops e (rev r)) in
        match x with
        | OFanMark fd p m _ => snd (gmarking (fd =? ge_fd e)%Z (ge_deny e (rev r)) m w p)
        | ORead fd _ => snd (greading (fd =? ge_fd e)%Z (ge_want e (rev r)) w)
        | _ => w
        end
    end.
  Definition gstate (tr : trace) : gworld := gstate_rev (rev tr).
  (** The state in which the next call is answered. *)
  Definition gat_call (tr : trace) : gworld := ghappens (ge_max e) (gstate tr) (ge_ops e tr).
  Definition gsystem : os := {|
    os_fan_init := fun _ => ge_fd e;
    os_fan_mark := fun tr fd p m => fst (gmarking (fd =? ge_fd e)%Z (ge_deny e tr) m (gat_call tr) p);
    os_read := fun tr fd _ => fst (greading (fd =? ge_fd e)%Z (ge_want e tr) (gat_call tr));
    os_open_handle := fun tr h => gopened h 0 (gw_dirs (gat_call tr));
    os_readlink := fun tr fd => Some (gpath_of fd (gw_dirs (gat_call tr)));
    os_geteuid := fun _ => 0%Z;
    os_now := fun tr => os_now (ge_base e (gat_call tr)) tr;
    os_realpath := fun tr => os_realpath (ge_base e (gat_call tr)) tr;
    os_is_dir := fun tr => os_is_dir (ge_base e (gat_call tr)) tr;
    os_opendir := fun tr => os_opendir (ge_base e (gat_call tr)) tr;
    os_inotify_init := fun tr => os_inotify_init (ge_base e (gat_call tr)) tr;
    os_add_watch := fun tr => os_add_watch (ge_base e (gat_call tr)) tr;
    os_epoll_create := fun tr => os_epoll_create (ge_base e (gat_call tr)) tr;
    os_epoll_ctl := fun tr => os_epoll_ctl (ge_base e (gat_call tr)) tr;
    os_epoll_wait := fun tr => os_epoll_wait (ge_base e (gat_call tr)) tr;
  |}.
End Env.
(** The descriptor is one; the directories at the start have paths and are few enough for
    the handles; the root directory is not among them. *)
Record genv_ok (e : genv) : Prop := {
  gv_fd : (1 <= ge_fd e)%Z;
  gv_start : exists dirs files, ge_start e = gworld_start dirs files /\ Forall (fun d => d <> [] /\ d <> lit "/") dirs /\ (N.of_nat (length dirs) <= 2 ^ 63)%N }.

(** ** What the user is owed *)
Definition no_reading (x : obs) : Prop := match x with ORead _ _ => False | _ => True end.
Definition handling (x : obs) : Prop := match x with ORead _ _ | OEpollWait _ _ => False | _ => True end.
Definition gdir (w : gworld) (i : N) : option (text * bool) := nth_error (gw_dirs w) (N.to_nat i).
Definition there (w : gworld) (i : N) : Prop := exists p, gdir w i = Some (p, true).
(** After the calls [x]: since records were last read, the directory [i] was there at some
    call, and at the same or a later call its path was [d] (with " (deleted)" if it was
    removed in between). *)
Definition whereabouts (e : genv) (x : trace) (i : N) (d : text) : Prop :=
  exists a b c p, x = a ++ b ++ c /\ Forall no_reading (b ++ c) /\ there (gat_call e a) i /\
    gdir (gat_call e (a ++ b)) i = Some p /\ d = shown_as p.
(** The path of the entry [n] of [d]; an event's path has at most PATH_MAX - 1 bytes. *)
Definition event_path (d n : text) : text := firstn (N.to_nat 4095) (at_path d n).
(** [p] is a path, since records were last read, of an entry that was changed this way. *)
Definition told_change (e : genv) (x : trace) (k : fkind) (dir : bool) (p : text) : Prop :=
  exists i n d, In (Did i n k dir true) (gw_log (gstate e x)) /\ whereabouts e x i d /\ p = event_path d n.
Definition is_type (d : bool) : path_type := if d then PtDir else PtFile.
(** An event that is sent after the calls [x] tells of changes that happened. *)
Definition truly (e : genv) (x : trace) (s : shape) : Prop :=
  match s with
  | Sh p EtCreate t None => exists d, told_change e x FCreate d p /\ t = is_type d
  | Sh p EtDestroy t None => exists d, told_change e x FDelete d p /\ t = is_type d
  | Sh p EtModify t None => exists d, told_change e x FModify d p /\ t = is_type d
  | Sh p EtRename t None => exists d, (told_change e x FFrom d p \/ told_change e x FTo d p) /\ t = is_type d
  | Sh p EtRename t (Some (Sh q EtRename u None)) =>
      exists d d', told_change e x FFrom d p /\ told_change e x FTo d' q /\ t = u /\ (t = is_type d \/ t = is_type d')
  | _ => False
  end.

(** The number of the directory of a record. *)
Definition rec_dir (r : frec) : N := le_word (f_handle r).
(** A batch in which nothing follows an overflow record, and no end of a move is directly before a beginning. *)
Definition tidy (b : list fan) : Prop := exists rs t, b = map Chg rs ++ t /\ (t = [] \/ t = [Ovf]) /\ uncrossed rs.
(** As long as a batch is handled, the directories of its records are there. *)
Definition steady (e : genv) (tr o : trace) : Prop :=
  forall a fd rd b y, o = a ++ ORead fd rd :: b ++ y -> (0 < rd_len rd)%Z -> Forall handling b ->
    forall r, In (Chg r) (last (gw_batches (gstate e (tr ++ a ++ [ORead fd rd]))) []) -> there (gat_call e (tr ++ a ++ ORead fd rd :: b)) (rec_dir r).
(** The change of the entry [n] of the directory [i] is still to be read. *)
Definition still_pending (w : gworld) (i : N) (n : text) (k : fkind) (d : bool) : Prop :=
  exists r, In (Chg r) (gw_queue w) /\ rec_dir r = i /\ f_name r = n /\ has k r = true /\ f_dir r = d.
(** An event about files in [o], which follows [tr], mentions the entry [n] of the directory [i]. *)
Definition mentioned (e : genv) (tr o : trace) (i : N) (n : text) : Prop :=
  exists a b d s, o = a ++ b /\ whereabouts e (tr ++ a) i d /\ In s (fs_events o) /\ mentions (event_path d n) s.

(** *** What is lost *)
(** Neighbours in a batch that are handled together. *)
Definition meet (r n : frec) : Prop := f_moves r = true /\ (has FFrom r = true /\ has FTo n = true \/ has FTo r = true /\ has FFrom n = true).
(** What keeps a record [r] of the batch [b ++ Chg r :: b'] from being told: an overflow record before it; an
    end of a move directly before a beginning, up to it; or, when the calls [x] have been made, the directory
    of one of the records up to it, or of the one handled together with it, is gone. *)
Definition hurdle (e : genv) (x : trace) (b : list fan) (r : frec) (b' : list fan) : Prop :=
  In Ovf b \/ (exists b1 r1 r2 b2, b ++ [Chg r] = b1 ++ Chg r1 :: Chg r2 :: b2 /\ crossed r1 r2) \/
  (exists r1, (In (Chg r1) (b ++ [Chg r]) \/ exists b2, b' = Chg r1 :: b2 /\ meet r r1) /\ ~ there (gat_call e x) (rec_dir r1)).
(** A read in [o], which follows [tr], gave the batch [b ++ Chg r :: b'], and there was a hurdle when the calls [h] had been made to handle it. *)
Definition cut_in (e : genv) (tr o : trace) (b : list fan) (r : frec) (b' : list fan) : Prop :=
  exists a fd rd h y, o = a ++ ORead fd rd :: h ++ y /\ (0 < rd_len rd)%Z /\ Forall handling h /\
    last (gw_batches (gstate e (tr ++ a ++ [ORead fd rd]))) [] = b ++ Chg r :: b' /\ hurdle e (tr ++ a ++ ORead fd rd :: h) b r b'.
(** The record of the change was read in such a batch. *)
Definition cut (e : genv) (o : trace) (i : N) (n : text) (k : fkind) (d : bool) : Prop :=
  exists b r b', cut_in e [] o b r b' /\ rec_dir r = i /\ f_name r = n /\ has k r = true /\ f_dir r = d.

(** A filesystem that is being changed, and the kernel's inotify (inotify(7)): the
    environment of the end-to-end theorems C77-C81.  This is not a model of code in
    the repository; it replaces two answers of the system (adding a watch, reading
    records) by what a kernel would answer while others change files.

    Simplifications: one inotify instance; watched directories are not renamed and there
    are no links, so a directory's canonical path is its identity while it exists; files
    are renamed within a directory, or moved from or to a place that is not watched (the
    adapter misreports moves between watched directories, C22); the
    queue is not limited (overflow is C25); fewer than 2^32 renames and moves; a read offers 4096 bytes (the adapter's
    buffer).  Changes happen between the calls of the watcher, at any of them. *)
From Verif Require Import Base EventModel Sys InotifySpec.

(** ** Changes *)
Inductive op :=
| Make (dir : bool) (p n : text)                (* a file or directory [n] in [p] *)
| Write (p n : text)
| Remove (p n : text)                           (* a file *)
| RemoveDir (p n : text) (self_first : bool)    (* the order of the records differs between kernels *)
| Rename (p n n' : text)                        (* a file, within its directory *)
| MoveOut (p n : text)                          (* a file, to a place that is not watched *)
| MoveIn (dir : bool) (p n : text).             (* a file or directory, from a place that is not watched *)

(** What the user must be told of a change. *)
Definition change (o : op) : shape :=
  match o with
  | Make d p n => Sh (entry p n) EtCreate (if d then PtDir else PtFile) None
  | Write p n => Sh (entry p n) EtModify PtFile None
  | Remove p n => Sh (entry p n) EtDestroy PtFile None
  | RemoveDir p n _ => Sh (entry p n) EtDestroy PtDir None
  | Rename p n n' => Sh (entry p n) EtRename PtFile (Some (Sh (entry p n') EtRename PtFile None))
  | MoveOut p n => Sh (entry p n) EtRename PtFile None
  | MoveIn d p n => Sh (entry p n) EtRename (if d then PtDir else PtFile) None
  end.
(** The directory in which it happens. *)
Definition place (o : op) : text :=
  match o with Make _ p _ | Write p _ | Remove p _ | RemoveDir p _ _ | Rename p _ _ | MoveOut p _ | MoveIn _ p _ => p end.

(** ** The kernel *)
Record kern := Kern {
  kn_dirs : list text; kn_files : list text;    (* by canonical path *)
  kn_watch : list (Z * text);                   (* the watches *)
  kn_next : Z; kn_cookies : N;
  kn_queue : list krec;                         (* records not yet read *)
  (* for the theorems only: *)
  kn_given : list (Z * text);                   (* every watch there ever was *)
  kn_read : list krec;                          (* every record that was read *)
  kn_log : list (op * bool) }.                  (* every change, and whether its directory was watched *)

Definition kern_start (dirs files : list text) : kern := Kern dirs files [] 1 0 [] [] [] [].

Definition has (p : text) (l : list text) : bool := existsb (text_eqb p) l.
Definition without (p : text) (l : list text) : list text := filter (fun q => negb (text_eqb p q)) l.
Definition watched (k : kern) (p : text) : option Z :=
  match find (fun w => text_eqb (snd w) p) (kn_watch k) with Some w => Some (fst w) | None => None end.
Definition is_watched (k : kern) (p : text) : bool := match watched k p with Some _ => true | None => false end.

(** A name: not empty, at most NAME_MAX bytes, no NUL and no slash, not "." or "..". *)
Definition good_name (n : text) : bool :=
  negb (text_eqb n []) && (N.of_nat (length n) <=? 255)%N && forallb (fun b => negb (b =? 0)%N && negb (b =? 47)%N) n
  && negb (text_eqb n (lit ".")) && negb (text_eqb n (lit "..")).
(** [q] is an entry of [p]. *)
Definition below (p q : text) : bool :=
  let d := entry p [] in text_eqb d (firstn (length d) q) && negb (text_eqb d q).
Definition legal (k : kern) (o : op) : bool :=
  match o with
  | Make _ p n => has p (kn_dirs k) && good_name n && negb (has (entry p n) (kn_dirs k)) && negb (has (entry p n) (kn_files k))
  | Write p n | Remove p n => has p (kn_dirs k) && good_name n && has (entry p n) (kn_files k)
  | RemoveDir p n _ =>
      has p (kn_dirs k) && good_name n && has (entry p n) (kn_dirs k)
      && negb (existsb (below (entry p n)) (kn_dirs k)) && negb (existsb (below (entry p n)) (kn_files k))
  | Rename p n n' =>
      has p (kn_dirs k) && good_name n && good_name n' && has (entry p n) (kn_files k)
      && negb (has (entry p n') (kn_dirs k)) && negb (text_eqb n n') && (kn_cookies k + 1 <? 4294967296)%N
  | MoveOut p n => has p (kn_dirs k) && good_name n && has (entry p n) (kn_files k) && (kn_cookies k + 1 <? 4294967296)%N
  | MoveIn d p n =>
      has p (kn_dirs k) && good_name n && negb (has (entry p n) (kn_dirs k)) && negb (d && has (entry p n) (kn_files k))
      && (kn_cookies k + 1 <? 4294967296)%N
  end.

(** *** Records *)
(** Names are padded to a multiple of 16, with at least one NUL. *)
Definition rec_of (wd : Z) (k : kind) (dir : bool) (cookie : N) (name : text) : krec :=
  {| k_wd := wd; k_kind := k; k_dir := dir; k_cookie := cookie; k_name := name;
     k_pad := match name with [] => 0 | _ => 16 - Nat.modulo (length name) 16 end |}.
Definition about (k : kern) (p : text) (kd : kind) (dir : bool) (cookie : N) (name : text) : list krec :=
  match watched k p with Some wd => [rec_of wd kd dir cookie name] | None => [] end.
Definition fresh_cookie (k : kern) : N := (kn_cookies k + 1)%N.
Definition records (k : kern) (o : op) : list krec :=
  match o with
  | Make d p n => about k p KCreate d 0 n
  | Write p n => about k p KModify false 0 n
  | Remove p n => about k p KDelete false 0 n
  | RemoveDir p n first =>
      let up := about k p KDelete true 0 n in
      let self := about k (entry p n) KDeleteSelf true 0 [] ++ about k (entry p n) KIgnored false 0 [] in
      if first then self ++ up else up ++ self
  | Rename p n n' => about k p KMovedFrom false (fresh_cookie k) n ++ about k p KMovedTo false (fresh_cookie k) n'
  | MoveOut p n => about k p KMovedFrom false (fresh_cookie k) n
  | MoveIn d p n => about k p KMovedTo d (fresh_cookie k) n
  end.
Definition same_rec (a b : krec) : bool :=
  (k_wd a =? k_wd b)%Z && (kind_bit (k_kind a) =? kind_bit (k_kind b))%N && Bool.eqb (k_dir a) (k_dir b)
  && (k_cookie a =? k_cookie b)%N && text_eqb (k_name a) (k_name b) && (k_pad a =? k_pad b)%nat.
Definition is_modify (r : krec) : bool := match k_kind r with KModify => true | _ => false end.
(** A record that equals the last one in the queue is not added.  (No record but one
    of a modification can.) *)
Definition push (q : list krec) (r : krec) : list krec :=
  match rev q with
  | l :: _ => if same_rec l r && is_modify r then q else q ++ [r]
  | [] => q ++ [r]
  end.

(** *** A change happens *)
Definition dirs_after (k : kern) (o : op) : list text :=
  match o with
  | Make true p n | MoveIn true p n => kn_dirs k ++ [entry p n]
  | RemoveDir p n _ => without (entry p n) (kn_dirs k)
  | _ => kn_dirs k
  end.
Definition files_after (k : kern) (o : op) : list text :=
  match o with
  | Make false p n => kn_files k ++ [entry p n]
  | Remove p n | MoveOut p n => without (entry p n) (kn_files k)
  | MoveIn false p n => without (entry p n) (kn_files k) ++ [entry p n]
  | Rename p n n' => without (entry p n) (without (entry p n') (kn_files k)) ++ [entry p n']
  | _ => kn_files k
  end.
(** The watch of a removed directory goes with it. *)
Definition watch_after (k : kern) (o : op) : list (Z * text) :=
  match o with
  | RemoveDir p n _ => filter (fun w => negb (text_eqb (snd w) (entry p n))) (kn_watch k)
  | _ => kn_watch k
  end.
Definition cookies_after (k : kern) (o : op) : N :=
  match o with Rename _ _ _ | MoveOut _ _ | MoveIn _ _ _ => fresh_cookie k | _ => kn_cookies k end.
Definition happen (k : kern) (o : op) : kern :=
  if legal k o then
    Kern (dirs_after k o) (files_after k o) (watch_after k o) (kn_next k) (cookies_after k o)
         (fold_left push (records k o) (kn_queue k)) (kn_given k) (kn_read k)
         (kn_log k ++ [(o, is_watched k (place o))])
  else k.
Definition happens (k : kern) (os : list op) : kern := fold_left happen os k.

(** *** Calls *)
(** inotify_add_watch.  [deny]: it fails for some other reason, such as the limit of
    watches; a directory watched already keeps its watch; descriptors are ints. *)
Definition marking (deny : bool) (k : kern) (p : text) : Z * kern :=
  if negb deny && has p (kn_dirs k) then
    match watched k p with
    | Some wd => (wd, k)
    | None =>
        if (kn_next k <? 2147483648)%Z
        then (kn_next k, Kern (kn_dirs k) (kn_files k) (kn_watch k ++ [(kn_next k, p)]) (kn_next k + 1) (kn_cookies k)
                (kn_queue k) (kn_given k ++ [(kn_next k, p)]) (kn_read k) (kn_log k))
        else ((-1)%Z, k)
    end
  else ((-1)%Z, k).
(** A watch that does not ask for all the kinds of records of this file is granted,
    but nothing is reported of it (a simplification: the kernel would report what was
    asked for); other descriptors are refused. *)
Definition kinds_used : list kind := [KCreate; KDelete; KDeleteSelf; KModify; KMovedFrom; KMovedTo].
Definition asks_all (m : N) : bool := forallb (fun kd => negb (N.land m (kind_bit kd) =? 0)%N) kinds_used.
Definition adding (mine : bool) (m : N) (deny : bool) (k : kern) (p : text) : Z * kern :=
  if negb mine then ((-1)%Z, k) else if asks_all m then marking deny k p else (2147483647%Z, k).
(** How many records a read takes: at most [n], and no more than [room] bytes. *)
Fixpoint fitting (room : N) (n : nat) (q : list krec) : nat :=
  match n, q with
  | S n', r :: q' =>
      let l := N.of_nat (length (encode_rec r)) in
      if (l <=? room)%N then S (fitting (room - l) n' q') else O
  | _, _ => O
  end.
Definition reading (want : nat) (k : kern) : rd * kern :=
  match kn_queue k with
  | [] => ({| rd_len := -1; rd_bytes := []; rd_errno := 11 |}, k)
  | q =>
      let c := fitting 4096 (S want) q in
      let bs := encode (firstn c q) in
      ({| rd_len := Z.of_nat (length bs); rd_bytes := bs; rd_errno := 0 |},
       Kern (kn_dirs k) (kn_files k) (kn_watch k) (kn_next k) (kn_cookies k) (skipn c q) (kn_given k)
         (kn_read k ++ firstn c q) (kn_log k))
  end.

(** Another descriptor has nothing to read. *)
Definition reading_of (mine : bool) (want : nat) (k : kern) : rd * kern :=
  if mine then reading want k else ({| rd_len := -1; rd_bytes := []; rd_errno := 11 |}, k).

(** ** The whole system *)
(** [fd]: the inotify descriptor, or negative if there is none; [ops]: the changes that happen before the next call of the watcher; [deny],
    [want]: see above; [base]: all other answers, which may depend on the kernel's
    state. *)
Record env := {
  e_fd : Z; e_start : kern; e_ops : trace -> list op; e_deny : trace -> bool; e_want : trace -> nat; e_base : kern -> os }.
Section Env.
  Variable e : env.
  (** The state after these calls, the last first. *)
  Fixpoint state_rev (rtr : list obs) : kern :=
    match rtr with
    | [] => e_start e
    | x :: r =>
        let k := happens (state_rev r) (e_ops e (rev r)) in
        match x with
        | OAddWatch fd p m _ => snd (adding (fd =? e_fd e)%Z m (e_deny e (rev r)) k p)
        | ORead fd _ => snd (reading_of (fd =? e_fd e)%Z (e_want e (rev r)) k)
        | _ => k
        end
    end.
  Definition state (tr : trace) : kern := state_rev (rev tr).
  (** The state in which the next call is answered. *)
  Definition at_call (tr : trace) : kern := happens (state tr) (e_ops e tr).
  Definition system : os := {|
    os_add_watch := fun tr fd p m => fst (adding (fd =? e_fd e)%Z m (e_deny e tr) (at_call tr) p);
    os_read := fun tr fd _ => fst (reading_of (fd =? e_fd e)%Z (e_want e tr) (at_call tr));
    os_now := fun tr => os_now (e_base e (at_call tr)) tr;
    os_geteuid := fun tr => os_geteuid (e_base e (at_call tr)) tr;
    os_realpath := fun tr => os_realpath (e_base e (at_call tr)) tr;
    os_is_dir := fun tr => os_is_dir (e_base e (at_call tr)) tr;
    os_opendir := fun tr => os_opendir (e_base e (at_call tr)) tr;
    os_inotify_init := fun _ => e_fd e;
    os_fan_init := fun tr => os_fan_init (e_base e (at_call tr)) tr;
    os_fan_mark := fun tr => os_fan_mark (e_base e (at_call tr)) tr;
    os_epoll_create := fun tr => os_epoll_create (e_base e (at_call tr)) tr;
    os_epoll_ctl := fun tr => os_epoll_ctl (e_base e (at_call tr)) tr;
    os_epoll_wait := fun tr => os_epoll_wait (e_base e (at_call tr)) tr;
    os_open_handle := fun tr => os_open_handle (e_base e (at_call tr)) tr;
    os_readlink := fun tr => os_readlink (e_base e (at_call tr)) tr;
  |}.
End Env.

(** ** What the user is owed *)
(** The changes in directories that were watched when they happened. *)
Definition owed (k : kern) : list shape := map (fun c => change (fst c)) (filter snd (kn_log k)).
(** [told owed l]: the events [l] tell of the changes [owed], in order, each once:
    as they are; or a rename in two halves; or repeated modifications of the same
    file as one. *)
Inductive told : list shape -> list shape -> Prop :=
| ToldAll : told [] []
| ToldOne c cs l : told cs l -> told (c :: cs) (c :: l)
| ToldHalves p q t cs l : told cs l ->
    told (Sh p EtRename t (Some (Sh q EtRename t None)) :: cs) (Sh p EtRename t None :: Sh q EtRename t None :: l)
| ToldMerged p t cs l : told (Sh p EtModify t None :: cs) l -> told (Sh p EtModify t None :: Sh p EtModify t None :: cs) l.
(** The filesystem events among what the user was shown. *)
Definition fs_shapes (o : trace) : list shape :=
  filter (fun s => match s with Sh _ _ PtWatcher _ => false | _ => true end) (map shape_of (callbacks o)).

(** ** Systems that show this filesystem *)
(** [leads k b path root]: [path] leads to the directory [root], whose
    subdirectories are listed; no path is longer than PATH_MAX - 1. *)
Record leads (k : kern) (b : os) (path root : text) : Prop := {
  ld_real : forall tr, os_realpath b tr path = Some root;
  ld_opens : forall tr, exists ents, os_opendir b tr path = Some ents /\
    forall n, good_name n = true -> In (entry root n) (kn_dirs k) -> In {| de_name := n; de_type := 4 |} ents;
  ld_join : forall tr n, In (entry root n) (kn_dirs k) ->
    (length (path ++ lit "/" ++ n) <= N.to_nat 4095)%nat /\ os_realpath b tr (path ++ lit "/" ++ n) = Some (entry root n) }.
(** [shows k b]: the other answers [b] show the directories of [k] as they are. *)
Record shows (k : kern) (b : os) : Prop := {
  sh_leads : forall p, In p (kn_dirs k) -> leads k b p p;
  sh_dir : forall tr p, In p (kn_dirs k) -> os_is_dir b tr p = true }.
(** The directories below [p]. *)
Inductive under (dirs : list text) (p : text) : text -> Prop :=
| UnderHere : In p dirs -> under dirs p p
| UnderSub n q : In p dirs -> good_name n = true -> under dirs (entry p n) q -> under dirs p q.
(** The path of a removed directory. *)
Definition removes (p : text) (c : op * bool) : Prop := exists d n b, fst c = RemoveDir d n b /\ entry d n = p.
(** Before the first wait nothing changes and no watch is denied. *)
Definition still_start (e : env) : Prop :=
  forall tr, Forall (fun x => match x with OEpollWait _ _ => False | _ => True end) tr -> e_ops e tr = [] /\ e_deny e tr = false.
(** [honest e il]: the stop descriptor [il] is another one; a wait that succeeds while
    records are waiting says so (at most 64 answers are asked for); reads take all the
    records that fit. *)
Record honest (e : env) (il : Z) : Prop := {
  ho_stop : e_fd e <> il;
  ho_wait : forall tr ep fds, os_epoll_wait (e_base e (at_call e tr)) tr ep = Some fds -> kn_queue (at_call e tr) <> [] -> In (e_fd e) (firstn 64 fds);
  ho_read : forall tr, (256 <= e_want e tr)%nat }.
(** How many bytes of records are waiting. *)
Definition waiting (k : kern) : nat := length (encode (kn_queue k)).

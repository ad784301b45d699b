(** A second filesystem and inotify(7) for the Linux adapter, the environment of C122-C127.
    Like [KernelSpec] it is not a model of code in the repository: it replaces two answers
    of the system (adding a watch, reading records) by what a kernel would answer.  Beyond
    [KernelSpec], directories are renamed and moved (a watch belongs to the directory and
    goes with it), files and directories move between any two directories, watched or not,
    and the queue is limited: when it is full, records are dropped and one overflow record
    is put into the queue.

    Simplifications: one inotify instance; no links; a moved directory replaces nothing;
    a change and its records are one step; fewer than 2^32 moves.  Changes happen between
    the calls of the watcher, at any of them. *)
From Verif Require Import Base EventModel Sys InotifySpec KernelSpec.

(** ** Changes *)
Inductive dop :=
| DMake (dir : bool) (p n : text)                   (* a file or directory [n] in [p] *)
| DWrite (p n : text)
| DRemove (p n : text)                              (* a file *)
| DRmdir (p n : text) (self_first : bool)           (* an empty directory *)
| DMove (dir : bool) (p n p' n' : text).            (* [n] in [p] becomes [n'] in [p'] *)

Definition type (dir : bool) : path_type := if dir then PtDir else PtFile.
(** What happened, in full. *)
Definition truth (o : dop) : shape :=
  match o with
  | DMake d p n => Sh (entry p n) EtCreate (type d) None
  | DWrite p n => Sh (entry p n) EtModify PtFile None
  | DRemove p n => Sh (entry p n) EtDestroy PtFile None
  | DRmdir p n _ => Sh (entry p n) EtDestroy PtDir None
  | DMove d p n p' n' => Sh (entry p n) EtRename (type d) (Some (Sh (entry p' n') EtRename (type d) None))
  end.

(** ** What a record tells *)
(** [About mv o arrival dir]: the change [o], or the arrival or departure it consists of,
    in a directory that was watched as [dir]; the two halves of a move have its number [mv].
    [Itself]: the end or move of a watched directory, told by that directory's own watch.
    [Gap]: something was lost. *)
Inductive notice := About (mv : N) (o : dop) (arrival : bool) (dir : text) | Itself | Gap.
(** Where it happened: the directory, and the name in it. *)
Definition place_of (o : dop) (arrival : bool) : text :=
  match o with DMake _ p _ | DWrite p _ | DRemove p _ | DRmdir p _ _ => p | DMove _ p _ p' _ => if arrival then p' else p end.
Definition name_of (o : dop) (arrival : bool) : text :=
  match o with DMake _ _ n | DWrite _ n | DRemove _ n | DRmdir _ n _ => n | DMove _ _ n _ n' => if arrival then n' else n end.
Definition effect_told (o : dop) : effect_type :=
  match o with DMake _ _ _ => EtCreate | DWrite _ _ => EtModify | DRemove _ _ | DRmdir _ _ _ => EtDestroy | DMove _ _ _ _ _ => EtRename end.
Definition type_told (o : dop) : path_type :=
  match o with DMake d _ _ | DMove d _ _ _ _ => type d | DRmdir _ _ _ => PtDir | DWrite _ _ | DRemove _ _ => PtFile end.
(** The event of it, if the directory is called [dir]. *)
Definition alone (o : dop) (arrival : bool) (dir : text) : shape :=
  Sh (entry dir (name_of o arrival)) (effect_told o) (type_told o) None.
Definition lost_warning : shape := warning "w/sys/phantom@" [].

(** [told_of ns l]: the events and warnings [l] tell of [ns], in order, each once: as they
    are; or both halves of a move as one event, in which the new name is put into the
    directory of the old one; a gap as a warning; the end of a directory, told by its own
    watch, as nothing or as the same warning. *)
Inductive told_of : list notice -> list shape -> Prop :=
| TAll : told_of [] []
| TOne mv o a dir ns l : told_of ns l -> told_of (About mv o a dir :: ns) (alone o a dir :: l)
| TMove mv d p n p' n' dir dir' ns l : told_of ns l ->
    told_of (About mv (DMove d p n p' n') false dir :: About mv (DMove d p n p' n') true dir' :: ns)
            (Sh (entry dir n) EtRename (type d) (Some (Sh (entry dir n') EtRename (type d) None)) :: l)
| TGap ns l : told_of ns l -> told_of (Gap :: ns) (lost_warning :: l)
| TItself ns l : told_of ns l -> told_of (Itself :: ns) l
| TItself' ns l : told_of ns l -> told_of (Itself :: ns) (lost_warning :: l).

(** ** The kernel *)
(** What becomes of a record: it is put into the queue; the last one waiting tells the same
    modification already; it is lost. *)
Inductive fate := Queued | Joined | Lost.
Definition sent := (krec * notice)%type.
Record dkern := DK {
  dk_dirs : list (text * option Z);             (* by present path; with the watch, if there is one *)
  dk_files : list text;
  dk_next : Z; dk_cookies : N;
  dk_queue : list sent;                         (* records not yet read *)
  (* for the theorems only: what the records tell, and *)
  dk_given : list (Z * text);                   (* every watch there ever was, and the path it was asked for *)
  dk_read : list sent;                          (* every record that was read *)
  dk_log : list (dop * list (notice * fate)) }. (* every change, and what was recorded of it *)
Definition dk_start (dirs files : list text) : dkern := DK (map (fun p => (p, None)) dirs) files 1 0 [] [] [] [].

Definition dir_at (k : dkern) (p : text) : bool := existsb (fun w => text_eqb (fst w) p) (dk_dirs k).
Definition wd_at (k : dkern) (p : text) : option Z :=
  match find (fun w => text_eqb (fst w) p) (dk_dirs k) with Some w => snd w | None => None end.
Definition watched_as (k : dkern) (wd : Z) : text :=
  match find (fun w => (fst w =? wd)%Z) (dk_given k) with Some w => snd w | None => [] end.
Definition at_or_below (p q : text) : bool := text_eqb p q || below p q.
Definition dlegal (k : dkern) (o : dop) : bool :=
  match o with
  | DMake _ p n => dir_at k p && good_name n && negb (dir_at k (entry p n)) && negb (has (entry p n) (dk_files k))
  | DWrite p n | DRemove p n => dir_at k p && good_name n && has (entry p n) (dk_files k)
  | DRmdir p n _ =>
      dir_at k p && good_name n && dir_at k (entry p n)
      && negb (existsb (fun w => below (entry p n) (fst w)) (dk_dirs k)) && negb (existsb (below (entry p n)) (dk_files k))
  | DMove d p n p' n' =>
      dir_at k p && dir_at k p' && good_name n && good_name n' && negb (dir_at k (entry p' n')) && (dk_cookies k + 1 <? 4294967296)%N
      && if d then dir_at k (entry p n) && negb (has (entry p' n') (dk_files k)) && negb (at_or_below (entry p n) p')
                   && negb (existsb (fun w => at_or_below (entry p' n') (fst w)) (dk_dirs k))
         else has (entry p n) (dk_files k) && negb (text_eqb (entry p n) (entry p' n'))
  end.

(** *** Records *)
Definition on_watch (k : dkern) (p : text) (kd : kind) (dir : bool) (cookie : N) (name : text) (what : text -> notice) : list sent :=
  match wd_at k p with Some wd => [(rec_of wd kd dir cookie name, what (watched_as k wd))] | None => [] end.
Definition next_cookie (k : dkern) : N := (dk_cookies k + 1)%N.
Definition drecords (k : dkern) (o : dop) : list sent :=
  match o with
  | DMake d p n => on_watch k p KCreate d 0 n (About 0 o false)
  | DWrite p n => on_watch k p KModify false 0 n (About 0 o false)
  | DRemove p n => on_watch k p KDelete false 0 n (About 0 o false)
  | DRmdir p n first =>
      let up := on_watch k p KDelete true 0 n (About 0 o false) in
      let self := on_watch k (entry p n) KDeleteSelf true 0 [] (fun _ => Itself) ++ on_watch k (entry p n) KIgnored false 0 [] (fun _ => Itself) in
      if first then self ++ up else up ++ self
  | DMove d p n p' n' =>
      let c := next_cookie k in
      on_watch k p KMovedFrom d c n (About c o false) ++ on_watch k p' KMovedTo d c n' (About c o true)
      ++ (if d then on_watch k (entry p n) KMoveSelf true 0 [] (fun _ => Itself) else [])
  end.
Definition overflows (r : krec) : bool := match k_kind r with KOverflow => true | _ => false end.
Definition overflow : sent := (rec_of (-1) KOverflow false 0 [], Gap).
(** A record is added to the queue, which has room for [max] (and the overflow record). *)
Definition post (max : nat) (q : list sent) (s : sent) : list sent * list (notice * fate) :=
  if (max <=? length q)%nat then
    if existsb (fun x => overflows (fst x)) q then (q, [(snd s, Lost)])
    else (q ++ [overflow], [(snd s, Lost); (Gap, Queued)])
  else
    match rev q with
    | l :: _ => if same_rec (fst l) (fst s) && is_modify (fst s) then (q, [(snd s, Joined)]) else (q ++ [s], [(snd s, Queued)])
    | [] => (q ++ [s], [(snd s, Queued)])
    end.
Fixpoint posts (max : nat) (q : list sent) (l : list sent) : list sent * list (notice * fate) :=
  match l with
  | [] => (q, [])
  | s :: l' => let '(q1, f) := post max q s in let '(q2, fs) := posts max q1 l' in (q2, f ++ fs)
  end.

(** *** A change happens *)
(** What is at [e] or below it is at [e'] or below it. *)
Definition renamed (e e' q : text) : text := if at_or_below e q then e' ++ skipn (length e) q else q.
Definition ddirs_after (k : dkern) (o : dop) : list (text * option Z) :=
  match o with
  | DMake true p n => dk_dirs k ++ [(entry p n, None)]
  | DRmdir p n _ => filter (fun w => negb (text_eqb (fst w) (entry p n))) (dk_dirs k)
  | DMove true p n p' n' => map (fun w => (renamed (entry p n) (entry p' n') (fst w), snd w)) (dk_dirs k)
  | _ => dk_dirs k
  end.
Definition dfiles_after (k : dkern) (o : dop) : list text :=
  match o with
  | DMake false p n => dk_files k ++ [entry p n]
  | DRemove p n => without (entry p n) (dk_files k)
  | DMove false p n p' n' => without (entry p n) (without (entry p' n') (dk_files k)) ++ [entry p' n']
  | DMove true p n p' n' => map (renamed (entry p n) (entry p' n')) (dk_files k)
  | _ => dk_files k
  end.
Definition dcookies_after (k : dkern) (o : dop) : N := match o with DMove _ _ _ _ _ => next_cookie k | _ => dk_cookies k end.
Definition dhappen (max : nat) (k : dkern) (o : dop) : dkern :=
  if dlegal k o then
    let '(q, f) := posts max (dk_queue k) (drecords k o) in
    DK (ddirs_after k o) (dfiles_after k o) (dk_next k) (dcookies_after k o) q (dk_given k) (dk_read k) (dk_log k ++ [(o, f)])
  else k.
Definition dhappens (max : nat) (k : dkern) (os : list dop) : dkern := fold_left (dhappen max) os k.

(** *** Calls *)
(** inotify_add_watch; see [KernelSpec]. *)
Definition dmarking (deny : bool) (k : dkern) (p : text) : Z * dkern :=
  if negb deny && dir_at k p then
    match wd_at k p with
    | Some wd => (wd, k)
    | None =>
        if (dk_next k <? 2147483648)%Z
        then (dk_next k, DK (map (fun w => if text_eqb (fst w) p then (fst w, Some (dk_next k)) else w) (dk_dirs k)) (dk_files k)
                (dk_next k + 1) (dk_cookies k) (dk_queue k) (dk_given k ++ [(dk_next k, p)]) (dk_read k) (dk_log k))
        else ((-1)%Z, k)
    end
  else ((-1)%Z, k).
Definition dasks_all (m : N) : bool := asks_all m && negb (N.land m (kind_bit KMoveSelf) =? 0)%N.
Definition dadding (mine : bool) (m : N) (deny : bool) (k : dkern) (p : text) : Z * dkern :=
  if negb mine then ((-1)%Z, k) else if dasks_all m then dmarking deny k p else (2147483647%Z, k).
(** A read takes at most [want] records, and no more than 4096 bytes. *)
Definition nothing : rd := {| rd_len := -1; rd_bytes := []; rd_errno := 11 |}.
Definition dreading (mine : bool) (want : nat) (k : dkern) : rd * dkern :=
  match dk_queue k with
  | [] => (nothing, k)
  | q =>
      if negb mine then (nothing, k) else
      let c := fitting 4096 (S want) (map fst q) in
      let bs := encode (map fst (firstn c q)) in
      ({| rd_len := Z.of_nat (length bs); rd_bytes := bs; rd_errno := 0 |},
       DK (dk_dirs k) (dk_files k) (dk_next k) (dk_cookies k) (skipn c q) (dk_given k) (dk_read k ++ firstn c q) (dk_log k))
  end.

(** ** The whole system *)
(** As in [KernelSpec]; [de_max] is the limit of the queue. *)
Record denv := {
  de_fd : Z; de_max : nat; de_start : dkern;
  de_ops : trace -> list dop; de_deny : trace -> bool; de_want : trace -> nat; de_base : dkern -> os }.
Section Env.
  Variable e : denv.
  Fixpoint dstate_rev (rtr : list obs) : dkern :=
    match rtr with
    | [] => de_start e
    | x :: r =>
        let k := dhappens (de_max e) (dstate_rev r) (de_ops e (rev r)) in
        match x with
        | OAddWatch fd p m _ => snd (dadding (fd =? de_fd e)%Z m (de_deny e (rev r)) k p)
        | ORead fd _ => snd (dreading (fd =? de_fd e)%Z (de_want e (rev r)) k)
        | _ => k
        end
    end.
  (** The state after these calls, and the state in which the next one is answered. *)
  Definition dstate (tr : trace) : dkern := dstate_rev (rev tr).
  Definition dat_call (tr : trace) : dkern := dhappens (de_max e) (dstate tr) (de_ops e tr).
  Definition dsystem : os := {|
    os_add_watch := fun tr fd p m => fst (dadding (fd =? de_fd e)%Z m (de_deny e tr) (dat_call tr) p);
    os_read := fun tr fd _ => fst (dreading (fd =? de_fd e)%Z (de_want e tr) (dat_call tr));
    os_now := fun tr => os_now (de_base e (dat_call tr)) tr;
    os_geteuid := fun tr => os_geteuid (de_base e (dat_call tr)) tr;
    os_realpath := fun tr => os_realpath (de_base e (dat_call tr)) tr;
    os_is_dir := fun tr => os_is_dir (de_base e (dat_call tr)) tr;
    os_opendir := fun tr => os_opendir (de_base e (dat_call tr)) tr;
    os_inotify_init := fun _ => de_fd e;
    os_fan_init := fun tr => os_fan_init (de_base e (dat_call tr)) tr;
    os_fan_mark := fun tr => os_fan_mark (de_base e (dat_call tr)) tr;
    os_epoll_create := fun tr => os_epoll_create (de_base e (dat_call tr)) tr;
    os_epoll_ctl := fun tr => os_epoll_ctl (de_base e (dat_call tr)) tr;
    os_epoll_wait := fun tr => os_epoll_wait (de_base e (dat_call tr)) tr;
    os_open_handle := fun tr => os_open_handle (de_base e (dat_call tr)) tr;
    os_readlink := fun tr => os_readlink (de_base e (dat_call tr)) tr;
  |}.
End Env.

(** ** What the user is owed *)
(** Everything recorded of the changes, in order, with what became of it. *)
Definition recorded (k : dkern) : list (notice * fate) := flat_map snd (dk_log k).
Definition is_queued (x : notice * fate) : bool := match snd x with Queued => true | _ => false end.
Definition is_lost (x : notice * fate) : bool := match snd x with Lost => true | _ => false end.
Definition due (k : dkern) : list notice := map fst (filter is_queued (recorded k)).
(** The filesystem events among what the user was shown, and the warnings of gaps: those of
    an overflow, and those of an unknown watch. *)
Definition warns_of (what : text) (p : text) : bool := text_eqb (firstn (length what) p) what.
Definition is_news (s : shape) : bool :=
  match s with Sh p _ PtWatcher _ => text_eqb p (lit "w/sys/phantom@") || warns_of (lit "w/sys/q_overflow@") p | _ => true end.
Definition news (o : trace) : list shape := filter is_news (map shape_of (callbacks o)).

(** ** Words for the theorems *)
(** What an unprivileged watcher on [path] may do; see [KernelSpec]. *)
Definition dunprivileged (e : denv) : Prop := forall k tr, os_geteuid (de_base e k) tr <> 0%Z.
(** [ev] tells the change [o] as it was, or the departure or the arrival of a move. *)
Definition right_about (ev : shape) (o : dop) : Prop :=
  ev = truth o \/
  match o with
  | DMove d p n p' n' => ev = Sh (entry p n) EtRename (type d) None \/ ev = Sh (entry p' n') EtRename (type d) None
  | _ => False
  end.
(** Among these changes, [p] or a directory above it was moved. *)
Definition moved_away (l : list (dop * list (notice * fate))) (p : text) : Prop :=
  exists q n q' n' ns, In (DMove true q n q' n', ns) l /\ at_or_below (entry q n) p = true.
(** How many records were lost. *)
Definition losses (k : dkern) : nat := length (filter is_lost (recorded k)).

(** Where the directory [p] is after these changes, if it is there. *)
Fixpoint now_at (p : text) (l : list (dop * list (notice * fate))) : option text :=
  match l with
  | [] => Some p
  | (DRmdir q n _, _) :: l' => if text_eqb (entry q n) p then None else now_at p l'
  | (DMove true q n q' n', _) :: l' => now_at (renamed (entry q n) (entry q' n') p) l'
  | _ :: l' => now_at p l'
  end.
(** Before the first wait nothing changes and no watch is denied. *)
Definition dstill_start (e : denv) : Prop :=
  forall tr, Forall (fun x => match x with OEpollWait _ _ => False | _ => True end) tr -> de_ops e tr = [] /\ de_deny e tr = false.
(** The change is, or begins or ends, in a directory: there are two of them for a move. *)
Definition has_place (o : dop) (arrival : bool) : Prop := arrival = true -> exists d p n p' n', o = DMove d p n p' n'.
(** [ev] tells [o], which happened in the directory known as [dir]. *)
Definition mentions (ev : shape) (o : dop) (arrival : bool) (dir : text) : Prop :=
  ev = alone o arrival dir \/
  match o with
  | DMove d p n p' n' => exists from, ev = Sh (entry from n) EtRename (type d) (Some (Sh (entry from n') EtRename (type d) None)) /\ (arrival = false -> from = dir)
  | _ => False
  end.

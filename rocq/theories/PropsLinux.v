(** Theorems C04, C09, C18, C26, C33-C36: the Linux adapter as a whole
    ([linux_watch]: choice of fanotify or inotify, start, event loop, end).
    A run is [linux_watch s fuel path il tr = (o, r)]: [s] answers every system
    call in any way whatsoever, [il] is the stop descriptor, [tr] what happened
    before, [o] what is observed, [r] how it ends ([Ok b] returned [b]; [Fuel] is a
    run cut off after [fuel] rounds, so [o] ranges over all prefixes of runs). *)
From Verif Require Import Base PathModel EventModel Sys LinuxModel InotifyModel FanotifyModel LinuxWatch
  LinuxSpec LinuxFacts LinuxRun LinuxProps LinuxFds LinuxChoice LinuxLoop InotifySpec InotifyTree WalkSpec WalkFacts
  ExampleOs LinuxExamples.

(** A run with a new directory, a rename and a modification, ended by a stop. *)
Definition run1_os : os := scripted 1000 tree_w [Some [3%Z]]
  [gives (encode [kr 1 KCreate true 0 "n"; kr 1 KMovedFrom false 7 "a"; kr 1 KMovedTo false 7 "b"; kr 2 KModify false 0 "x"])].
Definition run1 := linux_watch run1_os 10 (lit "/w") 5 [].

(** ** C04: success only on request *)
Theorem C04_success_only_on_request :
  forall s fuel path il tr o, linux_watch s fuel path il tr = (o, Ok true) -> stop_seen il o.
Proof.
  intros s fuel path il tr o E. apply linux_watch_inv in E as [(_ & _ & H)|([=] & _)]. exact H.
Qed.
Print Assumptions C04_success_only_on_request.
Example C04_example : snd run1 = Ok true.
Proof. vm_compute. reflexivity. Qed.

(** ** C09: a stop ends the loop *)

(** When the stop descriptor is the last of the ready ones, the loop ends after
    this batch, with success (or the code ran into undefined behaviour while
    serving the batch; C19 and C28 say when not). *)
Theorem C09_stop_ends_loop_partial :
  forall s path il fuel tr o1 x o2,
    fst (linux_watch s fuel path il tr) = o1 ++ x :: o2 -> stop_wait il x ->
    exists o3, fst (linux_watch s (S fuel) path il tr) = o1 ++ x :: o3 /\ Forall no_wait o3 /\
      (snd (linux_watch s (S fuel) path il tr) = Ok true \/
       exists u, snd (linux_watch s (S fuel) path il tr) = Undef u).
Proof.
  intros s path il fuel tr o1 x o2 E Hx.
  destruct (linux_watch_stop s path il fuel tr o1 x o2 E Hx) as (o3 & E3 & Hq & [(a & Ha & ->)|H]); eauto.
Qed.
Print Assumptions C09_stop_ends_loop_partial.
Example C09_example : exists o1 x o2, fst run1 = o1 ++ x :: o2 /\ stop_wait 5 x.
Proof.
  exists (firstn 29 (fst run1)), (OEpollWait 4 (Some [5%Z])), (skipn 30 (fst run1)). split; [vm_compute; reflexivity|].
  exists 4%Z, [5%Z], []. auto.
Qed.

(** The full claim fails: if the stop descriptor comes before the event
    descriptor, its effect is overwritten.  Under a steady load the loop never
    ends although every single wait reports the stop. *)
Theorem C09_stop_ends_loop_refuted :
  exists s path il, forall fuel,
    snd (linux_watch s fuel path il []) = Fuel /\
    (forall ep r, In (OEpollWait ep r) (fst (linux_watch s fuel path il [])) -> exists fds, r = Some fds /\ In il fds).
Proof.
  exists busy, (lit "/w"), 5%Z. intros n. destruct (busy_forever n) as [H1 H2]. split; [exact H1|].
  intros ep r Hin. exists [5; 3]%Z. split; [eapply H2, Hin|now left].
Qed.
Print Assumptions C09_stop_ends_loop_refuted.

(** ** C18: message severity *)

(** Result codes: pending and warnings, then complete, then errors; the texts
    of warnings and errors start with their letter. *)
Theorem C18_codes_are_ordered :
  forall r, (r_lt r r_complete = true <-> r = r_pending \/ starts (lit "w") (to_str r)) /\
            (r_ge r r_e = true <-> starts (lit "e") (to_str r)) /\
            (r_lt r_complete r = true <-> r_ge r r_e = true).
Proof.
  intros r; destruct r; unfold starts; vm_compute; repeat split; intros H; try discriminate; try reflexivity; auto;
    try (right; eexists; reflexivity); try (eexists; reflexivity);
    try (destruct H as [?|(? & ?)]; discriminate); try (destruct H as (? & ?); discriminate).
Qed.
Print Assumptions C18_codes_are_ordered.

(** The adapter goes on after warnings and never after an error: all messages
    are warnings, but for one error at the very end of a failed run. *)
Theorem C18_warnings_go_on_errors_stop :
  forall s fuel path il tr o r, linux_watch s fuel path il tr = (o, r) ->
    (r = Ok true -> only_warnings o) /\
    (r = Ok false -> exists o1 e, o = o1 ++ [ONow (ev_time e); OCallback e] /\ only_warnings o1 /\ is_error e) /\
    (r = Fuel -> only_warnings o).
Proof.
  intros s fuel path il tr o r E. split; [|split]; intros ->.
  - apply linux_watch_inv in E as [(_ & H & _)|([=] & _)]. exact H.
  - apply linux_watch_inv in E as [([=] & _)|(_ & o1 & e & Ho & Hw & Hf)]. exists o1, e. split; [exact Ho|]. split; [exact Hw|apply Hf].
  - pose proof (linux_watch_running s fuel path il tr) as H. rewrite E in H. now apply H.
Qed.
Print Assumptions C18_warnings_go_on_errors_stop.
(** A run with a warning (phantom descriptor 7) that goes on, then fails. *)
Example C18_example :
  let (o, r) := linux_watch (scripted 1000 tree_w [Some [3%Z]; None] [gives (encode [kr 7 KModify false 0 "x"; kr 1 KModify false 0 "y"])]) 10 (lit "/w") 5 [] in
  map shape_of (callbacks o) = [warning "w/sys/phantom@" []; Sh (lit "/w/y") EtModify PtFile None; Sh (lit "e/sys/api/epoll@/w") EtOther PtWatcher None]
  /\ r = Ok false.
Proof. vm_compute. auto. Qed.

(** ** C26: new directories *)
Theorem C26_new_directories_marked_before_announced :
  forall s fuel path il tr, marked_before_announced (fst (linux_watch s fuel path il tr)).
Proof. intros s fuel path il tr. apply linux_watch_marks. Qed.
Print Assumptions C26_new_directories_marked_before_announced.
Example C26_example : exists e, In (OCallback e) (fst run1) /\ is_new_dir e.
Proof. exists (Ev (lit "/w/n") EtCreate PtDir 18 None). split; [vm_compute; tauto|split; reflexivity]. Qed.

(** ** C33: the start *)
Theorem C33_every_directory_marked_once_partial :
  forall s fuel path t il tr,
    on_disk s path t -> (depth t < fuel)%nat -> opened (fst (linux_watch s fuel path il tr)) ->
    offered (fst (linux_watch s fuel path il tr)) = preorder t /\
    NoDup (preorder t) /\
    (forall a q b, preorder t = a ++ q :: b ->
       (a = [] /\ q = root_dir t) \/ exists d n, In d a /\ good_name n /\ q = entry d n).
Proof.
  intros s fuel path t il tr Hd Hlt Ho. split; [now apply linux_watch_offers|].
  split; [eapply preorder_nodup, Hd|eapply preorder_parent, Hd].
Qed.
Print Assumptions C33_every_directory_marked_once_partial.

Example C33_example :
  let t := Tree (lit "/w") [Tree (lit "/w/d") []] in
  on_disk run1_os (lit "/w") t /\ (depth t < 10)%nat /\ opened (fst run1) /\ preorder t = [lit "/w"; lit "/w/d"].
Proof.
  cbv zeta. split; [|split; [cbn; lia|split; [|reflexivity]]].
  - assert (Hne : forall e, In e [sub "."; sub ".."; file "f"] -> ~ is_sub e).
    { intros e [<-|[<-|[<-|[]]]] (H1 & H2 & H3); cbn in *; congruence. }
    apply OnDisk with (ents := [sub "."; sub ".."; sub "d"; file "f"]); try reflexivity; [discriminate|].
    apply LOther; [apply Hne; cbn; auto|]. apply LOther; [apply Hne; cbn; auto|].
    apply LSub; try reflexivity.
    + split; [reflexivity|]. split; discriminate.
    + split; [discriminate|]. repeat constructor; discriminate.
    + apply Nat.leb_le. vm_compute. reflexivity.
    + intros [].
    + apply OnDisk with (ents := [sub "."; sub ".."]); try reflexivity; [discriminate|].
      apply LOther; [apply Hne; cbn; auto|]. apply LOther; [apply Hne; cbn; auto|]. constructor.
    + apply LOther; [apply Hne; cbn; auto 6|]. constructor.
  - right. exists 3%Z. split; [vm_compute; tauto|lia].
Qed.

(** The full claim fails twice.  Joined paths are cut to 4095 bytes unnoticed: a
    directory whose path has 4095 bytes is taken for its own subdirectory and
    the start does not end (in reality: not before the process runs out of
    descriptors or stack). *)
Theorem C33_walk_terminates_refuted :
  exists s path, length path = N.to_nat 4095 /\
    (forall tr, os_opendir s tr path = Some [sub "d"]) /\ (forall tr p, os_realpath s tr p = Some p) /\
    forall fuel, snd (linux_watch s fuel path 5 []) = Fuel /\ Forall no_wait (fst (linux_watch s fuel path 5 [])).
Proof.
  exists deep, long_path. split.
  { unfold long_path. rewrite app_length, repeat_length. change (length (lit "/")) with 1%nat. lia. }
  split.
  { intros tr. change (fs_find [(long_path, [sub "d"])] long_path = Some [sub "d"]). cbn [fs_find]. now rewrite text_eqb_refl'. }
  split; [reflexivity|]. intros n. split; [apply deep_forever|]. apply deep_no_wait.
Qed.
Print Assumptions C33_walk_terminates_refuted.

(** And a directory whose type the file system does not tell (DT_UNKNOWN = 0)
    is never marked, though it can be opened. *)
Theorem C33_every_directory_marked_once_refuted :
  exists s, os_opendir s [] (lit "/w/u") = Some [] /\
    os_opendir s [] (lit "/w") = Some [{| de_name := lit "u"; de_type := 0 |}] /\
    offered (fst (linux_watch s 10 (lit "/w") 5 [])) = [lit "/w"].
Proof.
  exists (scripted 1000 [(lit "/w", [{| de_name := lit "u"; de_type := 0 |}]); (lit "/w/u", [])] [] []).
  vm_compute. auto.
Qed.
Print Assumptions C33_every_directory_marked_once_refuted.

(** ** C34: errors end the loop and are reported *)
Theorem C34_errors_end_and_are_reported :
  forall s fuel path il tr o b, linux_watch s fuel path il tr = (o, Ok b) ->
    (b = true <-> only_warnings o) /\
    (b = true -> stop_seen il o) /\
    (b = false -> exists o1 e, o = o1 ++ [ONow (ev_time e); OCallback e] /\ only_warnings o1 /\ fatal_message path e).
Proof.
  intros s fuel path il tr o b E. apply linux_watch_inv in E as [(-> & Hw & Hs)|(-> & o1 & e & -> & Hw & Hf)].
  - split; [split; auto|]. split; [auto|discriminate].
  - split; [|split; [discriminate|eauto]]. split; [discriminate|]. intros H. exfalso.
    destruct Hf as [(Hm & _ & _ & rest & Hr) _]. destruct (H e) as (_ & _ & _ & rest' & Hr'); [|exact Hm|].
    + apply in_or_app. right. cbn. auto.
    + rewrite Hr in Hr'. discriminate.
Qed.
Print Assumptions C34_errors_end_and_are_reported.
Example C34_example :
  snd run1 = Ok true /\
  let (o, r) := linux_watch (scripted 1000 [] [] []) 10 (lit "/w") 5 [] in
  r = Ok false /\ map ev_path (callbacks o) = [lit "e/self/noent@/w"].
Proof. vm_compute. auto. Qed.

(** Within one batch of ready descriptors a later one hides an error: here the
    event descriptor's read fails for good (errno 5), but the stop after it
    turns the end into a success without any message. *)
Theorem C34_error_hidden_by_stop :
  exists s o, linux_watch s 10 (lit "/w") 5 [] = (o, Ok true) /\ callbacks o = [] /\
    In (ORead 3 {| rd_len := -1; rd_bytes := []; rd_errno := 5 |}) o.
Proof.
  exists (scripted 1000 tree_w [Some [3; 5]%Z] [{| rd_len := -1; rd_bytes := []; rd_errno := 5 |}]).
  eexists. split; [vm_compute; reflexivity|]. split; [reflexivity|]. cbn. tauto.
Qed.
Print Assumptions C34_error_hidden_by_stop.

(** ** C35: descriptors *)

(** At no time is anything closed that is not open; and if the system never
    hands out descriptor 0, everything is closed at the end. *)
Theorem C35_no_leak_no_double_close_partial :
  forall s fuel path il tr o r, linux_watch s fuel path il tr = (o, r) ->
    no_bad_close o /\ (stdin_open s -> forall b, r = Ok b -> all_closed o).
Proof. intros s fuel path il tr o r. apply linux_watch_fds. Qed.
Print Assumptions C35_no_leak_no_double_close_partial.

Theorem C35_directory_streams_balanced :
  forall s fuel path il tr o b, linux_watch s fuel path il tr = (o, Ok b) -> streams_balanced o.
Proof. intros s fuel path il tr o b. apply linux_watch_streams. Qed.
Print Assumptions C35_directory_streams_balanced.

Example C35_example : stdin_open run1_os /\ snd run1 = Ok true /\ In (OEpollCreate 4) (fst run1).
Proof. split; [repeat split; intros; vm_compute; discriminate|]. split; [vm_compute; reflexivity|vm_compute; tauto]. Qed.

(** The full claim fails: descriptor 0 is taken for a failure and leaked. *)
Theorem C35_descriptor_zero_leaked_refuted :
  exists s o b, linux_watch s 10 (lit "/w") 5 [] = (o, Ok b) /\ open_count 0 o = 1%Z.
Proof.
  exists {| os_now := fun _ => 0%Z; os_geteuid := fun _ => 0%Z; os_realpath := fun _ p => Some p;
     os_is_dir := fun _ _ => true; os_opendir := fun _ _ => Some []; os_inotify_init := fun _ => 3%Z;
     os_add_watch := fun _ _ _ _ => 1%Z; os_fan_init := fun _ => 0%Z; os_fan_mark := fun _ _ _ _ => 0%Z;
     os_epoll_create := fun _ => 4%Z; os_epoll_ctl := fun _ _ _ => 0%Z; os_epoll_wait := fun _ _ => Some [5%Z];
     os_read := fun _ _ _ => again; os_open_handle := fun _ _ => (9, 0)%Z; os_readlink := fun _ _ => None |}.
  do 2 eexists. split; [vm_compute; reflexivity|]. vm_compute. reflexivity.
Qed.
Print Assumptions C35_descriptor_zero_leaked_refuted.

(** ** C36: choice of the adapter *)

(** A user other than root gets inotify and never fanotify.  Root gets fanotify;
    if that is unavailable (descriptor below 1) the next thing that happens (but
    for closing nothing, twice) is inotify; otherwise inotify is never used. *)
Theorem C36_adapter_selection :
  forall s fuel path il tr, fuel <> 0%nat ->
    exists uid rest, fst (linux_watch s fuel path il tr) = OGeteuid uid :: rest /\
    (uid <> 0%Z -> exists fd rest', rest = OInotifyInit fd :: rest' /\
       none_of uses_fanotify rest' /\ none_of uses_inotify rest') /\
    (uid = 0%Z -> exists fd rest', rest = OFanInit fd :: rest' /\ none_of uses_fanotify rest' /\
       ((fd < 1)%Z -> exists fd2 rest'', rest' = [OClose (-1); OClose (-1)] ++ OInotifyInit fd2 :: rest'' /\
                        none_of uses_inotify rest'') /\
       ((1 <= fd)%Z -> none_of uses_inotify rest')).
Proof. exact linux_watch_choice. Qed.
Print Assumptions C36_adapter_selection.
Example C36_example :
  firstn 2 (fst run1) = [OGeteuid 1000; OInotifyInit 3] /\
  firstn 2 (fst (linux_watch (scripted 0 tree_w [] []) 10 (lit "/w") 5 [])) = [OGeteuid 0; OFanInit 3].
Proof. vm_compute. auto. Qed.

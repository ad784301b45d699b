(** Model of the bindings: watcher-c/src/watcher-c.cpp, watcher-rs/src/lib.rs,
    watcher-py/watcher/watcher.py, watcher-nodejs/lib/watcher-napi.cpp and
    watcher-nodejs/lib/watcher.ts.

    Not modelled: loading of the library, allocation failures, the channel of the
    Rust binding (unbounded and in order), the JavaScript objects beyond the fields
    of the event. *)
From Verif Require Import Base EventModel Utf8Spec.

(** ** C: watcher-c/include/wtr/watcher-c.h:48-54. *)
Record cview := { v_time : Z; v_path : text; v_assoc : option text; v_effect : Z; v_ptype : Z }.
(** A C string: up to the first NUL. *)
Fixpoint c_str (t : text) : text :=
  match t with [] => [] | c :: t' => if (c =? 0)%N then [] else c :: c_str t' end.
(** A conversion to [int8_t] (two's complement). *)
Definition int8 (z : Z) : Z := ((z + 128) mod 256 - 128)%Z.
(** The wrapped callback, watcher-c/src/watcher-c.cpp:41-65, other than on Windows. *)
Definition view_of (e : event) : cview :=
  {| v_time := ev_time e; v_path := c_str (ev_path e);
     v_assoc := match ev_assoc e with Some a => Some (c_str (ev_path a)) | None => None end;
     v_effect := int8 (effect_code (ev_effect e)); v_ptype := int8 (path_code (ev_ptype e)) |}.

(** PATH_BUF_LEN, :7. *)
Definition path_buf_len : N := 4096.
(** utf16_to_utf8, :22-33.  [wide] is WideCharToMultiByte: the bytes with the
    final NUL, or [None] when they do not fit or cannot be converted.  The result:
    what the buffer holds as a C string, or [None] for -1. *)
Definition utf16_to_utf8 (wide : text -> N -> option text) (t : text) : out (option text) :=
  match wide t path_buf_len with
  | None | Some [] => Ok None
  | Some bs =>
      (* utf8_buf[wrote] = 0 *)
      if (N.of_nat (length bs) <? path_buf_len)%N then Ok (Some (c_str (bs ++ [0%N]))) else Undef OobWrite
  end.
(** The wrapped callback on Windows, :43-54: [Ok None] if the event is dropped. *)
Definition view_of_win (wide : text -> N -> option text) (e : event) : out (option cview) :=
  let view p a := {| v_time := ev_time e; v_path := p; v_assoc := a;
                     v_effect := int8 (effect_code (ev_effect e)); v_ptype := int8 (path_code (ev_ptype e)) |} in
  match utf16_to_utf8 wide (ev_path e) with
  | Ok (Some p) =>
      match ev_assoc e with
      | None => Ok (Some (view p None))
      | Some a =>
          match utf16_to_utf8 wide (ev_path a) with
          | Ok (Some q) => Ok (Some (view p (Some q)))
          | Ok None => Ok None
          | Undef u => Undef u
          | Crash => Crash
          | Fuel => Fuel
          end
      end
  | Ok None => Ok None
  | Undef u => Undef u
  | Crash => Crash
  | Fuel => Fuel
  end.

(** The watchers behind the handles. *)
Inductive cwatch := CLive (future_valid : bool) | CFreed.
(** A call of the C API, with what the system and the watching thread answer:
    whether the stop signal could be raised, and what the watching thread
    returns. *)
Inductive ccall :=
| COpen
| CClose (h : option nat) (released thread : bool).
(** watch::close, include/wtr/watcher.hpp:2275-2279: result, and whether the
    future is still valid. *)
Definition cpp_close (valid released thread : bool) : bool * bool :=
  if released then if valid then (thread, false) else (false, valid) else (false, valid).
(** Replace an element. *)
Fixpoint put {A} (i : nat) (a : A) (l : list A) : list A :=
  match l, i with [], _ => [] | _ :: l', O => a :: l' | x :: l', S j => x :: put j a l' end.
(** wtr_watcher_open, :36-67 (as to handles: a new one each time) and
    wtr_watcher_close, :69-75.  The destructor that [delete] runs closes again;
    the future is no longer valid by then, so this does nothing more. *)
Definition c_step (ws : list cwatch) (c : ccall) : out (list cwatch * bool) :=
  match c with
  | COpen => Ok (ws ++ [CLive true], true)
  | CClose None _ _ => Ok (ws, false)
  | CClose (Some i) released thread =>
      match nth_error ws i with
      | None => Undef OobRead
      | Some CFreed => Undef UseAfterFree
      | Some (CLive v) =>
          let (ok, v') := cpp_close v released thread in
          if ok then Ok (put i CFreed ws, true) else Ok (put i (CLive v') ws, false)
      end
  end.
(** A sequence of calls: the calls made with their results, and how it ends. *)
Fixpoint c_run (ws : list cwatch) (cs : list ccall) : list (ccall * bool) * out (list cwatch) :=
  match cs with
  | [] => ([], Ok ws)
  | c :: cs' =>
      match c_step ws c with
      | Ok (ws', r) => let (l, e) := c_run ws' cs' in ((c, r) :: l, e)
      | Undef u => ([], Undef u)
      | Crash => ([], Crash)
      | Fuel => ([], Fuel)
      end
  end.

(** ** UTF-8 decoding, as the standard libraries of Rust and Python do it: strict. *)
Definition between (a x b : N) : bool := ((a <=? x) && (x <=? b))%N.
Definition cont (x : N) : bool := between 0x80 x 0xBF.
Fixpoint decode (bs : text) : option (list N) :=
  match bs with
  | [] => Some []
  | b0 :: r0 =>
      if (b0 <? 0x80)%N then option_map (cons b0) (decode r0)
      else match r0 with
      | [] => None
      | b1 :: r1 =>
          if between 0xC2 b0 0xDF && cont b1
          then option_map (cons ((b0 - 0xC0) * 64 + (b1 - 0x80))%N) (decode r1)
          else match r1 with
          | [] => None
          | b2 :: r2 =>
              if between 0xE0 b0 0xEF && between (if b0 =? 0xE0 then 0xA0 else 0x80)%N b1 (if b0 =? 0xED then 0x9F else 0xBF)%N && cont b2
              then option_map (cons ((b0 - 0xE0) * 4096 + (b1 - 0x80) * 64 + (b2 - 0x80))%N) (decode r2)
              else match r2 with
              | [] => None
              | b3 :: r3 =>
                  if between 0xF0 b0 0xF4 && between (if b0 =? 0xF0 then 0x90 else 0x80)%N b1 (if b0 =? 0xF4 then 0x8F else 0xBF)%N && cont b2 && cont b3
                  then option_map (cons ((b0 - 0xF0) * 262144 + (b1 - 0x80) * 4096 + (b2 - 0x80) * 64 + (b3 - 0x80))%N) (decode r3)
                  else None
              end
          end
      end
  end.

(** The event of each binding: time, path, associated path, effect, path type;
    paths in scalar values (Rust, Python) or UTF-16 units (JavaScript). *)
Record bevent := BEv { b_time : Z; b_path : list N; b_assoc : option (list N); b_effect : effect_type; b_ptype : path_type }.

(** ** Rust *)
(** c_chars_as_str with its callers, watcher-rs/src/lib.rs:56-65, 96-97. *)
Definition rust_str (t : text) : list N := match decode t with Some cs => cs | None => [] end.
(** effect_type_from_c, path_type_from_c, :67-91. *)
Definition rust_effect (z : Z) : effect_type :=
  match z with
  | 0 => EtRename | 1 => EtModify | 2 => EtCreate | 3 => EtDestroy | 4 => EtOwner | 5 => EtOther
  | _ => EtOther
  end%Z.
Definition rust_ptype (z : Z) : path_type :=
  match z with
  | 0 => PtDir | 1 => PtFile | 2 => PtHardLink | 3 => PtSymLink | 4 => PtWatcher | 5 => PtOther
  | _ => PtOther
  end%Z.
(** ev_from_c, :93-101. *)
Definition rust_event (v : cview) : bevent :=
  BEv (v_time v) (rust_str (v_path v)) (option_map rust_str (v_assoc v)) (rust_effect (v_effect v)) (rust_ptype (v_ptype v)).
(** The C calls of a Watch that is closed as given (:129-134) and then dropped
    (:145-149), on handle [h]: the same handle each time. *)
Definition rust_calls (h : nat) (closes : list (bool * bool)) (drop : bool * bool) : list ccall :=
  map (fun a => CClose (Some h) (fst a) (snd a)) (closes ++ [drop]).

(** ** Python *)
(** _as_utf8 of bytes, watcher.py:62-71; [None]: UnicodeDecodeError. *)
Definition py_str (t : text) : option (list N) := decode t.
(** EffectType(..), PathType(..), :83-110; [None]: ValueError. *)
Definition py_effect (z : Z) : option effect_type :=
  match z with
  | 0 => Some EtRename | 1 => Some EtModify | 2 => Some EtCreate | 3 => Some EtDestroy | 4 => Some EtOwner | 5 => Some EtOther
  | _ => None
  end%Z.
Definition py_ptype (z : Z) : option path_type :=
  match z with
  | 0 => Some PtDir | 1 => Some PtFile | 2 => Some PtHardLink | 3 => Some PtSymLink | 4 => Some PtWatcher | 5 => Some PtOther
  | _ => None
  end%Z.
(** _c_event_to_event, :74-80; [None]: an exception, so the callback is not called. *)
Definition py_event (v : cview) : option bevent :=
  match py_str (v_path v) with
  | None => None
  | Some p =>
      match match v_assoc v with None => Some [] | Some t => py_str t end with
      | None => None
      | Some a =>
          match py_effect (v_effect v), py_ptype (v_ptype v) with
          | Some f, Some t => Some (BEv (v_time v) p (match a with [] => None | _ => Some a end) f t)
          | _, _ => None
          end
      end
  end.
(** Event.to_json, :143-150: the text in scalar values. *)
Definition py_json (e : bevent) : list N :=
  let q := quoted in
  let apn := match b_assoc e with Some ((_ :: _) as a) => q a | _ => lit "null" end in
  lit "{""effect_time"":" ++ chars_of_Z (b_time e) ++ lit ",""path_name"":" ++ q (b_path e)
  ++ lit ",""associated_path_name"":" ++ apn
  ++ lit ",""effect_type"":" ++ q (effect_name (b_effect e))
  ++ lit ",""path_type"":" ++ q (ptype_name (b_ptype e)) ++ lit "}".
(** What is done with a Watch by one thread (:183-202), and the C calls. *)
Inductive pyop := PyEnter | PyClose (released thread : bool) | PyExit (released thread : bool) | PyDel (released thread : bool).
Fixpoint py_calls (watcher : option nat) (ops : list pyop) : list ccall :=
  match ops with
  | [] => []
  | PyEnter :: ops' => py_calls watcher ops'
  | PyClose r t :: ops' | PyExit r t :: ops' | PyDel r t :: ops' =>
      match watcher with
      | Some h => CClose (Some h) r t :: py_calls None ops'
      | None => py_calls None ops'
      end
  end.
(** Several threads in [close], :188-190: looking at the field, the call (which
    lets other threads run), clearing the field. *)
Inductive pypc := PyLook | PyCall (h : nat) | PyClear | PyDone.
Inductive pystep : option nat * list pypc * list ccall -> option nat * list pypc * list ccall -> Prop :=
| Py_look w l1 l2 cs : pystep (w, l1 ++ PyLook :: l2, cs) (w, l1 ++ match w with Some h => PyCall h | None => PyDone end :: l2, cs)
| Py_call w l1 h l2 cs r t : pystep (w, l1 ++ PyCall h :: l2, cs) (w, l1 ++ PyClear :: l2, cs ++ [CClose (Some h) r t])
| Py_clear w l1 l2 cs : pystep (w, l1 ++ PyClear :: l2, cs) (None, l1 ++ PyDone :: l2, cs).

(** ** Node *)
(** napi_create_int64: the nearest double, ties to even; given as an integer
    (every double this large is one). *)
Definition to_double (z : Z) : Z :=
  let a := Z.abs z in
  let e := Z.max 0 (Z.log2 a - 52) in
  let u := (2 ^ e)%Z in
  let q := (a / u)%Z in
  let r := (a mod u)%Z in
  let q' := if (2 * r <? u)%Z then q else if (u <? 2 * r)%Z then (q + 1)%Z else if Z.even q then q else (q + 1)%Z in
  (Z.sgn z * (q' * u))%Z.
(** event_to_js_obj, watcher-napi.cpp:25-49, and the wrapper of watcher.ts:39-48:
    Object.keys in the order of declaration.  [lossy] is what V8 makes of bytes
    that are not UTF-8.  [None]: a key that is not there (undefined). *)
Definition js_str (lossy : text -> list N) (t : text) : list N := match decode t with Some cs => utf16 cs | None => lossy t end.
Definition ts_effects : list string := ["rename"; "modify"; "create"; "destroy"; "owner"; "other"]%string.
Definition ts_ptypes : list string := ["dir"; "file"; "hardLink"; "symLink"; "watcher"; "other"]%string.
Record jsevent := JsEv { j_time : Z; j_path : list N; j_assoc : option (list N); j_effect : option string; j_ptype : option string }.
Definition key (l : list string) (z : Z) : option string := if (z <? 0)%Z then None else nth_error l (Z.to_nat z).
Definition js_event (lossy : text -> list N) (v : cview) : jsevent :=
  JsEv (to_double (v_time v)) (js_str lossy (v_path v)) (option_map (js_str lossy) (v_assoc v))
       (key ts_effects (v_effect v)) (key ts_ptypes (v_ptype v)).

(** The queue of the thread-safe function, watcher-napi.cpp:145 (1024), :72-88
    (not blocking: a full queue refuses), :54-67; close, :92-119.  While the
    JavaScript thread is in [close] it takes nothing; when the function is released
    what is in the queue is still taken.  [A]: the events. *)
Definition queue_size : nat := Z.to_nat 1024.
Inductive jphase := JOpen | JClosing | JClosed.
Record jstate (A : Type) := J { j_phase : jphase; j_queue : list A; j_made : list A; j_called : list (jphase * A); j_leaked : list A }.
Arguments J {A}. Arguments j_phase {A}. Arguments j_queue {A}. Arguments j_made {A}. Arguments j_called {A}. Arguments j_leaked {A}.
Definition jstart {A} : jstate A := J JOpen [] [] [] [].
Inductive jstep {A} : jstate A -> jstate A -> Prop :=
| J_made p q m c k e : p <> JClosed -> (length q < queue_size)%nat -> jstep (J p q m c k) (J p (q ++ [e]) (m ++ [e]) c k)
| J_full p q m c k e : p <> JClosed -> (queue_size <= length q)%nat -> jstep (J p q m c k) (J p q (m ++ [e]) c (k ++ [e]))
| J_call p e q m c k : p <> JClosing -> jstep (J p (e :: q) m c k) (J p q m (c ++ [(p, e)]) k)
| J_close q m c k : jstep (J JOpen q m c k) (J JClosing q m c k)
| J_closed q m c k : jstep (J JClosing q m c k) (J JClosed q m c k).
Inductive jreach {A} : jstate A -> jstate A -> Prop :=
| JR0 s : jreach s s
| JR1 s t u : jreach s t -> jstep t u -> jreach s u.

(** The TypeScript wrapper's close, watcher.ts:51-59, called with these answers of
    the native side: the C calls and the results.  The native close,
    watcher-napi.cpp:92-119, passes on the result of the C close. *)
Fixpoint ts_closes (watcher : option nat) (calls : list (bool * bool)) : list ccall :=
  match calls with
  | [] => []
  | (r, t) :: calls' => match watcher with Some h => CClose (Some h) r t :: ts_closes None calls' | None => ts_closes None calls' end
  end.

(** ** The path a watcher is opened on, as the C side sees it; given in scalar values *)
(** Watch::try_new, lib.rs:117-122: CString::new refuses a NUL, unwrap panics. *)
Definition rust_open (cs : list N) : out text := if existsb (N.eqb 0) cs then Crash else Ok (c_str (utf8 cs)).
(** Watch.__init__, watcher.py:177-179: encode refuses what is not a scalar value;
    [None]: an exception.  ctypes hands over a pointer to the bytes. *)
Definition is_scalar (c : N) : bool := ((c <? 0xD800) || between 0xE000 c 0x10FFFF)%N.
Definition py_open (cs : list N) : option text := if forallb is_scalar cs then Some (c_str (utf8 cs)) else None.
(** watch, watcher-napi.cpp:136-139: as many characters as fit into 4095 bytes. *)
Fixpoint fit (room : nat) (cs : list N) : text :=
  match cs with
  | [] => []
  | c :: cs' => if Nat.leb (length (utf8_char c)) room then utf8_char c ++ fit (room - length (utf8_char c)) cs' else []
  end.
Definition node_path_room : nat := Z.to_nat 4095.
Definition node_open (cs : list N) : text := c_str (fit node_path_room cs).

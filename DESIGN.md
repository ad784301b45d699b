# Formal model of e-dant/watcher in Rocq — design

## What is modelled

`/repo/include/wtr/watcher.hpp` (the amalgamated header; the files under `devel/include` are the same
text) in full except for the items listed under "not modelled", plus `watcher-c`, the conversion and
lifetime code of the Rust, Python and Node bindings, and the command line program.

| Code | Model | Specification | Theorems |
|---|---|---|---|
| `event`, its copies, comparison and text (hpp:57-351), JSON of the CLI (main.cpp:92-105), tiny_watcher | `PathModel`, `EventModel`, `WideModel`, `TinyModel` | `EventSpec` (a JSON reader, decimal numbers, equality of paths) | `PropsEvent`, `PropsWide`, `PropsTiny` |
| `semabin` (hpp:387-466), Linux, Darwin, generic | `SemabinModel` | in `PropsWatch` | `PropsWatch` |
| `class watch` (hpp:2239-2282), all interleavings of watching thread and owner | `WatchModel` | `WatchSpec` (predicates on logs) | `PropsWatch` |
| `close()` called by any number of threads (hpp:2274-2278) | `ManyModel` | in `PropsMany` | `PropsMany` |
| Python's `close()` called by any number of threads (watcher.py:183-202, watcher-c.cpp:69-75) | `PyManyModel` | in `PropsPyMany` | `PropsPyMany` |
| Linux, shared: results, `sysres`, directory walk, epoll loop, adapter choice (hpp:823-1005, 1644-1725) | `Sys`, `LinuxModel`, `LinuxWatch` | `LinuxSpec`, `WalkSpec` | `PropsLinux`, `PropsEnds` |
| inotify (hpp:1285-1642) | `InotifyModel` | `InotifySpec` (kernel records and their bytes, events of a batch) | `PropsInotify` |
| fanotify (hpp:1007-1278) | `FanotifyModel` | `FanotifySpec` | `PropsFanotify` |
| Darwin (hpp:470-818) | `DarwinModel` | `DarwinSpec`, `DarwinWorldSpec` (environment) | `PropsDarwin`, `PropsDarwinWorld`, `PropsDarwinWhole` |
| Windows (hpp:1730-1972) | `WindowsModel` | `WindowsSpec` | `PropsWindows` |
| fallback "warthog" (hpp:1995-2188) | `WarthogModel` | `WarthogSpec` | `PropsWarthog`, `PropsWarthogWhole` |
| bindings C, Rust, Python, Node | `BindModel`, `BindLife` | `BindSpec`, `Utf8Spec` | `PropsBind`, `PropsLife` |
| inotify adapter on a changing filesystem | `LinuxWatch` (same) | `KernelSpec` (environment) | `PropsKernel`, `PropsMoves`, `PropsMemory` |
| the same, with moved directories and lost records | `LinuxWatch` (same) | `DeepSpec`, `DeepTimeSpec` (environment) | `PropsDeep`, `PropsDeepWhole`, `PropsDeepNew` |
| class watch and the inotify adapter on it | `WatchModel`, `LinuxWatch` (same) | `KernelSpec`, `WatchSpec` | `PropsWhole` |
| the bindings on top of that | `BindModel`, `BindLife` (same) | `BindSpec`, `KernelSpec` | `PropsChain` |
| the bindings on Windows | `BindModel`, `WindowsModel` (same) | `BindSpec`, `WinWorldSpec` | `PropsWinChain` |
| the command line program while it watches | `CliModel` (same), `CliLifeSpec` (main.cpp:107-122) | `CliLifeSpec`, `EventSpec` | `PropsCliLife` |
| the small example program while it watches | `TinyModel` (same) | `TinyLifeSpec` | `PropsTinyLife` |
| the bindings on Darwin | `BindModel`, `BindLife`, `DarwinModel` (same) | `BindSpec`, `DarwinWorldSpec` | `PropsDarwinChain` |
| the bindings with fanotify | `BindModel`, `BindLife`, `FanotifyModel` (same) | `BindSpec`, `FanWorldSpec` | `PropsFanChain` |
| several watchers in one program (Linux) | `LinuxWatch` (same) | `OwnSpec` | `PropsOwn` |
| fanotify adapter on a changing filesystem | `LinuxWatch`, `FanotifyModel` (same) | `FanWorldSpec` (environment), `FanTreeSpec`, `FanLifeSpec` | `PropsFanWorld`, `PropsFanTree`, `PropsFanWhole` |
| fanotify adapter where directories move and vanish and the queue is limited | `LinuxWatch`, `FanotifyModel` (same) | `FanDeepSpec` (environment) | `PropsFanDeep`, `PropsFanDeepWhole` |
| Windows adapter on a changing filesystem | `WindowsModel` (same) | `WinWorldSpec` (environment) | `PropsWinWorld` |
| class watch and the Windows adapter on it | `WatchModel`, `WindowsModel` (same) | `WinWorldSpec`, `WatchSpec` | `PropsWinWhole` |
| command line (main.cpp:46-123) | `CliModel` | `CliSpec` | `PropsCli` |
| the Rust program (watcher-rs/src/main.rs) and its JSON | `RustProgModel` | `EventSpec`, `BindSpec` | `PropsRustProg` |
| the Python program (watcher.py:205-213) | `PyProgModel` | `EventSpec`, `BindSpec` | `PropsPyProg` |
| the rename program (devel/src/portable-destructive-rename/main.c) | `RenameModel` | `RenameSpec` | `PropsRename` |
| all JSON texts, all bindings, exact conditions | `EventModel`, `CliModel`, `BindModel` (same) | `EventSpec`, `JsonSpec`, `BindSpec` | `PropsJson`, `PropsBindExact`, `PropsExact` |

Every other file (`*Facts`, `*Run`, `*Claims`, ...) holds lemmas. `ExampleOs`, `LinuxExamples`,
`WatchExamples` and the `Example`s beside the theorems are concrete systems and runs that meet the
hypotheses.

### Conventions

* Text is `list N` (code units: bytes on narrow platforms, UTF-16 units on Windows).
* Code that calls the system or the user's callback runs in a trace monad `trace -> trace * out A`.
  Every system call and every callback appends one typed observation; every answer comes from an oracle
  record (`os`, `wfs`, `nfs`, `dfs`) whose fields see the whole trace so far. "For all `s`" therefore
  covers every behaviour of kernel, filesystem and clock. Kernel contracts, where a property needs one,
  are explicit hypotheses about the oracle or about the bytes a read returned.
* Undefined behaviour is an outcome of its own (`Undef` with its kind: out of bounds read or write, read
  of memory never written, missing return, use after free, signed overflow), as are
  `std::terminate` (`Crash`) and exhausted fuel (`Fuel`). Loops of the code that need not end take a fuel
  argument over which the theorems quantify; that a loop ends is a theorem of its own (C19, C33, C42).
* Byte buffers are byte by byte (little endian) with explicit bounds.
* Threads are small-step interleavings with one atomic access or system call per step.

## Trusted base

* Coq 8.16.1's kernel (and `vm_compute`, used in examples and in some closed goals).
* `Print Assumptions` follows every theorem in the `Props*` files; each prints
  "Closed under the global context": no axiom is used by any theorem. `vcheck` also lists
  `Coq.ssr.ssrunder.Under_rel.*`; these are the standard library's abstract interface for `under`, loaded
  with `ssreflect` by `Zify`/`lia` dependencies, and no theorem depends on them.
* The reading of the code into the model files, done by hand, line by line; every definition cites its
  lines.
* The specification files (`*Spec`), which say what records, logs, JSON, UTF-8 and directory trees are.

### Assumptions built into the model

* Atomics are sequentially consistent (Linux, generic: they are; Darwin: acquire/release on one flag).
* `std::async` succeeds, callbacks return and do not throw (but see C72), `operator new` and `malloc` succeed.
* One thread at a time uses a `watch` object (as `std::future` demands); several at once: C151.
* A directory is listed at once when opened (the answer is arbitrary, so every finite listing is covered).
* `std::unordered_map`/`set` are finite maps/sets; the iteration order matters nowhere.
* Darwin: `FSEventStreamFlushSync` returns when the calls for all earlier events returned; calls of
  `event_recv` under way end before `FSEventStreamStop` is through (C64 is about what happens if not).
* Windows: names in records are relative; the event token can be made.
* Windows and warthog: sleeping and time outs are answers of the oracle.
* C77-C84 put the Linux adapter on `KernelSpec`: a filesystem that others change between any two calls,
  and inotify(7) with watches, a queue that merges equal modify records, cookies, `IN_IGNORED` and reads of
  any length; watches must ask for all kinds of records on the right descriptor. It has no links, no renames of directories and no queue overflow
  (but see the next); it is an environment, not code of this repository, and part of the specification.
* C122-C127, C131 and C132 put it on `DeepSpec`: the same with directories that are renamed and moved, taking their watches along, moves between any two
  directories, and a queue of limited length that drops records and then holds one overflow record. A change and its records
  are one step, no links, a moved directory replaces nothing, fewer than 2^32 moves.
* C107-C114 put it on `FanWorldSpec`: a changing filesystem and fanotify(7) with marks, handles, a queue that joins
  records of one entry and process, and reads of any number of records. Directories stay, there are no links and no
  overflow, and a read fills less than the whole buffer.
* C145, C146 and C148-C150 put it on `FanDeepSpec`: the same with directories that are removed, renamed and moved (handles that go
  stale, paths that end in " (deleted)" or change between two calls), and a limited queue with an overflow record. No
  links, a moved directory replaces nothing, paths stay within PATH_MAX.
* C115-C119 put the Darwin adapter on `DarwinWorldSpec`: a changing tree and FSEvents with flags that are true but may
  be gathered, repeated, late, dropped or out of order (C115, C118), or at its best (one change at a time; C116, C117).
* The path readlink gives for an opened handle holds no NUL. In inotify's and fanotify's pairs the order in which the two
  events are constructed is unspecified; only their times depend on it.
* Windows: pointers beyond the end of the buffer array, which the record loop computes and does not use, are not modelled.
* Node: V8's treatment of bytes that are not UTF-8 is an arbitrary function; a thread-safe function takes
  up to its queue size and hands events over in order.

### Not modelled

Compilation and linking, macros for platform choice, `tool/`, the test programs, loading of shared
libraries in the bindings, Python's and Node's
garbage collection, real time and performance, signal handlers, the contents of the help text, and what the kernel does (but see `KernelSpec` above).

## How the properties are proved

Round trips (decode/encode, print/parse), invariants by induction over histories, inclusion of the
model's runs in a small independent specification relation, and, where the code violates a property, a
`_refuted` theorem with a concrete witness together with the strongest true `_partial` version. A
property is called "proved" only if the full English statement is a theorem.

| Property | What is modelled | How |
|---|---|---|
| C01 Live first, die last, once each | class watch, all interleavings, any adapter that sends no live/die message; that each adapter does not | log shape invariant; per adapter, all messages enumerated |
| C02 Live message tells the truth | the same | log invariant linking the path check, the stop query and the message |
| C03 Die message and close() agree | the same | log invariant; value returned by close against the last event |
| C04 Successful end only on request (Linux) | Linux adapter runs; class watch | case analysis of the event loop; log invariant |
| C05 Repeated close is an error and harmless | class watch, any number of closes | invariant on the future |
| C06 Silence after close | class watch; Darwin threads | invariant: no callback once the future was waited for; Darwin: no call after return |
| C07 Close before live is an error | class watch with an early stop | doomed-run invariant; counterexample run between check and live message |
| C08 Close never deadlocks | class watch | from every reachable state of a closing watcher a step is possible and a measure goes down; two counterexample runs outside the hypotheses |
| C09 Stop request ends the event loop (Linux) | epoll loop | loop lemma for the last ready descriptor; a system in which the loop goes on for any number of rounds |
| C10 Stop state is sticky | semabin, any number of threads | invariant over interleavings; counterexample for a second query on Linux |
| C11 Stop signal raised exactly once | semabin, any number of threads | counting invariant |
| C12 Event equality is componentwise and an equivalence | event comparison | induction over associated events; path equality against a slash-squeezing specification |
| C13 Copies are equal | event copies and pairs | induction |
| C14 Timestamps print exactly | number printing with its 19 byte buffer | exact shape of the output for every 64-bit time |
| C15 Event JSON is faithful | event streaming | a JSON reader of the specification gets the fields back |
| C16 Type names are total and distinct | type names | case analysis, all integers |
| C17 Command line JSON is faithful | CLI JSON, recursively | induction over associations with the JSON reader |
| C18 Message severity | result codes and the loop | codes by computation; loop: what it does after each code |
| C19 inotify reads decode exactly | inotify receive, byte level | round trip: encoded records are decoded; memory safety on arbitrary bytes; termination |
| C20 inotify delivers every filesystem event once, in order | inotify runs | session relation: every run is a sequence of batches whose events are those of the specification |
| C21 inotify rename pairs | inotify parse | pairs of the batch specification |
| C22 inotify rename pairs across directories | the same | same directory; counterexample across directories |
| C23 No access, attribute or self events | the same | all events of a session have an effect of the four |
| C24 inotify descriptor map parity | descriptor map | batch relation on maps |
| C25 Queue overflow is reported as such | overflow records in both adapters | exact messages; counterexamples |
| C26 New directories are watched before they are announced | inotify create of directories | order within the trace |
| C27 Reported paths lie under the watched tree | marking and paths | invariant on the map over the session |
| C28 fanotify reads decode exactly | fanotify receive, byte level | round trip and bounds |
| C29 fanotify delivers every filesystem event | fanotify runs | session relation, then kernel operations to events |
| C30 fanotify rename pairs | fanotify pairs | matching of halves standing apart; counterexamples |
| C31 fanotify tolerates read errors | fanotify read errors | exact messages |
| C32 fanotify path reconstruction | path reconstruction | buffer-level computation; counterexamples |
| C33 Every existing directory is marked exactly once | directory walk | induction over the tree shown by the system |
| C34 Errors end the loop and are reported | loop and messages | every ending of a run with its last message |
| C35 No descriptor leak or double close | descriptors | ledger of opens and closes over the trace |
| C36 Adapter selection and fallback | adapter choice | all answers of the two privilege questions |
| C37 Darwin create and destroy alternate | Darwin create/remove | automaton over all records of a life |
| C38 Darwin removals are reported | the same | the same |
| C39 Darwin renames | Darwin renames | specification of pending source; all events explained |
| C40 Darwin flag classification | Darwin flags | all 32-bit flag words |
| C41 Darwin delivers outstanding events on close | Darwin threads and mutex | mutex invariant; batches taken are finished |
| C42 Windows records decode exactly | Windows buffer walk | round trip of records, termination on well-formed buffers |
| C43 Windows rename pairs | Windows rename halves | flow relation over a completion |
| C44 Windows keeps listening | Windows loop | invariant: a read outstanding before each wait |
| C45 Warthog scan reports creations and modifications exactly | warthog scan | contents specification, induction over entries |
| C46 Warthog reports removals | warthog bucket | a run of any length without destroy events |
| C47 Warthog reports every creation | the same | history of contents over rounds |
| C48 C events mirror C++ events | C view | equations; Windows buffer bounds |
| C49 C close releases the watcher | C handles | run of any calls: unsafe only after a successful close |
| C50 Rust events mirror C events | Rust event | UTF-8 round trip |
| C51 Rust watcher lifetime | Rust drop | run of the C calls |
| C52 Python events mirror C events | Python event | UTF-8 round trip |
| C53 Python watcher lifetime | Python close | run of the C calls; two-thread interleaving |
| C54 Node events mirror C events | Node event | UTF-16 and doubles |
| C55 Node queue delivers events | Node queue | queue invariant |
| C56 Command line arguments | CLI | all argument lists, all number texts |
| C57 Windows memory safety | Windows memory | all buffers and records within the hypotheses are safe |
| C58 Bindings watch the path they were given | paths into the library | UTF-8 round trip |
| C59 Node watcher lifetime | Node close | queue invariant; run of the C calls |
| C60 Python events as JSON | Python JSON | JSON reader |
| C61 Windows handles are released | Windows handles | opened against closed over a life |
| C62 Windows buffers are not used after return | Windows reads outstanding | counting over a life |
| C63 Filesystem errors do not end the program (fallback adapter) | warthog errors | crash only after an error answer; unreadable directory |
| C64 Darwin event handlers do not outlive the adapter | Darwin calls after return | invariant; a system that does not wait |
| C65 Interrupted waits do not end the watcher (Linux) | Linux event loop, any `epoll_wait` answer | all runs with a failed wait end there; refuted |
| C66 Success means stopped on request (Darwin, Windows, fallback) | the three adapters | invariant, induction over the loops |
| C67 Failures are explained (Darwin, Windows, fallback) | the same | invariant: no message is ever given; refuted |
| C68 Wide text agrees with narrow text | `to<wstring>`, streams | induction over the text; refuted for paths that are not UTF-8 |
| C69 Bindings free nothing the watching thread uses | contexts of the bindings beside the watch class | from C06, all schedules; refuted when the stop request fails |
| C70 The Rust stream gives every event once and ends | channel and polls over the watcher's log | induction; refuted: it never ends |
| C71 The small program's lines can be read | `tiny_watcher` | a reader and its correctness; refuted for newlines and arrows in paths |
| C72 Exceptions in the callback are contained | a throwing callback beside the watch class (`ThrowModel`) | invariant over the owner's steps after the throw; refuted |
| C73 Event times follow the clock | clock readings and callbacks of every adapter's trace (`TimeSpec`) | every event made is dated; invariants over all computations; order follows |
| C74 One callback at a time (Darwin) | the threads of `DarwinModel` | invariant: who holds the mutex is whose turn it is |
| C75 Setup failures are fatal and named | the whole Linux adapter (`LinuxWatch`) | trace predicates along the traversal of both adapters |
| C76 A watcher that watches nothing says so | the whole Linux adapter (`LinuxWatch`) | the walk leaves the directory table empty unless a mark succeeds; a concrete run refutes it for fanotify |
| C77 Every change in a watched directory is reported once and in order | the inotify adapter from start to end, on a modelled filesystem and kernel | invariant over the interleaving: kernel log, queue and the adapter's table of directories |
| C78 No event without a change | as C77 | corollary of the prefix form of C77 |
| C79 Changes anywhere in the tree that was there at the start are reported | the start (walkdir, do_mark) on the modelled filesystem | induction over the walk; watches last until removal |
| C80 New directories are watched or warned about | as C77, marking of new directories | invariant: each create record that was read was answered by a mark or a warning |
| C81 Trees made while watching are watched | as C77 | a concrete interleaving (computed); C80 |
| C82 What a watcher's user sees is the filesystem's history | class watch (WatchModel) running the Linux adapter (LinuxWatch) on KernelSpec | invariants of WatchFacts composed with C77's invariant |
| C83 Changes are reported before the watcher waits again | as C77, with reads that take all that fits and truthful waits | what a read takes covers the queue at the wait; prefix form of C77 |
| C84 Changes made before close() are reported before it returns | as C82 | C82's shape of lives, C04 (the last wait saw the stop), C83; a computed counterexample |
| C85 Changes reach the users of the bindings | bindings on class watch on the inotify adapter on KernelSpec | names stay UTF-8 by an invariant of the kernel's log; composition |
| C86 Nothing is closed that is not open (Linux) | as C35 | C35 |
| C87 The Rust stream gives every event once, in order | as C70 | C70 |
| C88 Node closes the native watcher once | as C59 | C59 |
| C89 C handles are safe until a close returned true | as C49 | induction over call sequences |
| C90 Node callbacks are in order, without repeats, from a bounded queue | as C55 | C55 |
| C91 Command line: help, path and exit code | as C56 | C56 |
| C92 A stop request is not forgotten (Darwin, generic) | as C10 | C10 |
| C93 Darwin renames use each half once | as C39 | C39 |
| C94 Events are about entries of marked directories (inotify) | as C27 | C27 |
| C95 Windows: token and port are closed once | as C61 | C61 |
| C96 Which timestamps print exactly | as C14 | C14 |
| C97 Bindings on Darwin and Windows free nothing in use | as C69 | C69 |
| C98 What is moved into or out of the tree is followed | KernelSpec with MoveIn and MoveOut | C77's correspondence; a computed counterexample |
| C99 Events suffice to keep a mirror of the tree | KernelSpec with MoveIn and MoveOut; the user's list as a fold over the events | the log of changes determines the files; C77's told relation keeps what a fold gives; two computed runs |
| C100 Windows: every change is reported once, in order | WindowsModel in WinWorldSpec's system | the log is what was given plus what is queued; a completion's bytes are walked as its records, whose events tell of the changes given; induction over the loop |
| C101 Windows: the type in an event is that of the thing changed | WindowsModel in WinWorldSpec's system | a computed counterexample |
| C102 Windows: a watcher's whole life | WatchModel with WindowsModel in WinWorldSpec's system | C100 for the adapter; WholeLife: what any adapter's run contributes to a life |
| C103 Windows: changes made before close() are reported | WatchModel with WindowsModel in WinWorldSpec's system | a wait with a read outstanding empties the queue; the log only grows; a computed life for the counterexample |
| C104 Fallback: the whole run is determined by the history | WarthogModel on a history of contents (WarthogSpec) | induction over the rounds; invariant: the bucket holds exactly the last noted time of each path |
| C105 Fallback: a watcher's whole life | WatchModel with WarthogModel on a history of contents | C104's induction; WholeLife: what any adapter's run contributes to a life |
| C106 Fallback: changes made before close() are reported | WatchModel with WarthogModel | C104's exact account of the scans; a computed life for the counterexample |
| C107 fanotify: every change is told of | FanotifyModel and LinuxWatch on FanWorldSpec (changing filesystem, joined records, handles) | invariant of the environment (records and log agree), FanotifyLoop's account of a batch applied to the system after the calls so far (Shift), induction over the run |
| C108 fanotify: no event without a change | FanotifyModel and LinuxWatch on FanWorldSpec | as C107; induction over the batch relation including its swapped pairs |
| C109 fanotify: without renames the events are exact | FanotifyModel and LinuxWatch on FanWorldSpec | as C107, with the exact list of events of a batch without moves |
| C110 fanotify: the last event tells whether a file is there | FanotifyModel and LinuxWatch on FanWorldSpec | invariant: the last record of a path determines whether it is there; C109 |
| C111 fanotify: the tree there at the start is watched | FanotifyModel, LinuxModel's walk and LinuxWatch on FanWorldSpec; FanTreeSpec | induction over the walk: each directory is marked in the kernel's state or warned about; marks are never lost |
| C112 fanotify: trees made while watching are watched | FanotifyModel and LinuxWatch on FanWorldSpec; FanTreeSpec | C26's mark attempts, that every observation is the system's answer (Answers), C107's account of batches |
| C113 A root watcher's life is sound from open to close | WatchModel, FanotifyModel and LinuxWatch on FanWorldSpec | the life invariant (WholeLife) joined with C107's account; each send is within a read batch whose records are in the log |
| C114 fanotify: what was changed before close() is reported before it returns | WatchModel, FanotifyModel and LinuxWatch on FanWorldSpec; FanLifeSpec | waiting records only gain kinds, so a read after a wait takes all that waited at the wait if it fits; C04: the last wait saw the stop |
| C115 Darwin: no event without a change | DarwinModel on DarwinWorldSpec | every callback goes back to a record of a batch that occurred before it; creations seen and the last renamed path go back to earlier records |
| C116 Darwin: one event for each change | DarwinModel on DarwinWorldSpec | induction over the changes: the created paths remembered are those whose latest creation or deletion is a creation, the last renamed path is empty between changes |
| C117 Darwin: a picture of the tree kept with the events is the tree | DarwinModel on DarwinWorldSpec | each event, applied, is its change |
| C118 A Darwin watcher's life is sound from open to close | WatchModel and DarwinModel on DarwinWorldSpec | the life invariant (WholeLife) joined with C115 and C116 |
| C119 Darwin: what was changed before close() is reported before it returns | WatchModel and DarwinModel on DarwinWorldSpec | C41's invariant (batches taken are served) in a whole life |
| C120 Exactly which events are faithfully told in JSON | EventModel, BindModel (as C15, C17, C60) | inversion of the reader; the first quote of a text either ends the string or is among what was read before its own place |
| C121 Exactly which events each binding shows as they are | BindModel (as C48, C50, C52, C54) | decoding is inverse to UTF-8 on exactly the valid texts; cutting at a NUL shortens; rounding to a double is the identity exactly on 53-bit numbers |
| C122 What is told is exactly what the kernel kept | DeepSpec: as KernelSpec, with moves of directories (a watch goes with its directory) and a limited queue with overflow records | invariant over all system calls: what is told relates to what was read, which is a prefix of what was kept |
| C123 Events tell what happened | DeepSpec (as C122) | C122 and the log of changes: a watch was asked for with its directory's path then; computed counterexample |
| C124 Lost records are announced as what they are | DeepSpec (as C122) | a loss puts an overflow record into the queue, with the unknown watch -1, which is tested first; two computed systems |
| C125 Watching goes on after an overflow | DeepSpec (as C122) | watches stay with their directories in every step; computed counterexample |
| C126 Events concern only the watched tree | DeepSpec (as C122) | C122 and: a watch is given only when asked for; computed counterexample |
| C127 Directories that are moved stay watched | DeepSpec (as C122) | by induction over the calls the watch stays on the directory's present path, computed independently from the changes |
| C128 The Rust program tells every event on a line of JSON | RustProgModel (main.rs, serde attributes), BindLife, BindModel | every escaped string is read back as itself; C70 for the stream |
| C129 Exactly which paths the bindings open | BindModel (as C58) | C58 one way; a NUL or a cut leaves a shorter text |
| C130 Exactly which events can be wide text | WideModel (as C68) | C68 and decidability of UTF-8 |
| C131 A watcher's life where directories are moved and records are lost | DeepSpec (as C122), WatchModel, SemabinModel, LinuxWatch | C122 and the shape of a watcher's life (whole_life) |
| C132 Changes and losses are reported before close() returns | as C131 | a read covers all that waited; the account of C122 can be split there, as the halves of a move are recorded together; computed counterexample |
| C133 The rename program moves the file or changes nothing | RenameModel (main), RenameSpec (what POSIX promises) | case analysis on the calls' answers; after EXDEV the mounts differ |
| C134 New directories are watched or warned of, also where directories move | DeepSpec (kernel), LinuxWatch (the adapter, unchanged) | the read that takes the record is found by counting records (read_call); C26 gives the mark before the announcement; a watch lasts (DeepWatch.stays_state) |
| C135 Built for Android, the library watches like an unprivileged user's Linux build | AndroidModel (the adapter as the preprocessor leaves it), AndroidSpec (a system behind another) | a simulation: each function of the inotify adapter does the same on a system and on the same system with the first calls hidden (AndroidFacts); the account by the invariant of DeepRun |
| C136 Root without fanotify is served by inotify | LinuxWatch, FanotifyModel, InotifyModel (all unchanged), AndroidSpec | the simulation of C135; the account by the invariant of DeepRun, started after the attempt with fanotify |
| C137 The fallback follows links to directories | WarthogModel (the walk is given its options) | every question and event of a run is about the root or an entry of a walk, or about nothing |
| C138 Changes reach the users of the bindings where directories move and records are lost | DeepSpec, WatchModel, BindModel, BindLife | C131 gives what is told; an invariant of the kernel (all its paths are proper) gives that every binding can show it; C50, C52, C54, C55, C70 do the rest |
| C139 The Python program tells every event on a line of JSON | PyProgModel, BindModel | the JSON reader of EventSpec on py_json (C60), events by C52; plain bytes are plain characters |
| C140 On Windows, changes reach the users of the bindings | WinWorldSpec, WindowsModel, WatchModel, BindModel | C102 gives what is told; every noted change was made by others, so its names are showable; C48 gives the view, and the bindings decode what the view encodes |
| C141 Watchers in one program do not disturb one another (Linux) | LinuxWatch and what it calls | every piece of the adapter only uses what is open before it or what it opened (OwnFacts); the open counts of the watchers add up to that of the program, which the kernel keeps at most one |
| C142 On Darwin, what FSEvents says reaches the users of the bindings | DarwinWorldSpec, DarwinModel, WatchModel, BindModel, BindLife | every path in an event is that of a record FSEvents gave; C118's account; the conversions of C50, C52 and C54; the queues of C55 and C70 |
| C143 As root on Linux, changes reach the users of the bindings | FanWorldSpec, FanotifyModel, LinuxWatch, WatchModel, BindModel, BindLife | every event's paths are of changes that happened (C113), whose paths stay proper by induction over the history; the conversions of C50, C52 and C54; the queues of C55 and C70 |
| C144 The command line program's lines tell the changes | CliModel, CliLifeSpec, EventModel, WatchModel, KernelSpec | newlines of the output counted; every event's paths are of changes that happened (C82), whose paths stay plain by induction over the history; C17 for the lines; C01, C02, C03 and C56 for the exit code |
| C145 A root watcher tells true, present paths whatever becomes of directories | FanotifyModel and LinuxWatch on FanDeepSpec (directories with numbers that move and vanish, limited queue) | invariant of the environment (records and log agree); the run up to an event is the run of a system that answers only as during it (Pin), so what the batch relation says of some time is said of this time |
| C146 A root watcher tells every change or announces a loss | FanotifyModel and LinuxWatch on FanDeepSpec | as C145; as long as the directories are there every handle opens, so a tidy batch is told to its end |
| C147 The small program's lines tell the changes | TinyModel on WatchModel, LinuxWatch and KernelSpec | names without the separators join to paths without them, so every event's line can be read (C71); what the events tell is C82; the exit code from the shape of a life (C01-C03) |
| C148 A watcher's life among moving directories (fanotify) | WatchModel and LinuxWatch on FanDeepSpec | the life of a watcher (WholeLife) on top of C145 and C146 |
| C149 Changes before close() are reported, among moving directories (fanotify) | WatchModel and LinuxWatch on FanDeepSpec | records keep their place in the queue and a read of 4096 bytes takes all that wait (FanDeepLife, after FanLife); with C04 the last wait saw the stop signal |
| C150 Changes reach the users of the bindings, among moving directories (fanotify) | FanDeepSpec, FanotifyModel, LinuxWatch, WatchModel, BindModel, BindLife | C148 joined with the conversions and queues of C50, C52, C54, C55 and C70; all paths stay proper by induction over the history, UTF-8 being cancellable at a directory's prefix |
| C151 A watcher may be closed from several threads | ManyModel around WatchModel and SemabinModel | simulation of the threads by the single owner; counterexample interleaving |
| C152 A Python watcher may be closed from several threads | PyManyModel around ManyModel, WatchModel and SemabinModel | projection to C151 and an invariant on the attribute and the object; counterexample interleaving |
| C153 A watcher's memory is bounded by the tree | InotifyModel, LinuxWatch on KernelSpec and DeepSpec | invariant over the rounds of the loop, on the kernel's watches and the adapter's map; executed counterexample |
| C154 What a Darwin watcher remembers while it runs | DarwinModel, DarwinWorldSpec | invariant over all steps of all threads (each once, the balance of the events); induction on the changes; counterexample for lists of any length |
| C155 What the fallback remembers while it runs | WarthogModel, WarthogSpec | invariant over rounds (the specification of C104); keys distinct through every function; counterexample for lists of any length |
| C156 With the fallback, changes reach the users of the bindings | WarthogModel, WatchModel, BindModel | composition of C105 with C70, C55 and the field theorems of PropsChain |
| C157 The command line program's lines tell the changes (fallback, Darwin) | CliModel, CliLifeSpec, WarthogModel, DarwinModel, WatchModel | composition of C105, C115, C116 and C118 with C17's parser and the lines of C144 |
| C158 The fallback tells only of what it has just seen | WarthogModel | invariant over the log and the bucket, for every answer the filesystem may give |
| C159 The fallback tells every difference that it sees | WarthogModel | invariant over the log and the bucket, for every answer the filesystem may give |
| C160 The fallback looks at everything a listing gives it | WarthogModel | invariant over the log, for every answer the filesystem may give |
| C161 The fallback looks at the watched path each time it wakes | WarthogModel | each round's questions, for every answer the filesystem may give; induction over the rounds |

## Checking the theorems against wrong programs

`seeded/LOG.jsonl` records edits of the model, each the way a bug would change the program, the claim it
breaks and the theorems that then no longer prove.

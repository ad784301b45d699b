{"id": "C01", "title": "Live first, die last, once each", "statement": "For every watcher, the first event the callback receives is the (create, watcher) event `s/self/live@<abs path>` or `e/self/live@<abs path>`; once the watcher has finished, the last event is the (destroy, watcher) event `s/self/die@..` or `e/self/die@..`; no other event the callback receives is a (create, watcher) or (destroy, watcher) event.", "quantifier": "all paths, all interleavings of the watching thread with any number of close()/destructor calls, all adapter runs", "why_tests_cant": "the number of schedules and of adapter event sequences is unbounded; a test sees one", "anchors": ["include/wtr/watcher.hpp:watch::watch", "include/wtr/watcher.hpp:adapter::watch"]}
{"id": "C02", "title": "Live message tells the truth", "statement": "The live event starts with `s/` exactly when the path was a directory (and could be made absolute) and no stop request was visible at the moment of the check; otherwise it starts with `e/`, nothing is watched, the only other event is `e/self/die@..`, and close() is false.", "quantifier": "all paths, filesystem states and interleavings with close()", "why_tests_cant": "the check races with close(); only some schedules reach each branch", "anchors": ["include/wtr/watcher.hpp:watch::watch", "include/wtr/watcher.hpp:semabin::state"]}
{"id": "C03", "title": "Die message and close() agree", "statement": "The first close() whose stop request succeeds returns true if and only if the callback received `s/self/live@` and `s/self/die@`.", "quantifier": "all interleavings, adapter outcomes and numbers of close() calls", "why_tests_cant": "needs every adapter outcome crossed with every schedule", "anchors": ["include/wtr/watcher.hpp:watch::close", "include/wtr/watcher.hpp:watch::watch"]}
{"id": "C04", "title": "Successful end only on request (Linux)", "statement": "The watching thread never ends by itself with success: `s/self/die@` is delivered only after a close()/destructor has signalled the stop descriptor.", "quantifier": "all schedules and all kernel answers", "why_tests_cant": "spurious termination would need a particular kernel answer in a particular iteration", "anchors": ["include/wtr/watcher.hpp:adapter::watch", "include/wtr/watcher.hpp:semabin::release"]}
{"id": "C05", "title": "Repeated close is an error and harmless", "statement": "After a close() that joined the watching thread, every later close() (including the destructor's) returns false, sends nothing and does not block.", "quantifier": "any number of later close calls, any state of the watcher", "why_tests_cant": "unbounded sequences of calls", "anchors": ["include/wtr/watcher.hpp:watch::close", "include/wtr/watcher.hpp:watch::~watch"]}
{"id": "C06", "title": "Silence after close", "statement": "Once a close() whose stop request did not fail has returned, the callback is never invoked again.", "quantifier": "all interleavings of the watching thread with close()", "why_tests_cant": "a violation is a race that a test may never hit", "anchors": ["include/wtr/watcher.hpp:watch::close"]}
{"id": "C07", "title": "Close before live is an error", "statement": "(readme) Closing a watcher whose live message has not yet been sent yields an error from close(), and the watcher ends immediately.", "quantifier": "all interleavings of construction and close()", "why_tests_cant": "the window between the liveness check and the live message is a few instructions wide", "anchors": ["readme.md:State Changes and Special Events", "include/wtr/watcher.hpp:watch::watch", "include/wtr/watcher.hpp:watch::close"]}
{"id": "C08", "title": "Close never deadlocks", "statement": "From every reachable state after a stop request, the watching thread or the closing thread can take a step until close() has returned (given that the adapter reacts to the stop signal); the exception is a callback that calls close() itself.", "quantifier": "all reachable states of the watcher's threads", "why_tests_cant": "absence of deadlock quantifies over all reachable states", "anchors": ["include/wtr/watcher.hpp:watch::close", "include/wtr/watcher.hpp:semabin"]}
{"id": "C09", "title": "Stop request ends the event loop (Linux)", "statement": "Once the stop descriptor is readable, the event loop ends after the current batch of ready descriptors.", "quantifier": "all batches of ready descriptors, in every order, any event load", "why_tests_cant": "depends on the order in which the kernel lists ready descriptors under continuous load", "anchors": ["include/wtr/watcher.hpp:adapter::watch platform_watch"]}
{"id": "C10", "title": "Stop state is sticky", "statement": "Once a stop has been requested successfully, every later query of the stop state answers `released`.", "quantifier": "all sequences of release()/state() calls on each platform's implementation", "why_tests_cant": "unbounded call sequences", "anchors": ["include/wtr/watcher.hpp:semabin"]}
{"id": "C11", "title": "Stop signal raised exactly once", "statement": "However many threads request a stop, in any interleaving, the Darwin semaphore is signalled exactly once; on Linux a single closing thread makes the stop descriptor readable exactly once.", "quantifier": "any number of concurrent release() calls and all interleavings", "why_tests_cant": "interleavings of atomics are not enumerable by tests", "anchors": ["include/wtr/watcher.hpp:semabin::release"]}
{"id": "C12", "title": "Event equality is componentwise and an equivalence", "statement": "`==` on events is reflexive, symmetric and transitive, holds exactly when times, types, path components and (recursively) associated events agree, and `!=` is its negation.", "quantifier": "all pairs and triples of events of any association depth and any paths", "why_tests_cant": "infinitely many events, recursive structure", "anchors": ["include/wtr/watcher.hpp:event::operator=="]}
{"id": "C13", "title": "Copies are equal", "statement": "Copying an event yields an event equal to it, at any depth of association; combining two events keeps the base's path and types, and carries an exact copy of the associated event.", "quantifier": "all events", "why_tests_cant": "recursive structure of unbounded depth", "anchors": ["include/wtr/watcher.hpp:event::event(event const&)", "include/wtr/watcher.hpp:event::event(event const&, event&&)"]}
{"id": "C14", "title": "Timestamps print exactly", "statement": "Converting an effect time to a string yields its decimal representation.", "quantifier": "all 64-bit effect times, narrow and wide strings", "why_tests_cant": "2^64 inputs", "anchors": ["include/wtr/watcher.hpp:num_to_str"]}
{"id": "C15", "title": "Event JSON is faithful", "statement": "The text an event streams is a JSON member whose key is the time and whose value carries the effect, the path, the path type and, when present, those of the associated event; a JSON reader gets back exactly these.", "quantifier": "all events", "why_tests_cant": "all possible path names", "anchors": ["include/wtr/watcher.hpp:wtr_event_to_str_cls_as_json", "include/wtr/watcher.hpp:operator<<"]}
{"id": "C16", "title": "Type names are total and distinct", "statement": "Every effect type and every path type has the documented name; distinct types have distinct names; out-of-range values print `other`; wide and narrow names agree.", "quantifier": "all values of the enumerations, including out-of-range ones", "why_tests_cant": "out-of-range values are not exercised, and agreement is over all instantiations", "anchors": ["include/wtr/watcher.hpp:wtr_effect_type_to_str_lit", "include/wtr/watcher.hpp:wtr_path_type_to_str_lit"]}
{"id": "C17", "title": "Command line JSON is faithful", "statement": "The line the command line program prints for an event is a JSON object carrying path type, path name, effect type, effect time and the associated event recursively (null when absent).", "quantifier": "all events of any association depth", "why_tests_cant": "unbounded depth and all paths", "anchors": ["src/wtr/watcher/main.cpp:json"]}
{"id": "C18", "title": "Message severity", "statement": "Every message of the watcher (path type `watcher`) starts with s, w or e followed by `/`; the watcher goes on after a w message and stops after an e message; result codes are ordered pending/warnings < complete < errors.", "quantifier": "all result codes, all adapter runs on Linux", "why_tests_cant": "all kernel answers", "anchors": ["include/wtr/watcher.hpp:result", "include/wtr/watcher.hpp:to_str", "include/wtr/watcher.hpp:send_msg"]}
{"id": "C19", "title": "inotify reads decode exactly", "statement": "For every sequence of kernel records that one read can return, the adapter sees exactly these records in order, never touches memory outside its buffer, and always returns to waiting.", "quantifier": "all record sequences that fit a read, all stale buffer contents", "why_tests_cant": "all byte layouts up to 4096 bytes", "anchors": ["include/wtr/watcher.hpp:inotify::peek", "include/wtr/watcher.hpp:inotify::parse_ev", "include/wtr/watcher.hpp:inotify::do_ev_recv"]}
{"id": "C20", "title": "inotify delivers every filesystem event once, in order", "statement": "Every kernel record about a watched directory that reports a create, destroy, modify or rename is delivered to the callback exactly once and in kernel order, with path `<directory>/<name>`, the right effect and the right path type (a rename pair is one event).", "quantifier": "all record batches, all maps from descriptors to directories, all answers of the system", "why_tests_cant": "unbounded histories", "anchors": ["include/wtr/watcher.hpp:inotify::do_ev_recv", "include/wtr/watcher.hpp:inotify::parse_ev"]}
{"id": "C21", "title": "inotify rename pairs", "statement": "A moved-from record directly followed by the moved-to record with the same nonzero cookie is delivered as one rename event from the old path with the associated event carrying the new path.", "quantifier": "all records, names, directories, surrounding records", "why_tests_cant": "all record sequences", "anchors": ["include/wtr/watcher.hpp:inotify::parse_ev"]}
{"id": "C22", "title": "inotify rename pairs across directories", "statement": "When a path is renamed from one watched directory into another, the associated path is the destination path.", "quantifier": "all pairs of watched directories", "why_tests_cant": "needs the relation of two descriptors for all maps", "anchors": ["include/wtr/watcher.hpp:inotify::parse_ev"]}
{"id": "C23", "title": "No access, attribute or self events", "statement": "Records that only report access, open, close, attribute changes, or changes of the watched directory itself never reach the callback as filesystem events.", "quantifier": "all masks", "why_tests_cant": "2^32 masks in all positions", "anchors": ["include/wtr/watcher.hpp:inotify::do_ev_recv", "include/wtr/watcher.hpp:inotify::ke_in_ev::recv_mask", "readme.md:Access events are ignored"]}
{"id": "C24", "title": "inotify descriptor map parity", "statement": "After each batch the map from watch descriptors to directories holds exactly the former entries plus newly marked directories minus the self-deleted ones; removal is deferred, so records of the same batch after a self-deletion are still delivered with their path.", "quantifier": "all batches and histories", "why_tests_cant": "unbounded histories", "anchors": ["include/wtr/watcher.hpp:inotify::defer_dm_rm_wd", "include/wtr/watcher.hpp:inotify::do_ev_recv"]}
{"id": "C25", "title": "Queue overflow is reported as such", "statement": "When the kernel drops events (queue overflow) the callback receives the `w/sys/q_overflow@` warning.", "quantifier": "all batches containing an overflow record, both Linux adapters", "why_tests_cant": "needs kernel queue exhaustion", "anchors": ["include/wtr/watcher.hpp:inotify::do_ev_recv", "include/wtr/watcher.hpp:fanotify::do_ev_recv"]}
{"id": "C26", "title": "New directories are watched before they are announced", "statement": "When a directory is created under a watched directory, it is marked before its create event is delivered; if marking fails the `w/sys/not_watched@` warning precedes the create event.", "quantifier": "all batches, all system answers, both Linux adapters", "why_tests_cant": "depends on failures of system calls at arbitrary points", "anchors": ["include/wtr/watcher.hpp:inotify::do_mark", "include/wtr/watcher.hpp:fanotify::do_mark_if_newdir"]}
{"id": "C27", "title": "Reported paths lie under the watched tree", "statement": "Every filesystem event delivered by the inotify adapter has a path below a directory that was marked, and every marked directory lies at or below the real path of the watched root.", "quantifier": "all histories of batches", "why_tests_cant": "invariant over unbounded histories", "anchors": ["include/wtr/watcher.hpp:inotify::do_mark", "include/wtr/watcher.hpp:inotify::make_sysres", "include/wtr/watcher.hpp:walkdir_do"]}
{"id": "C28", "title": "fanotify reads decode exactly", "statement": "For every sequence of kernel records that one read can return, the adapter sees exactly these records in order, and touches no memory outside its buffer.", "quantifier": "all record sequences that fit a read", "why_tests_cant": "all byte layouts up to 4096 bytes", "anchors": ["include/wtr/watcher.hpp:fanotify::peek", "include/wtr/watcher.hpp:fanotify::parse_ev", "include/wtr/watcher.hpp:fanotify::do_ev_recv"]}
{"id": "C29", "title": "fanotify delivers every filesystem event", "statement": "Every well-formed kernel record is delivered to the callback exactly once, in kernel order, with the right path, effect and path type.", "quantifier": "all record batches and system answers", "why_tests_cant": "all interleavings of records with failures of handle lookups", "anchors": ["include/wtr/watcher.hpp:fanotify::do_ev_recv", "include/wtr/watcher.hpp:fanotify::parse_ev"]}
{"id": "C30", "title": "fanotify rename pairs", "statement": "A rename event's associated path is the path the file was renamed to.", "quantifier": "all sequences of move records", "why_tests_cant": "needs moves into and out of the tree in adjacent records", "anchors": ["include/wtr/watcher.hpp:fanotify::parse_ev"]}
{"id": "C31", "title": "fanotify tolerates read errors", "statement": "A read that would block is not fatal; a read that fails otherwise is reported.", "quantifier": "all read results and errno values", "why_tests_cant": "errno combinations are not reproducible in tests", "anchors": ["include/wtr/watcher.hpp:fanotify::do_ev_recv"]}
{"id": "C32", "title": "fanotify path reconstruction", "statement": "The path of a record is the directory's current path followed by `/` and the entry name (the directory itself for `.`), cut to fit PATH_MAX, without touching memory outside the path buffer.", "quantifier": "all directory paths, entry names and system answers", "why_tests_cant": "all lengths around PATH_MAX and failures of readlink", "anchors": ["include/wtr/watcher.hpp:fanotify::pathof"]}
{"id": "C33", "title": "Every existing directory is marked exactly once", "statement": "On start, every directory of the watched tree that can be opened is offered for marking exactly once, parents before children, and the walk terminates.", "quantifier": "all directory trees of any depth and breadth", "why_tests_cant": "unbounded trees; path lengths around PATH_MAX", "anchors": ["include/wtr/watcher.hpp:walkdir_do", "include/wtr/watcher.hpp:inotify::make_sysres", "include/wtr/watcher.hpp:fanotify::make_sysres"]}
{"id": "C34", "title": "Errors end the loop and are reported", "statement": "The Linux adapter returns false exactly when it ended with an error code, and then the last event it sends is that code's `e/..@<path>` message; it returns true exactly when it ended by a stop request, and then it sends no e message.", "quantifier": "all kernel answers at every point of the run", "why_tests_cant": "fault injection at arbitrary points", "anchors": ["include/wtr/watcher.hpp:adapter::watch"]}
{"id": "C35", "title": "No descriptor leak or double close", "statement": "Every descriptor the Linux adapter opens is closed exactly once by the time it returns.", "quantifier": "all kernel answers at every point of the run, including failures", "why_tests_cant": "fault injection at arbitrary points", "anchors": ["include/wtr/watcher.hpp:adapter::watch", "include/wtr/watcher.hpp:make_ep", "include/wtr/watcher.hpp:inotify::make_sysres", "include/wtr/watcher.hpp:fanotify::make_sysres"]}
{"id": "C36", "title": "Adapter selection and fallback", "statement": "fanotify is used only by root; inotify is used exactly when fanotify is unavailable; no event is delivered by the abandoned adapter before falling back.", "quantifier": "all users and kernel answers", "why_tests_cant": "depends on privileges and kernel features", "anchors": ["include/wtr/watcher.hpp:adapter::watch try_fanotify"]}
{"id": "C37", "title": "Darwin create and destroy alternate", "statement": "For each path, the create and destroy events delivered alternate, starting with a create: re-sent flags never produce duplicates.", "quantifier": "all sequences of batches with all flags", "why_tests_cant": "unbounded histories", "anchors": ["include/wtr/watcher.hpp:event_recv_one"]}
{"id": "C38", "title": "Darwin removals are reported", "statement": "Every removal flagged by the system is delivered as a destroy event.", "quantifier": "all sequences of batches with all flags", "why_tests_cant": "unbounded histories", "anchors": ["include/wtr/watcher.hpp:event_recv_one"]}
{"id": "C39", "title": "Darwin renames", "statement": "A rename flag on one path followed by a rename flag on another path, the first of which no longer exists, is delivered as one rename event from the first to the second; a path is used as the source of at most one rename event.", "quantifier": "all sequences of flagged paths and existence answers", "why_tests_cant": "unbounded histories", "anchors": ["include/wtr/watcher.hpp:event_recv_one"]}
{"id": "C40", "title": "Darwin flag classification", "statement": "Each record produces events of exactly the flagged effects (a create or destroy only where C37 lets it, a rename as in C39): unknown effects give `other`, attribute-only changes give nothing, content changes give `modify`, and the path type is file, dir, sym_link, hard_link or other according to the flags.", "quantifier": "all 2^32 flag words", "why_tests_cant": "2^32 flag words in all states", "anchors": ["include/wtr/watcher.hpp:event_recv_one"]}
{"id": "C41", "title": "Darwin delivers outstanding events on close", "statement": "Events outstanding when close() is called are delivered before the stream is closed.", "quantifier": "all interleavings of stream callbacks with close()", "why_tests_cant": "race between the dispatch queue and the closing thread", "anchors": ["include/wtr/watcher.hpp:close_event_stream", "include/wtr/watcher.hpp:event_recv"]}
{"id": "C42", "title": "Windows records decode exactly", "statement": "For every record sequence the system places in the buffer, each non-rename record is delivered exactly once in order with the right path and effect, and the walk terminates.", "quantifier": "all record sequences", "why_tests_cant": "all byte layouts", "anchors": ["include/wtr/watcher.hpp:do_event_send"]}
{"id": "C43", "title": "Windows rename pairs", "statement": "An old-name record and the next new-name record of a buffer, in either order, are delivered as one rename event from the old to the new path; a name is never used twice.", "quantifier": "all record sequences", "why_tests_cant": "all record sequences, all splits over buffers", "anchors": ["include/wtr/watcher.hpp:do_event_send", "include/wtr/watcher.hpp:RenameEventTracker"]}
{"id": "C44", "title": "Windows keeps listening", "statement": "Until closed, a valid watcher always has a read outstanding: after every completion it asks the system for further changes.", "quantifier": "all system answers", "why_tests_cant": "buffer overflows and transient errors", "anchors": ["include/wtr/watcher.hpp:adapter::watch (_WIN32)", "include/wtr/watcher.hpp:do_event_recv"]}
{"id": "C45", "title": "Warthog scan reports creations and modifications exactly", "statement": "A scan delivers a create event exactly for each regular file not known before, a modify event exactly for each known file whose write time changed, nothing else, and afterwards knows every file with its new time.", "quantifier": "all known-file maps and directory contents", "why_tests_cant": "unbounded trees and histories", "anchors": ["include/wtr/watcher.hpp:scan"]}
{"id": "C46", "title": "Warthog reports removals", "statement": "A known file that no longer exists is delivered as a destroy event at the next round.", "quantifier": "all histories of directory contents", "why_tests_cant": "unbounded histories", "anchors": ["include/wtr/watcher.hpp:tend_bucket"]}
{"id": "C47", "title": "Warthog reports every creation", "statement": "Every regular file that appears after the watcher has gone round once is delivered as a create event.", "quantifier": "all histories of directory contents", "why_tests_cant": "unbounded histories", "anchors": ["include/wtr/watcher.hpp:tend_bucket", "include/wtr/watcher.hpp:scan"]}
{"id": "C48", "title": "C events mirror C++ events", "statement": "The event view handed to a C callback carries the same path, time, documented effect and path codes, and the associated path exactly when the event has an associated event.", "quantifier": "all events", "why_tests_cant": "all events", "anchors": ["watcher-c/src/watcher-c.cpp:wtr_watcher_open", "watcher-c/include/wtr/watcher-c.h"]}
{"id": "C49", "title": "C close releases the watcher", "statement": "wtr_watcher_close never touches a freed watcher, returns false for null and for repeated closes, and a watcher that was closed is freed.", "quantifier": "all sequences of open/close calls", "why_tests_cant": "unbounded call sequences", "anchors": ["watcher-c/src/watcher-c.cpp:wtr_watcher_close", "readme.md:State Changes and Special Events"]}
{"id": "C50", "title": "Rust events mirror C events", "statement": "The Rust event carries the same time, types and paths as the C++ event.", "quantifier": "all events", "why_tests_cant": "all byte strings as paths", "anchors": ["watcher-rs/src/lib.rs:ev_from_c"]}
{"id": "C51", "title": "Rust watcher lifetime", "statement": "Any use of the Rust Watch (close any number of times, then drop) closes the underlying watcher exactly once.", "quantifier": "all sequences of calls", "why_tests_cant": "unbounded call sequences", "anchors": ["watcher-rs/src/lib.rs:Watch::close", "watcher-rs/src/lib.rs:Drop"]}
{"id": "C52", "title": "Python events mirror C events", "statement": "The Python event carries the same time, types and paths as the C++ event.", "quantifier": "all events", "why_tests_cant": "all byte strings as paths", "anchors": ["watcher-py/watcher/watcher.py:_c_event_to_event"]}
{"id": "C53", "title": "Python watcher lifetime", "statement": "Any sequence of close, context exit and deletion calls the C close exactly once.", "quantifier": "all sequences of calls", "why_tests_cant": "unbounded call sequences", "anchors": ["watcher-py/watcher/watcher.py:Watch"]}
{"id": "C54", "title": "Node events mirror C events", "statement": "The Node event carries the same time, types and paths as the C++ event.", "quantifier": "all events", "why_tests_cant": "all 64-bit times", "anchors": ["watcher-nodejs/lib/watcher-napi.cpp:event_to_js_obj", "watcher-nodejs/lib/watcher.ts"]}
{"id": "C55", "title": "Node queue delivers events", "statement": "Every event the watcher produces reaches the JavaScript callback, in order.", "quantifier": "all interleavings of producer and JavaScript thread", "why_tests_cant": "depends on queue pressure", "anchors": ["watcher-nodejs/lib/watcher-napi.cpp:callback_bridge"]}
{"id": "C56", "title": "Command line arguments", "statement": "The command line program shows help and exits 0 for -h/--help, watches the given existing path (default: current directory) for the given time, exits 0 exactly when the watcher closed successfully, and per its help falls back to the current directory for a missing path.", "quantifier": "all argument vectors and filesystem answers", "why_tests_cant": "all argument vectors", "anchors": ["src/wtr/watcher/main.cpp:Args::try_parse", "src/wtr/watcher/main.cpp:main"]}
{"id": "C57", "title": "Windows memory safety", "statement": "Opening a watcher on any directory path, and handling any records the system hands over, reads and writes only inside the adapter's own buffers.", "quantifier": "all paths, all record sequences, all system answers", "why_tests_cant": "out-of-bounds accesses depend on lengths no finite test covers and are often silent", "anchors": ["include/wtr/watcher.hpp:watch_event_proxy", "include/wtr/watcher.hpp:do_event_send"]}
{"id": "C58", "title": "Bindings watch the path they were given", "statement": "The path a Rust, Python or Node user passes reaches the library as exactly its UTF-8 bytes; a path that cannot be passed on is reported as an error.", "quantifier": "all strings", "why_tests_cant": "all strings of any length", "anchors": ["watcher-rs/src/lib.rs:Watch::try_new", "watcher-py/watcher/watcher.py:Watch.__init__", "watcher-nodejs/lib/watcher-napi.cpp:watch"]}
{"id": "C59", "title": "Node watcher lifetime", "statement": "However often close is called on a Node watcher, the native watcher is closed once, and after close has returned no more events are made and no callback runs.", "quantifier": "all sequences of close calls, all interleavings of the watching thread and the JavaScript thread", "why_tests_cant": "unbounded schedules", "anchors": ["watcher-nodejs/lib/watcher.ts:watch", "watcher-nodejs/lib/watcher-napi.cpp:close"]}
{"id": "C60", "title": "Python events as JSON", "statement": "Event.to_json gives a JSON object from which the time, paths and types of the event can be read back.", "quantifier": "all events", "why_tests_cant": "all strings as paths, all times", "anchors": ["watcher-py/watcher/watcher.py:Event.to_json"]}
{"id": "C61", "title": "Windows handles are released", "statement": "Every handle the Windows adapter opens (event token, completion port, directory) is closed exactly once by the time it returns.", "quantifier": "all watched paths, all answers of the system, all runs of the adapter that return", "why_tests_cant": "A leaked handle has no visible effect in a test; the claim is about all runs, including those where opening half fails.", "anchors": ["include/wtr/watcher.hpp: watch_event_proxy::watch_event_proxy", "include/wtr/watcher.hpp: watch_event_proxy::~watch_event_proxy"]}
{"id": "C62", "title": "Windows buffers are not used after return", "statement": "Once the Windows adapter has returned (and with it close()), no asynchronous read into its buffer is outstanding: the system does not write into memory that is gone.", "quantifier": "all histories of reads, completions and stop requests", "why_tests_cant": "The write happens only if a change occurs after close; whether it hits memory in use depends on timing and stack layout.", "anchors": ["include/wtr/watcher.hpp: adapter::watch (Windows)", "include/wtr/watcher.hpp: do_event_recv"]}
{"id": "C63", "title": "Filesystem errors do not end the program (fallback adapter)", "statement": "An error below the watched path, such as a directory that may not be read, does not end the program: it is skipped or ends the watcher with an error.", "quantifier": "all filesystems and all answers to the adapter's questions, at every point of the walk", "why_tests_cant": "Needs an unreadable directory or an error at an arbitrary point of a walk; tests run as one user on a healthy tree.", "anchors": ["include/wtr/watcher.hpp: scan_dir_opts", "include/wtr/watcher.hpp: scan", "include/wtr/watcher.hpp: tend_bucket"]}
{"id": "C64", "title": "Darwin event handlers do not outlive the adapter", "statement": "Once the Darwin adapter has returned, no call of its event handler is under way or begins: the context, mutex and callback are not used after they are gone.", "quantifier": "all interleavings of the system's calls of the handler with the closing thread", "why_tests_cant": "A race between the dispatch queue and the closing thread; the source itself reports that it is seen only under heavy load.", "anchors": ["include/wtr/watcher.hpp: event_recv", "include/wtr/watcher.hpp: close_event_stream", "include/wtr/watcher.hpp: adapter::watch (Darwin)"]}
{"id": "C65", "title": "Interrupted waits do not end the watcher (Linux)", "statement": "A signal handled by the program while the watcher waits (an interrupted epoll_wait) does not end the watcher: it goes on reporting.", "quantifier": "all runs, all points at which a wait is interrupted, both system interfaces", "why_tests_cant": "Tests do not deliver signals to the watching thread, and cannot at every wait.", "anchors": ["include/wtr/watcher.hpp: adapter::watch (Linux)", "include/wtr/watcher.hpp: do_error"]}
{"id": "C66", "title": "Success means stopped on request (Darwin, Windows, fallback)", "statement": "The adapter returns success exactly when it had started and was asked to stop; it stops at the first look that finds the request, and never returns success by itself.", "quantifier": "all runs of the three adapters, all answers of the system, all times of the request", "why_tests_cant": "Tests stop a healthy watcher; the claim is about every run, also the failing ones.", "anchors": ["include/wtr/watcher.hpp: adapter::watch (Darwin)", "include/wtr/watcher.hpp: adapter::watch (Windows)", "include/wtr/watcher.hpp: adapter::watch (warthog)"]}
{"id": "C67", "title": "Failures are explained (Darwin, Windows, fallback)", "statement": "When the adapter fails the callback is given a message, an event about the watcher itself, that says why, as on Linux.", "quantifier": "all runs of the three adapters that fail", "why_tests_cant": "The failures (no event stream, no directory handle, a path that is no directory any more) are the system's, at any moment.", "anchors": ["include/wtr/watcher.hpp: open_event_stream", "include/wtr/watcher.hpp: watch_event_proxy::watch_event_proxy", "include/wtr/watcher.hpp: adapter::watch"]}
{"id": "C68", "title": "Wide text agrees with narrow text", "statement": "Converting an event to a wide string, or writing it to a wide stream, gives the same characters as the narrow conversion, for every event, and never ends the program.", "quantifier": "all events, all paths the filesystem allows", "why_tests_cant": "All byte strings are possible paths; tests use ASCII names.", "anchors": ["include/wtr/watcher.hpp: to<std::basic_string<wchar_t>>", "include/wtr/watcher.hpp: num_to_str", "include/wtr/watcher.hpp: operator<<"]}
{"id": "C69", "title": "Bindings free nothing the watching thread uses", "statement": "What a binding (Node, Rust, Python) hands to the watching thread stays valid until the thread makes no more calls: no callback uses freed memory.", "quantifier": "all schedules of the watching thread and the closing thread, any number of closes, all answers of the system", "why_tests_cant": "A race; and it needs a stop request that fails.", "anchors": ["watcher-nodejs/lib/watcher-napi.cpp: close", "watcher-nodejs/lib/watcher-napi.cpp: callback_bridge", "watcher-rs/src/lib.rs: Watch", "watcher-py/watcher/watcher.py: Watch", "watcher-c/src/watcher-c.cpp: wtr_watcher_close"]}
{"id": "C70", "title": "The Rust stream gives every event once and ends", "statement": "The Rust Watch, as a stream, gives every event of the watcher exactly once and in order, and ends once the watcher has been closed and all its events were received.", "quantifier": "all histories of events, polls and closes", "why_tests_cant": "Unbounded interleavings; that a stream never ends cannot be tested in finite time.", "anchors": ["watcher-rs/src/lib.rs: fwd_ev", "watcher-rs/src/lib.rs: Stream for Watch"]}
{"id": "C71", "title": "The small program's lines can be read", "statement": "From what tiny_watcher prints one can tell for each event its effect, kind, path and associated path.", "quantifier": "all sequences of events, all paths the filesystem allows", "why_tests_cant": "All byte strings are possible paths.", "anchors": ["src/wtr/tiny_watcher/main.cpp: show"]}
{"id": "C72", "title": "Exceptions in the callback are contained", "statement": "A callback that throws does not end the program: close() reports the failure.", "quantifier": "all schedules, all callbacks that throw, at every call", "why_tests_cant": "A test whose expected outcome is std::terminate cannot go on, and there is a throw for every callback and schedule.", "anchors": ["include/wtr/watcher.hpp: watch::watch", "include/wtr/watcher.hpp: watch::close", "include/wtr/watcher.hpp: watch::~watch"]}
{"id": "C73", "title": "Event times follow the clock", "statement": "Every event carries a time the clock gave after the previous filesystem event was delivered and before its own delivery; if the clock does not go back, filesystem events are delivered in the order of their times, and the associated event of a rename is no later than the event.", "quantifier": "all runs of all adapters, finished or not, all answers of the system, all threads", "why_tests_cant": "The clock and the system may answer anything at any call.", "anchors": ["include/wtr/watcher.hpp: event::event", "include/wtr/watcher.hpp: send_msg", "include/wtr/watcher.hpp: do_ev_recv", "include/wtr/watcher.hpp: event_recv_one", "include/wtr/watcher.hpp: do_event_send", "include/wtr/watcher.hpp: scan"]}
{"id": "C74", "title": "One callback at a time (Darwin)", "statement": "The system may call the adapter's event handler on several threads at once; the user's callback is nevertheless never called by two of them at the same time: callbacks happen only inside a handler call that holds the mutex, and the next one begins when that one is through.", "quantifier": "all interleavings of handler calls, closing thread and stop", "why_tests_cant": "Thread interleavings cannot be enumerated.", "anchors": ["include/wtr/watcher.hpp: event_recv", "include/wtr/watcher.hpp: close_event_stream"]}
{"id": "C75", "title": "Setup failures are fatal and named", "statement": "If inotify cannot be initialised, or the epoll set cannot be made or filled, the Linux watcher does not wait for events; its last callback is an error message that names the interface which failed and the watched path; it returns failure.", "quantifier": "all runs, all answers of the system, all paths", "why_tests_cant": "Which call fails, and after which others, cannot be enumerated.", "anchors": ["include/wtr/watcher.hpp: make_sysres", "include/wtr/watcher.hpp: make_ep", "include/wtr/watcher.hpp: do_mark", "include/wtr/watcher.hpp: watch (linux)"]}
{"id": "C76", "title": "A watcher that watches nothing says so", "statement": "If not a single directory could be marked, the watcher does not wait in silence: its last callback is an error message with the watched path, and it returns failure.", "quantifier": "all runs, all answers of the system, all paths", "why_tests_cant": "Which directories can be marked depends on the system's answers.", "anchors": ["include/wtr/watcher.hpp: make_sysres", "include/wtr/watcher.hpp: make_ep", "include/wtr/watcher.hpp: do_mark", "include/wtr/watcher.hpp: watch (linux)"]}
{"id": "C77", "title": "Every change in a watched directory is reported once and in order", "statement": "While files and directories are changed by others at any time, an unprivileged watcher on Linux reports each change in a directory that was watched when it happened exactly once and in the order in which the changes happened: as one event, or (a rename) as two halves next to each other, or (repeated writes to one file with nothing between them) as one event. At every moment the events reported so far are the beginning of such a report; when nothing is left to be read, the report is complete.", "quantifier": "all filesystems, all histories of changes (making, writing, removing, renaming files, making and removing directories) interleaved in any way with the watcher's calls, all splits of the kernel's queue into reads, all answers of the system to other calls, all points in time", "why_tests_cant": "the interleaving of changes and reads is not under a test's control, and histories are unbounded", "anchors": ["include/wtr/watcher.hpp:inotify::do_ev_recv", "include/wtr/watcher.hpp:inotify::do_mark", "include/wtr/watcher.hpp:inotify::make_sysres", "include/wtr/watcher.hpp:watch"]}
{"id": "C78", "title": "No event without a change", "statement": "Every filesystem event an unprivileged watcher on Linux delivers is about a change that had already happened, in a directory that was watched, or about one half of such a rename: no event is invented, and none is about another path, effect or type.", "quantifier": "as C77", "why_tests_cant": "as C77", "anchors": ["include/wtr/watcher.hpp:inotify::do_ev_recv", "include/wtr/watcher.hpp:inotify::do_mark", "include/wtr/watcher.hpp:inotify::make_sysres", "include/wtr/watcher.hpp:watch"]}
{"id": "C79", "title": "Changes anywhere in the tree that was there at the start are reported", "statement": "If nothing is changed and no watch is refused while the watcher sets itself up, then every later change in any directory that existed then below the watched path, at any depth, is reported as in C77, until that directory is removed.", "quantifier": "all directory trees that the system shows as they are (paths within PATH_MAX, fewer than 2^31-1 directories), all later histories of changes and interleavings, watched paths that lead to the root through links or not", "why_tests_cant": "unbounded trees and histories", "anchors": ["include/wtr/watcher.hpp:inotify::do_ev_recv", "include/wtr/watcher.hpp:inotify::do_mark", "include/wtr/watcher.hpp:inotify::make_sysres", "include/wtr/watcher.hpp:watch", "include/wtr/watcher.hpp:walkdir_do"]}
{"id": "C80", "title": "New directories are watched or warned about", "statement": "When everything the kernel queued has been read, each directory made in a watched directory was either marked, and from then on until it is removed every change in it is reported as in C77, or there was a `w/sys/not_watched@` warning with its path.", "quantifier": "as C77, with no links at the new directory's path", "why_tests_cant": "as C77", "anchors": ["include/wtr/watcher.hpp:inotify::do_ev_recv", "include/wtr/watcher.hpp:inotify::do_mark", "include/wtr/watcher.hpp:inotify::make_sysres", "include/wtr/watcher.hpp:watch"]}
{"id": "C81", "title": "Trees made while watching are watched", "statement": "Every change below the watched path is reported (as in C77), also in trees that are made while the watcher runs.", "quantifier": "as C77", "why_tests_cant": "a race between the watcher and whoever makes the tree", "anchors": ["include/wtr/watcher.hpp:inotify::do_ev_recv", "include/wtr/watcher.hpp:inotify::do_mark", "include/wtr/watcher.hpp:inotify::make_sysres", "include/wtr/watcher.hpp:watch"]}
{"id": "C82", "title": "What a watcher's user sees is the filesystem's history", "statement": "At any moment of the life of an unprivileged watcher object on Linux, with the owner and the watching thread interleaved in any way and files changed by others at any time: the callback has received the live message, then events that tell, each once and in order, of the changes in watched directories (as C77; the last ones may still be on their way), then the die message if the watcher is done. Once close() has returned true the report is final, and complete unless records were still unread in the kernel.", "quantifier": "all filesystems and histories of changes, all interleavings of owner, watching thread and changes, all points in time, all answers of the system to other calls", "why_tests_cant": "three concurrent parties, unbounded histories", "anchors": ["include/wtr/watcher.hpp:class watch", "include/wtr/watcher.hpp:inotify::do_ev_recv", "include/wtr/watcher.hpp:do_event_recv", "include/wtr/watcher.hpp:semabin"]}
{"id": "C83", "title": "Changes are reported before the watcher waits again", "statement": "When a wait of the watcher returns, every change made until then in a watched directory has been handed to the callback by the time the watcher waits again or ends, if the records waiting fit the watcher's buffer (4096 bytes).", "quantifier": "all filesystems, histories and interleavings as C77, all waits of a run; the system says that records are waiting when they are, and a read takes what fits", "why_tests_cant": "depends on what is in the kernel's queue at each wait", "anchors": ["include/wtr/watcher.hpp:class watch", "include/wtr/watcher.hpp:inotify::do_ev_recv", "include/wtr/watcher.hpp:do_event_recv", "include/wtr/watcher.hpp:semabin"]}
{"id": "C84", "title": "Changes made before close() are reported before it returns", "statement": "If close() returns true, every change in a watched directory made before close() was called has been handed to the callback.", "quantifier": "as C82 and C83", "why_tests_cant": "a race between the last changes and the stop signal", "anchors": ["include/wtr/watcher.hpp:class watch", "include/wtr/watcher.hpp:inotify::do_ev_recv", "include/wtr/watcher.hpp:do_event_recv", "include/wtr/watcher.hpp:semabin"]}
{"id": "C85", "title": "Changes reach the users of the bindings", "statement": "On Linux without privileges, with file names in UTF-8: what a Rust stream gives, and what a Python or (while its queue is never full) a Node callback is called with, mirrors in paths, effect, type and time the events that tell of the changes in watched directories, each once and in order; nothing is missing once close() has returned true and the kernel's queue is empty. In Node the time is the nearest double.", "quantifier": "all filesystems with UTF-8 names and histories of changes, all interleavings of changes, watching thread, owner and stream polls, all answers of the system to other calls", "why_tests_cant": "four concurrent parties through three layers of conversion", "anchors": ["watcher-c/src/watcher-c.cpp:wtr_watcher_open", "watcher-rs/src/lib.rs:fwd_ev", "watcher-py/watcher/watcher.py:_c_event_to_event", "watcher-nodejs/lib/watcher-napi.cpp:event_to_js_obj", "include/wtr/watcher.hpp:watch"]}
{"id": "C86", "title": "Nothing is closed that is not open (Linux)", "statement": "At no point of any run has the Linux adapter closed a descriptor more often than it was opened, and directory streams are opened and closed in balance.", "quantifier": "all kernel answers at every point of the run, including failures", "why_tests_cant": "every failing call at every point", "anchors": ["include/wtr/watcher.hpp:adapter::watch", "include/wtr/watcher.hpp:make_ep", "include/wtr/watcher.hpp:inotify::make_sysres", "include/wtr/watcher.hpp:fanotify::make_sysres"]}
{"id": "C87", "title": "The Rust stream gives every event once, in order", "statement": "However it is polled, what the Rust stream has given and will give are the events of the watcher, each once and in order, and with enough polls all of them are given.", "quantifier": "all histories of events, polls and closes", "why_tests_cant": "all interleavings of sends and polls", "anchors": ["watcher-rs/src/lib.rs: fwd_ev", "watcher-rs/src/lib.rs: Stream for Watch"]}
{"id": "C88", "title": "Node closes the native watcher once", "statement": "However often close is called on a Node watcher, the native watcher is closed once, and after that no new event is made.", "quantifier": "all sequences of close calls, all interleavings of the watching thread and the JavaScript thread", "why_tests_cant": "all interleavings", "anchors": ["watcher-nodejs/lib/watcher.ts:watch", "watcher-nodejs/lib/watcher-napi.cpp:close"]}
{"id": "C89", "title": "C handles are safe until a close returned true", "statement": "A sequence of wtr_watcher_close calls on opened handles is free of undefined behaviour exactly if no handle is used after a close of it returned true; such a close frees the watcher, no other does, and NULL is refused.", "quantifier": "all sequences of open/close calls", "why_tests_cant": "all sequences of calls and answers", "anchors": ["watcher-c/src/watcher-c.cpp:wtr_watcher_close", "readme.md:State Changes and Special Events"]}
{"id": "C90", "title": "Node callbacks are in order, without repeats, from a bounded queue", "statement": "The events the Node callback is called with are a subsequence of those made by the watcher, the queue never holds more than its size, and while it was never full nothing is lost.", "quantifier": "all interleavings of producer and JavaScript thread", "why_tests_cant": "all interleavings", "anchors": ["watcher-nodejs/lib/watcher-napi.cpp:callback_bridge"]}
{"id": "C91", "title": "Command line: help, path and exit code", "statement": "The command line program shows help and exits 0 for -h/--help, watches the given existing path or else, without arguments, the current directory, and exits 0 exactly when it showed help or the watcher closed successfully.", "quantifier": "all argument vectors and filesystem answers", "why_tests_cant": "all argument vectors", "anchors": ["src/wtr/watcher/main.cpp:Args::try_parse", "src/wtr/watcher/main.cpp:main"]}
{"id": "C92", "title": "A stop request is not forgotten (Darwin, generic)", "statement": "Once a release of the stop flag answered `released`, every query that begins later, by any thread, answers `released`, on Darwin and on the generic platform.", "quantifier": "all numbers of threads, all sequences of calls, all interleavings", "why_tests_cant": "interleavings", "anchors": ["include/wtr/watcher.hpp:semabin"]}
{"id": "C93", "title": "Darwin renames use each half once", "statement": "A rename event on Darwin joins exactly two reports with the rename flag, the later of which directly follows the earlier among those, the earlier gave no event, and its path was looked for and not found; reports without the flag give no rename event.", "quantifier": "all sequences of flagged paths and existence answers", "why_tests_cant": "all histories", "anchors": ["include/wtr/watcher.hpp:event_recv_one"]}
{"id": "C94", "title": "Events are about entries of marked directories (inotify)", "statement": "Every filesystem event of the inotify adapter is about an entry, with a name that is not empty and has neither slash nor NUL, of a directory that was marked before.", "quantifier": "all histories of batches", "why_tests_cant": "all histories of batches", "anchors": ["include/wtr/watcher.hpp:inotify::do_mark", "include/wtr/watcher.hpp:inotify::make_sysres", "include/wtr/watcher.hpp:walkdir_do"]}
{"id": "C95", "title": "Windows: token and port are closed once", "statement": "When the Windows adapter returns, it has closed its event token, and its completion port if it had one, exactly once each.", "quantifier": "all watched paths, all answers of the system, all runs of the adapter that return", "why_tests_cant": "all answers of the system", "anchors": ["include/wtr/watcher.hpp: watch_event_proxy::watch_event_proxy", "include/wtr/watcher.hpp: watch_event_proxy::~watch_event_proxy"]}
{"id": "C96", "title": "Which timestamps print exactly", "statement": "A 64-bit effect time is printed as its decimal representation exactly if it is at least 10^18 (after the year 2001), or in (-10^18,-10^17].", "quantifier": "all 64-bit effect times, narrow and wide strings", "why_tests_cant": "2^64 inputs", "anchors": ["include/wtr/watcher.hpp:num_to_str"]}
{"id": "C97", "title": "Bindings on Darwin and Windows free nothing in use", "statement": "On Darwin, Windows and Linux with a working stop descriptor, what a binding hands to the watching thread stays valid until the thread makes no more calls.", "quantifier": "all schedules of the watching thread and the closing thread, any number of closes, all answers of the system", "why_tests_cant": "schedules", "anchors": ["watcher-nodejs/lib/watcher-napi.cpp: close", "watcher-nodejs/lib/watcher-napi.cpp: callback_bridge", "watcher-rs/src/lib.rs: Watch", "watcher-py/watcher/watcher.py: Watch", "watcher-c/src/watcher-c.cpp: wtr_watcher_close"]}
{"id": "C98", "title": "What is moved into or out of the tree is followed", "statement": "A file or directory moved between a watched directory and a place that is not watched is reported, and a directory that arrives is watched from then on (or the user is warned), as one made there would be.", "quantifier": "all filesystems and histories of changes with moves in and out at any time (inotify adapter)", "why_tests_cant": "depends on where things come from and on what others do later in the moved directory", "anchors": ["include/wtr/watcher.hpp:inotify::do_ev_recv", "include/wtr/watcher.hpp:inotify::do_mark"]}
{"id": "C99", "title": "Events suffice to keep a mirror of the tree", "statement": "A user who starts from the files and directories that are there and applies each event to his list always has, when nothing is left unread, exactly the files and directories that exist.", "quantifier": "all filesystems and histories of changes in watched directories", "why_tests_cant": "quantifies over all histories; the events are merged, split and delayed by the kernel and the watcher", "anchors": ["include/wtr/watcher.hpp:inotify::do_ev_recv", "include/wtr/watcher.hpp:inotify::do_mark"]}
{"id": "C100", "title": "Windows: every change is reported once, in order", "statement": "While others make, write, rename and remove files below the watched directory, at any moment of the watcher's run, the events the user got tell of the changes noted since the first read, each once and in order; when the watcher waits or looks at the stop flag, and when it has returned, only changes that the system itself still holds are missing.", "quantifier": "all filesystems, all histories of changes between any two calls of the watcher, all splits of the changes into completions", "why_tests_cant": "quantifies over all histories and all timings of completions", "anchors": ["include/wtr/watcher.hpp:windows::do_event_recv", "include/wtr/watcher.hpp:windows::do_event_send", "include/wtr/watcher.hpp:windows::watch"]}
{"id": "C101", "title": "Windows: the type in an event is that of the thing changed", "statement": "The path type in an event is that of the file or directory the change was about.", "quantifier": "all filesystems and histories of changes (Windows adapter)", "why_tests_cant": "depends on what is there when the watcher asks, after the change", "anchors": ["include/wtr/watcher.hpp:windows::do_event_recv", "include/wtr/watcher.hpp:windows::do_event_send", "include/wtr/watcher.hpp:windows::watch"]}
{"id": "C102", "title": "Windows: a watcher's whole life", "statement": "On Windows, at any moment of a watcher's life, what the callback received is the live message, then events that tell of the changes in the watched directory so far, each once and in order, then the die message if it is over; once close() has returned true only changes that the system still holds are missing, and nothing more comes.", "quantifier": "all histories of changes, all interleavings of the watching thread, the owner and the others", "why_tests_cant": "quantifies over all interleavings and histories", "anchors": ["include/wtr/watcher.hpp:class watch", "include/wtr/watcher.hpp:windows::watch"]}
{"id": "C103", "title": "Windows: changes made before close() are reported", "statement": "On Windows, a change made before close() is called has been reported when close() has returned true.", "quantifier": "all histories of changes and all interleavings", "why_tests_cant": "a race between the changes, the completion of the read and the closing thread", "anchors": ["include/wtr/watcher.hpp:class watch", "include/wtr/watcher.hpp:windows::watch"]}
{"id": "C104", "title": "Fallback: the whole run is determined by the history", "statement": "With the fallback adapter, on a directory that changes only between scans and whose files' times can be read, the events of a whole run are exactly these, in the order of the scans and within a scan of the directory walk: a creation for a regular file of which no time was noted before, a modification for one whose time differs from the one last noted; nothing for anything else, and nothing up to and including the first scan that finds anything.", "quantifier": "all histories of directory contents, all run lengths", "why_tests_cant": "quantifies over all histories and run lengths", "anchors": ["include/wtr/watcher.hpp:warthog::watch"]}
{"id": "C105", "title": "Fallback: a watcher's whole life", "statement": "With the fallback adapter, at any moment of a watcher's life what the callback received is the live message, then a beginning of what the scans begun so far have found, containing all that earlier scans found, then the die message if it is over; once close() has returned true it is exactly what the scans found, and nothing more comes.", "quantifier": "all histories of directory contents, all interleavings of the watching thread, the owner and the others", "why_tests_cant": "quantifies over all interleavings and histories", "anchors": ["include/wtr/watcher.hpp:warthog::watch", "include/wtr/watcher.hpp:class watch"]}
{"id": "C106", "title": "Fallback: changes made before close() are reported", "statement": "With the fallback adapter, a file made or written before close() is called has been reported when close() has returned true.", "quantifier": "all histories of directory contents and all interleavings", "why_tests_cant": "a race between the changes, the scans and the closing thread", "anchors": ["include/wtr/watcher.hpp:warthog::watch", "include/wtr/watcher.hpp:class watch"]}
{"id": "C107", "title": "fanotify: every change is told of", "statement": "With the fanotify adapter, while others create, write, remove and rename files: every change of an entry of a watched directory has led to an event that mentions the entry's path, or its record has not been read yet.", "quantifier": "all histories of changes by any processes, made at any point between the calls of the watcher, all ways the kernel joins and hands out records, all run lengths", "why_tests_cant": "quantifies over all histories and interleavings with the watcher's calls", "anchors": ["include/wtr/watcher.hpp:fanotify::do_event_recv", "include/wtr/watcher.hpp:parse_ev", "include/wtr/watcher.hpp:pathof"]}
{"id": "C108", "title": "fanotify: no event without a change", "statement": "With the fanotify adapter, while others create, write, remove and rename files: every event about a path tells of a change of the kind it names that happened to that path, with the right path type; an event that p was renamed to q is sent only if p was renamed to something and something was renamed to q.", "quantifier": "all histories of changes by any processes, all interleavings with the watcher, all run lengths", "why_tests_cant": "quantifies over all histories and interleavings", "anchors": ["include/wtr/watcher.hpp:fanotify::do_event_recv", "include/wtr/watcher.hpp:parse_ev", "include/wtr/watcher.hpp:pathof"]}
{"id": "C109", "title": "fanotify: without renames the events are exact", "statement": "With the fanotify adapter and while files are created, written and removed but not renamed: there is one event per record the kernel hands out, in the same order; a creation is told as a creation, a removal as a removal or as the creation it was joined with, a write as one of the three; or the record has not been read yet.", "quantifier": "all histories without renames, all interleavings with the watcher, all run lengths", "why_tests_cant": "quantifies over all histories and interleavings", "anchors": ["include/wtr/watcher.hpp:fanotify::do_event_recv", "include/wtr/watcher.hpp:parse_ev", "include/wtr/watcher.hpp:pathof"]}
{"id": "C110", "title": "fanotify: the last event tells whether a file is there", "statement": "With the fanotify adapter, when nothing about a file is waiting to be read, the file exists exactly if the last event about it is not a destruction.", "quantifier": "all histories without renames, all interleavings with the watcher, all run lengths", "why_tests_cant": "quantifies over all histories and interleavings; depends on the order in which the kernel joins records", "anchors": ["include/wtr/watcher.hpp:fanotify::do_event_recv", "include/wtr/watcher.hpp:parse_ev", "include/wtr/watcher.hpp:pathof"]}
{"id": "C111", "title": "fanotify: the tree there at the start is watched", "statement": "With the fanotify adapter: for every directory below the watched path when the watcher starts, every change in it made after the watcher's first wait began is one of those C107-C110 are about, or there was a `w/sys/not_watched@` warning with its path. Files and directories may be changed and marks denied at any time, also while the tree is being walked.", "quantifier": "all trees, all histories and interleavings of changes with the watcher's calls (also during the start), any pattern of denied marks, links to the watched path, all run lengths", "why_tests_cant": "quantifies over all trees and interleavings, also with the walk", "anchors": ["include/wtr/watcher.hpp:fanotify::make_sysres", "include/wtr/watcher.hpp:fanotify::do_mark", "include/wtr/watcher.hpp:fanotify::do_event_recv", "include/wtr/watcher.hpp:walkdir_do"]}
{"id": "C112", "title": "fanotify: trees made while watching are watched", "statement": "With the fanotify adapter: every change below the watched path is told, also in directories made while the watcher runs, or the user is warned.", "quantifier": "all histories and interleavings of changes with the watcher's calls, any pattern of denied marks, all run lengths", "why_tests_cant": "a race between the watcher and whoever makes the tree", "anchors": ["include/wtr/watcher.hpp:fanotify::make_sysres", "include/wtr/watcher.hpp:fanotify::do_mark", "include/wtr/watcher.hpp:fanotify::do_event_recv", "include/wtr/watcher.hpp:walkdir_do"]}
{"id": "C113", "title": "A root watcher's life is sound from open to close", "statement": "On Linux as root (fanotify), at every point of a watcher's life: the callback received a live message, then what the adapter told so far, then at most a die message; each event about a file tells of something that had already happened to it; no run is undefined; and once close() has returned true nothing more comes, and each change in a watched directory was told by an event about that file, or is still in the kernel's queue, or was read in one batch behind the end of one move directly before the beginning of another (see C107).", "quantifier": "all lives (interleavings of open, close, the worker and the callback), all histories of changes and their interleavings with the watcher's calls, all queue batchings", "why_tests_cant": "quantifies over all schedules of user, watcher and other processes", "anchors": ["include/wtr/watcher.hpp:class watch", "include/wtr/watcher.hpp:fanotify::do_event_recv", "include/wtr/watcher.hpp:detail::wtr::watcher::adapter::watch (Linux)"]}
{"id": "C114", "title": "fanotify: what was changed before close() is reported before it returns", "statement": "On Linux as root (fanotify): every change in a watched directory is told before the watcher waits again; so what was changed before close() was called is told before close() returns true.", "quantifier": "all lives, all histories of changes and their interleavings with the watcher's calls", "why_tests_cant": "a race between the last changes, the stop signal and the reads", "anchors": ["include/wtr/watcher.hpp:class watch", "include/wtr/watcher.hpp:fanotify::do_event_recv", "include/wtr/watcher.hpp:detail::wtr::watcher::adapter::watch (Linux)"]}
{"id": "C115", "title": "Darwin: no event without a change", "statement": "On macOS, if what FSEvents says is true (a flag of a path says that such a change was made to it, maybe long ago), every event tells of a change that was made by the time the callback is called: of that kind, at that path, of that type; and a rename event tells of a move from its one path to the other.", "quantifier": "all histories of changes, all ways FSEvents gathers, repeats, delays, drops and reorders batches, all interleavings with the adapter", "why_tests_cant": "quantifies over all behaviours of the filesystem and of the system's event service", "anchors": ["include/wtr/watcher.hpp:event_recv_one", "include/wtr/watcher.hpp:event_recv", "include/wtr/watcher.hpp:ContextData"]}
{"id": "C116", "title": "Darwin: one event for each change", "statement": "On macOS, even at best (changes come one at a time, each with its own records, all handed over in order and looked at before the next change) each change is told by exactly one event of its kind, path and type.", "quantifier": "all trees, all histories of changes of any length, all lives of the adapter with such records", "why_tests_cant": "the adapter's memory of created paths and of the last renamed path depends on the whole history", "anchors": ["include/wtr/watcher.hpp:event_recv_one", "include/wtr/watcher.hpp:event_recv", "include/wtr/watcher.hpp:ContextData"]}
{"id": "C117", "title": "Darwin: a picture of the tree kept with the events is the tree", "statement": "On macOS, a user who starts with the tree and applies each event to the picture (create adds, destroy removes, rename moves) has the tree.", "quantifier": "all trees and histories of changes, all paths", "why_tests_cant": "agreement of two states after every history", "anchors": ["include/wtr/watcher.hpp:event_recv_one", "include/wtr/watcher.hpp:event_recv", "include/wtr/watcher.hpp:ContextData"]}
{"id": "C118", "title": "A Darwin watcher's life is sound from open to close", "statement": "On macOS, at every point of a watcher's life: the callback received a live message, then events, each true when it came, then at most a die message; and once close() has returned true nothing more comes, and each change made is told once, in order.", "quantifier": "all lives (interleavings of open, close, the worker, the system's threads and the callback), all histories of changes, all true behaviours of FSEvents", "why_tests_cant": "quantifies over all schedules of user, watcher, system and other processes", "anchors": ["include/wtr/watcher.hpp:event_recv_one", "include/wtr/watcher.hpp:event_recv", "include/wtr/watcher.hpp:ContextData", "include/wtr/watcher.hpp:class watch", "include/wtr/watcher.hpp:close_event_stream", "include/wtr/watcher.hpp:detail::wtr::watcher::adapter::watch (Darwin)"]}
{"id": "C119", "title": "Darwin: what was changed before close() is reported before it returns", "statement": "On macOS: what was changed before close() was called is told before close() returns true.", "quantifier": "all lives, all histories of changes, all batchings", "why_tests_cant": "a race between the last changes, the stop signal and the mutex", "anchors": ["include/wtr/watcher.hpp:event_recv_one", "include/wtr/watcher.hpp:event_recv", "include/wtr/watcher.hpp:ContextData", "include/wtr/watcher.hpp:class watch", "include/wtr/watcher.hpp:close_event_stream", "include/wtr/watcher.hpp:detail::wtr::watcher::adapter::watch (Darwin)"]}
{"id": "C120", "title": "Exactly which events are faithfully told in JSON", "statement": "The JSON an event streams, the command line's JSON and Python's JSON are each read back, by a reader of RFC 8259, as exactly the event's fields if and only if no path in it has a quote, a backslash or a control character and (in the first two) its time has nineteen characters; with any other event a reader gets an error or another event.", "quantifier": "all events with 64-bit times, all paths, all depths of association", "why_tests_cant": "an equivalence over all texts: every other path, however its backslashes and quotes are arranged, has to be excluded", "anchors": ["include/wtr/watcher.hpp:wtr_event_to_str_cls_as_json", "include/wtr/watcher.hpp:num_to_str", "src/wtr/watcher/main.cpp:json", "watcher-py/watcher/watcher.py:Event.__str__"]}
{"id": "C121", "title": "Exactly which events each binding shows as they are", "statement": "An event seen through the C, Rust, Python or Node binding has the fields of the C++ event if and only if: its paths have no NUL (C); and are UTF-8 (Rust, Python, Node); and the associated path, if any, is not empty (Python); and its time is a multiple of a power of two that leaves 53 bits (Node); on Windows (C): its paths are UTF-16 without NUL of less than 4095 bytes as UTF-8.", "quantifier": "all events with all paths and times, all conversions by V8 of what is not UTF-8, all right conversions by Windows", "why_tests_cant": "an equivalence over all texts and times", "anchors": ["watcher-c/src/watcher-c.cpp:wtr_watcher_open", "watcher-rs/src/lib.rs:ev_from_c", "watcher-py/watcher/watcher.py:_c_event_to_event", "watcher-nodejs/lib/watcher-napi.cpp:event_to_js_obj"]}
{"id": "C122", "title": "What is told is exactly what the kernel kept", "statement": "At every moment the filesystem events and warnings shown tell, in order and each once, a first part of what the kernel recorded of the changes in watched directories and did not lose; once everything is read they tell all of it. Both halves of a move read together are one event; a loss is one warning.", "quantifier": "all filesystems and histories of changes (made, written, removed, renamed, moved from any directory to any other, directories with all that is below them), happening between any two system calls, all limits of the kernel's queue, all sizes of reads, all failures of other calls, all moments", "why_tests_cant": "ranges over all histories, schedules of changes and queue limits", "anchors": ["include/wtr/watcher.hpp:inotify::do_ev_recv", "include/wtr/watcher.hpp:inotify::do_mark", "include/wtr/watcher.hpp:inotify::make_sysres", "include/wtr/watcher.hpp:watch"]}
{"id": "C123", "title": "Events tell what happened", "statement": "Every filesystem event shown tells a change that happened, with its path and, for a rename, its new path. (In part: of a move from one watched directory to another the new name is put into the old directory; events in a directory that was moved have its old path.)", "quantifier": "all filesystems and histories of changes (made, written, removed, renamed, moved from any directory to any other, directories with all that is below them), happening between any two system calls, all limits of the kernel's queue, all sizes of reads, all failures of other calls, all moments", "why_tests_cant": "ranges over all histories with moved directories", "anchors": ["include/wtr/watcher.hpp:inotify::do_ev_recv", "include/wtr/watcher.hpp:inotify::do_mark", "include/wtr/watcher.hpp:inotify::make_sysres", "include/wtr/watcher.hpp:watch"]}
{"id": "C124", "title": "Lost records are announced as what they are", "statement": "Whenever the kernel loses records, the user is warned that events were lost. (In part: the warning is the one for an unknown watch.)", "quantifier": "all filesystems and histories of changes (made, written, removed, renamed, moved from any directory to any other, directories with all that is below them), happening between any two system calls, all limits of the kernel's queue, all sizes of reads, all failures of other calls, all moments", "why_tests_cant": "ranges over all histories and queue limits", "anchors": ["include/wtr/watcher.hpp:inotify::do_ev_recv", "include/wtr/watcher.hpp:inotify::do_mark", "include/wtr/watcher.hpp:inotify::make_sysres", "include/wtr/watcher.hpp:watch"]}
{"id": "C125", "title": "Watching goes on after an overflow", "statement": "After records were lost, everything that is not lost is told, and every directory of the tree is watched or the user is warned of it. (In part: a directory made while records were lost is never watched.)", "quantifier": "all filesystems and histories of changes (made, written, removed, renamed, moved from any directory to any other, directories with all that is below them), happening between any two system calls, all limits of the kernel's queue, all sizes of reads, all failures of other calls, all moments", "why_tests_cant": "ranges over all histories and queue limits", "anchors": ["include/wtr/watcher.hpp:inotify::do_ev_recv", "include/wtr/watcher.hpp:inotify::do_mark", "include/wtr/watcher.hpp:inotify::make_sysres", "include/wtr/watcher.hpp:watch"]}
{"id": "C126", "title": "Events concern only the watched tree", "statement": "No event concerns anything outside the watched tree. (In part: what was moved out of the tree goes on being told, under the old path.)", "quantifier": "all filesystems and histories of changes (made, written, removed, renamed, moved from any directory to any other, directories with all that is below them), happening between any two system calls, all limits of the kernel's queue, all sizes of reads, all failures of other calls, all moments", "why_tests_cant": "ranges over all histories with moved directories", "anchors": ["include/wtr/watcher.hpp:inotify::do_ev_recv", "include/wtr/watcher.hpp:inotify::do_mark", "include/wtr/watcher.hpp:inotify::make_sysres", "include/wtr/watcher.hpp:watch"]}
{"id": "C127", "title": "Directories that are moved stay watched", "statement": "A directory of the tree that was there at the start stays watched wherever it is moved, until it is removed: every change in it is told, under its path at the start, or the user is warned of a loss.", "quantifier": "all filesystems and histories of changes (made, written, removed, renamed, moved from any directory to any other, directories with all that is below them), happening between any two system calls, all limits of the kernel's queue, all sizes of reads, all failures of other calls, all moments; the tree is at rest until the watcher first waits", "why_tests_cant": "ranges over all histories of moves", "anchors": ["include/wtr/watcher.hpp:inotify::do_ev_recv", "include/wtr/watcher.hpp:inotify::do_mark", "include/wtr/watcher.hpp:inotify::make_sysres", "include/wtr/watcher.hpp:watch"]}
{"id": "C128", "title": "The Rust program tells every event on a line of JSON", "statement": "The Rust program watches its first argument (or the current directory); it writes, for every event, in order and each once, one line without a newline inside that a JSON reader reads as the event's fields, whatever characters the paths have; an event with NUL-free UTF-8 paths is told with exactly its time, paths, effect and type under their documented names.", "quantifier": "all sequences of events and polls, all paths, times and arguments", "why_tests_cant": "ranges over all texts and all interleavings of callbacks and polls", "anchors": ["watcher-rs/src/main.rs:main", "watcher-rs/src/main.rs:show", "watcher-rs/src/lib.rs:Event", "watcher-rs/src/lib.rs:EffectType", "watcher-rs/src/lib.rs:PathType"]}
{"id": "C129", "title": "Exactly which paths the bindings open", "statement": "A path given to a binding is opened as exactly its UTF-8 bytes if and only if: it has no NUL (Rust; otherwise the program panics); it is made of Unicode scalar values (otherwise an error) and has no NUL (otherwise another path is opened) (Python); it has no NUL and at most 4095 bytes (otherwise another path is opened) (Node).", "quantifier": "all strings", "why_tests_cant": "an equivalence over all strings", "anchors": ["watcher-rs/src/lib.rs:Watch::try_new", "watcher-py/watcher/watcher.py:Watch.__init__", "watcher-nodejs/lib/watcher-napi.cpp:watch"]}
{"id": "C130", "title": "Exactly which events can be wide text", "statement": "An event can be made wide text if and only if its path and associated path are UTF-8; then the wide text says the same as the narrow one; otherwise an exception leaves the conversion.", "quantifier": "all events with all paths", "why_tests_cant": "an equivalence over all texts", "anchors": ["include/wtr/watcher.hpp: to<std::basic_string<wchar_t>>", "include/wtr/watcher.hpp: operator<<"]}
{"id": "C131", "title": "A watcher's life where directories are moved and records are lost", "statement": "At every point of a watcher's life the callback has received the live message, then, in order and each once, the events and loss warnings of a first part of what the kernel kept of the changes in watched directories, then the die message if it is over; once close() has returned true nothing more is received, and nothing is missing but what was still unread. No run is undefined.", "quantifier": "all filesystems, histories of changes (directories moved with all below them included), queue limits, schedules, failures of other calls, and all points of all lives of a watcher", "why_tests_cant": "ranges over all histories, schedules and moments of closing", "anchors": ["include/wtr/watcher.hpp:inotify::do_ev_recv", "include/wtr/watcher.hpp:inotify::do_mark", "include/wtr/watcher.hpp:inotify::make_sysres", "include/wtr/watcher.hpp:watch", "include/wtr/watcher.hpp:class watch"]}
{"id": "C132", "title": "Changes and losses are reported before close() returns", "statement": "What changed in watched directories before close() was called is reported, or the user is warned that records were lost, before close() returns true; likewise before the watcher waits again. (In part: only one read's worth.)", "quantifier": "all filesystems, histories of changes (directories moved with all below them included), queue limits, schedules, failures of other calls, and all points of all lives of a watcher; waits that tell the truth, reads that take all that fits", "why_tests_cant": "ranges over all histories, schedules and moments of closing", "anchors": ["include/wtr/watcher.hpp:inotify::do_ev_recv", "include/wtr/watcher.hpp:inotify::do_mark", "include/wtr/watcher.hpp:inotify::make_sysres", "include/wtr/watcher.hpp:watch", "include/wtr/watcher.hpp:class watch"]}
{"id": "C133", "title": "The rename program moves the file or changes nothing", "statement": "The program portable-destructive-rename ends well only if the file named first now has the second name and only that; on another filesystem the file is taken there; when it ends otherwise it says which call failed and no name was changed, as when help is asked for.", "quantifier": "all arguments, all files and mounts, all errors of rename, link and unlink", "why_tests_cant": "ranges over all states of a filesystem and all failures", "anchors": ["devel/src/portable-destructive-rename/main.c:main"]}
{"id": "C134", "title": "New directories are watched or warned of, also where directories move", "statement": "On a filesystem where directories are renamed and moved and the kernel's queue is limited, a directory made in a watched directory, whose record was not lost, is watched from the handling of its record on, wherever it is moved afterwards: every change in it is told, or the user is warned that something was lost; or the user is warned that it is not watched.", "quantifier": "all histories of changes and moves, all interleavings with the watcher, all denials of watches, all queue limits", "why_tests_cant": "ranges over all schedules of changes against the watcher's reads", "anchors": ["include/wtr/watcher.hpp:recv", "include/wtr/watcher.hpp:mark"]}
{"id": "C135", "title": "Built for Android, the library watches like an unprivileged user's Linux build", "statement": "Built for Android or for a Linux kernel older than 5.9, a watcher does on every system exactly what a watcher of an unprivileged user does there: the same calls, the same events and the same result, except that it does not ask who the user is. It opens one inotify instance and nothing of fanotify, and its account of all changes is that of C122, also for root.", "quantifier": "all systems and their answers, all paths, all histories of changes and moves, all users", "why_tests_cant": "the equivalence ranges over all answers a system may give, and the account over all histories", "anchors": ["include/wtr/watcher.hpp:watch", "include/wtr/watcher.hpp:make_ep"]}
{"id": "C136", "title": "Root without fanotify is served by inotify", "statement": "Where fanotify cannot be used, as in a container, a watcher of root does exactly what one of any other user does, after asking for fanotify and closing two descriptors that are -1: the same events and result on every system, no message about fanotify, and the account of all changes of C122.", "quantifier": "all systems and their answers, all negative or zero answers of fanotify_init, all histories of changes and moves", "why_tests_cant": "the equivalence ranges over all answers a system may give, and the account over all histories", "anchors": ["include/wtr/watcher.hpp:watch"]}
{"id": "C137", "title": "The fallback follows links to directories", "statement": "Where the native adapters are not available, the adapter asks to follow symbolic links to directories: files behind such links in the watched directory are watched as others are.", "quantifier": "all filesystems whose walks enter links only when asked to, all histories of changes, all answers, all numbers of rounds", "why_tests_cant": "a negative claim about every file, round and answer of the filesystem", "anchors": ["include/wtr/watcher.hpp:scan_dir_opts", "include/wtr/watcher.hpp:scan", "include/wtr/watcher.hpp:tend_bucket"]}
{"id": "C138", "title": "Changes reach the users of the bindings where directories move and records are lost", "statement": "On Linux without privileges, whatever is created, written, removed or moved under watched directories (directories too), and whatever the kernel's full queue drops: what the kernel kept of it reaches the user of the Rust, Python and Node bindings once and in order, with the paths, effects, path types and times of the C++ events; a gap reaches them as a warning; once close() has returned true nothing is missing but what was still in the kernel's queue.", "quantifier": "all starting trees and histories of changes with UTF-8 names, all queue lengths, all answers of the rest of the system, all lives of a watcher, all times at which the user of a binding looks", "why_tests_cant": "ranges over all histories, schedules and interleavings of the watcher's, the user's and the runtime's steps", "anchors": ["include/wtr/watcher.hpp:watch", "watcher-c/src/watcher-c.cpp:wtr_watcher_open", "watcher-rs/src/lib.rs:Watch", "watcher-py/watcher/watcher.py:Watch", "watcher-nodejs/lib/watcher-napi.cpp:watch"]}
{"id": "C139", "title": "The Python program tells every event on a line of JSON", "statement": "Run as a program, watcher.py watches the path it is given, or the current directory, and writes one line of JSON for each event, in order, from which a JSON reader gets the event's time, paths, effect and path type.", "quantifier": "all lists of events, all arguments", "why_tests_cant": "ranges over all paths and all sequences of events", "anchors": ["watcher-py/watcher/watcher.py:Event.to_json", "watcher-py/watcher/watcher.py:Watch", "watcher-py/watcher/watcher.py:_c_event_to_event"]}
{"id": "C140", "title": "On Windows, changes reach the users of the bindings", "statement": "On Windows, whatever is created, written, removed or renamed under the watched directory, with names that are UTF-16 without NUL and full paths of fewer than 4095 bytes in UTF-8: every change that the watcher was told of reaches the C callback once and in order, and from it the Rust, Python and Node bindings make an event with the same path, associated path, effect, path type and time (for Node the nearest double); once close() has returned true nothing is missing but what the system still held.", "quantifier": "all starting trees and histories of changes with such names, all ways the system groups them into completions, all answers of the rest of the system, all faithful conversions, all lives of a watcher and all points in them", "why_tests_cant": "ranges over all histories, schedules and names", "anchors": ["include/wtr/watcher.hpp:watch", "watcher-c/src/watcher-c.cpp:utf16_to_utf8", "watcher-c/src/watcher-c.cpp:wtr_watcher_open", "watcher-rs/src/lib.rs:ev_from_c", "watcher-py/watcher/watcher.py:_c_event_to_event", "watcher-nodejs/lib/watcher-napi.cpp:event_to_js_obj"]}
{"id": "C141", "title": "Watchers in one program do not disturb one another (Linux)", "statement": "However the calls of any number of watchers of one program follow one another, with the kernel handing out only descriptors that are not open: every call a watcher makes is on the stop descriptor it was given or on a descriptor it opened itself and that no watcher has closed or opened since; and no watcher ever closes a descriptor of another or a stop descriptor.", "quantifier": "any number of watchers, all interleavings of their calls, all paths and all answers of the system (which may depend on what other watchers do), all points in the run", "why_tests_cant": "ranges over all interleavings of any number of watchers", "anchors": ["include/wtr/watcher.hpp:make_ep", "include/wtr/watcher.hpp:make_sysres", "include/wtr/watcher.hpp:do_ev_recv", "include/wtr/watcher.hpp:watch"]}
{"id": "C142", "title": "On Darwin, what FSEvents says reaches the users of the bindings", "statement": "On Darwin, whatever FSEvents truthfully says with paths in UTF-8: every event about files that the watcher makes reaches the Rust, Python and Node users, once and in order and with the same path, associated path, effect, path type and time (Node: the nearest double, and as long as its queue was never full); each event is true when it is made (for renames as far as C115 goes); and once close() has returned true the users of the bindings have been told, of changes that came one at a time and gave no trouble (C116), each once and in order.", "quantifier": "all histories of changes, all truthful FSEvents answers and groupings with such paths, all interleavings of the callbacks, all lives of a watcher and all points in them", "why_tests_cant": "ranges over all histories, schedules and names", "anchors": ["include/wtr/watcher.hpp:event_recv_one", "include/wtr/watcher.hpp:watch", "watcher-c/src/watcher-c.cpp:wtr_watcher_open", "watcher-rs/src/lib.rs:ev_from_c", "watcher-py/watcher/watcher.py:_c_event_to_event", "watcher-nodejs/lib/watcher-napi.cpp:event_to_js_obj"]}
{"id": "C143", "title": "As root on Linux, changes reach the users of the bindings", "statement": "With fanotify, whatever is made, written, removed or renamed with names in UTF-8: every event about files that the watcher makes reaches the Rust, Python and Node users, once and in order and with the same path, associated path, effect, path type and time (Node: the nearest double, and as long as its queue was never full); what each tells had happened when it was made; and once close() has returned true, every change in a marked directory is told to them by an event about that file, or its record was still in the kernel's queue, or was read in one batch behind the end of one move directly before the beginning of another (C107).", "quantifier": "all starting trees and histories of changes with such names, all ways the kernel joins and groups records, all answers of the rest of the system, all lives of a watcher and all points in them", "why_tests_cant": "ranges over all histories, schedules and names", "anchors": ["include/wtr/watcher.hpp:do_ev_recv", "include/wtr/watcher.hpp:watch", "watcher-c/src/watcher-c.cpp:wtr_watcher_open", "watcher-rs/src/lib.rs:ev_from_c", "watcher-py/watcher/watcher.py:_c_event_to_event", "watcher-nodejs/lib/watcher-napi.cpp:event_to_js_obj"]}
{"id": "C144", "title": "The command line program's lines tell the changes", "statement": "While the command line program watches (Linux without privileges), its output has one line for each event if and only if no path has a newline in it; if directories, names and the watcher's messages have no quotation marks, backslashes or control characters, each line is JSON from which a reader gets the event's fields back, and the events about files in the output tell of the changes in watched directories, each once and in order. On every platform its exit code is 0 if and only if the request to stop could be made and its last line says that the watcher ended well, and otherwise 1.", "quantifier": "all starting trees and histories of changes, all answers of the system, all lives of the watcher and all points in them, all arguments", "why_tests_cant": "ranges over all histories, schedules and names", "anchors": ["src/wtr/watcher/main.cpp:main", "src/wtr/watcher/main.cpp:json", "include/wtr/watcher.hpp:watch"]}
{"id": "C145", "title": "A root watcher tells true, present paths whatever becomes of directories", "statement": "When fanotify is used, while files and directories are made, written, removed, renamed and moved and the kernel's queue overflows: each event about files tells of a change that happened to an entry of that name, of the kind and type it says, in a directory that had the told path at some call since the records were last read (or was removed between being opened and looked up, then its last path with \" (deleted)\").", "quantifier": "all starting trees, histories and schedules of changes (at every call), queue limits, reads and all other answers of the system", "why_tests_cant": "ranges over all histories and schedules, including changes between two calls of one receive", "anchors": ["include/wtr/watcher.hpp:detail::wtr::watcher::adapter::fanotify::do_ev_recv", "include/wtr/watcher.hpp:pathof", "include/wtr/watcher.hpp:parse_ev"]}
{"id": "C146", "title": "A root watcher tells every change or announces a loss", "statement": "When fanotify is used, every change of an entry of a watched directory is told by an event about it, still waits to be read, or its loss is announced to the user.", "quantifier": "all starting trees, histories and schedules of changes, queue limits, reads and all other answers of the system", "why_tests_cant": "ranges over all histories and schedules", "anchors": ["include/wtr/watcher.hpp:detail::wtr::watcher::adapter::fanotify::do_ev_recv", "include/wtr/watcher.hpp:pathof", "include/wtr/watcher.hpp:parse_ev"]}
{"id": "C147", "title": "The small program's lines tell the changes", "statement": "While the small example program watches (Linux without privileges), a reader of its output gets each event's effect, kind, path and associated path back, in order, and the events about files among them tell of the changes in watched directories, each once and in order. On every platform its exit code is 0 if and only if the request to stop could be made and its last line says that the watcher ended well, and otherwise 1.", "quantifier": "all starting trees and histories of changes, all answers of the system, all lives of the watcher and all points in them", "why_tests_cant": "ranges over all histories, schedules and names", "anchors": ["src/wtr/tiny_watcher/main.cpp:show", "src/wtr/tiny_watcher/main.cpp:main", "include/wtr/watcher.hpp:watch"]}
{"id": "C148", "title": "A watcher's life among moving directories (fanotify)", "statement": "In any life of a watcher on Linux as root, while files and directories are made, changed, moved and removed: what the callback receives is the live message, what the system told, and the die message; an event about a file tells of a change that happened, with a path its directory had since the records were last read; and when close() has returned true, every change of an entry of a watched directory was told, or lost for a reason that C146 names: the kernel kept no record of it, the record still waits, or the handling of its batch had ended before it.", "quantifier": "all starting trees and histories of changes (directories moved and removed among them), all answers of the system, all lives of the watcher and all points in them", "why_tests_cant": "ranges over all histories, schedules and interleavings", "anchors": ["include/wtr/watcher.hpp:watch", "include/wtr/watcher.hpp:fanotify adapter (873-1297)"]}
{"id": "C149", "title": "Changes before close() are reported, among moving directories (fanotify)", "statement": "On Linux as root, what changed in a watched directory before close() was called is reported before close() returns true, also while directories are made, moved and removed.", "quantifier": "all starting trees and histories of changes, all answers of a system whose waits tell the truth, all lives of the watcher", "why_tests_cant": "ranges over all histories, schedules and interleavings", "anchors": ["include/wtr/watcher.hpp:watch", "include/wtr/watcher.hpp:fanotify adapter (873-1297)"]}
{"id": "C150", "title": "Changes reach the users of the bindings, among moving directories (fanotify)", "statement": "As root on Linux, whatever is made, written, removed or moved (directories among it) with names in UTF-8: every event about files that the watcher makes reaches the Rust, Python and Node users, once and in order and with the same path, associated path, effect, path type and time (Node: the nearest double, and as long as its queue was never full); what each tells happened, with a path its directory had since the records were last read; and once close() has returned true, every change whose record the kernel kept is told to them by an event about that entry, or lost for a reason that C146 names.", "quantifier": "all starting trees and histories of changes with such names, all limits of the queue, all answers of the rest of the system, all lives of a watcher and all points in them", "why_tests_cant": "ranges over all histories, schedules and names", "anchors": ["include/wtr/watcher.hpp:pathof", "include/wtr/watcher.hpp:do_ev_recv", "include/wtr/watcher.hpp:watch", "watcher-c/src/watcher-c.cpp:wtr_watcher_open", "watcher-rs/src/lib.rs:ev_from_c", "watcher-py/watcher/watcher.py:_c_event_to_event", "watcher-nodejs/lib/watcher-napi.cpp:event_to_js_obj"]}
{"id": "C151", "title": "A watcher may be closed from several threads", "statement": "close() may be called on one watch object by any number of threads, at any time: no call is undefined and no two calls race for the object's state, and what the callback sees and the calls return is what they would be had one thread made them.", "quantifier": "all numbers of threads, all interleavings of their calls of close() with each other and with the watching thread, all platforms and adapters", "why_tests_cant": "ranges over all numbers of threads and all interleavings; a race shows itself seldom", "anchors": ["include/wtr/watcher.hpp:watch::close", "include/wtr/watcher.hpp:semabin::release", "readme.md"]}
{"id": "C152", "title": "A Python watcher may be closed from several threads", "statement": "Threads of a Python program may call close() on one Watch (or leave its context) at any time: the native watcher is closed once, it is not used after it was freed, and no two threads use its state at once.", "quantifier": "all numbers of threads, all interleavings of their steps in Python and in the native call with each other and with the watching thread, all platforms and adapters", "why_tests_cant": "ranges over all numbers of threads and all interleavings", "anchors": ["watcher-py/watcher/watcher.py:Watch.close", "watcher-c/src/watcher-c.cpp:wtr_watcher_close", "include/wtr/watcher.hpp:watch::close"]}
{"id": "C153", "title": "A watcher's memory is bounded by the tree", "statement": "However long a watcher runs, what it holds of directories, and what it has the kernel hold, does not outgrow the tree: it remembers each directory that the kernel watches for it and, apart from removals it has not read yet, none that is gone.", "quantifier": "all trees, all histories of changes before, between and during the calls of the watcher, all sizes of reads, all refused marks, all moments at which the watcher goes round its loop", "why_tests_cant": "ranges over all histories of changes and all moments of runs of any length", "anchors": ["include/wtr/watcher.hpp:detail::wtr::watcher::adapter::inotify (do_mark, do_event_recv)", "include/wtr/watcher.hpp:watch"]}
{"id": "C154", "title": "What a Darwin watcher remembers while it runs", "statement": "A watcher on macOS remembers, at every moment and each once, exactly the paths of which the latest create or destroy event was a create event, and no more than that are in the tree: its memory does not grow with its age.", "quantifier": "all sequences of batches with all flags in every schedule of the adapter's threads, and all histories of changes of all trees", "why_tests_cant": "ranges over all lives of the adapter, at all moments, of any length", "anchors": ["include/wtr/watcher.hpp:ContextData", "include/wtr/watcher.hpp:event_recv_one", "include/wtr/watcher.hpp:event_recv"]}
{"id": "C155", "title": "What the fallback remembers while it runs", "statement": "With the fallback adapter a watcher remembers, whenever it looks at its stop flag and each once, exactly the paths it has noted so far, with the times last noted, and no more than that are in the tree: its memory does not grow with its age.", "quantifier": "all filesystems (each path once); all histories of contents that change between scans, runs of any length, all moments between scans", "why_tests_cant": "ranges over all histories and all moments of runs of any length", "anchors": ["include/wtr/watcher.hpp:tend_bucket", "include/wtr/watcher.hpp:scan", "include/wtr/watcher.hpp:watch"]}
{"id": "C156", "title": "With the fallback, changes reach the users of the bindings", "statement": "Where the fallback adapter is used, what the users of the Rust, Python and Node bindings are given about files is, at any time, what the rounds of scans so far say of how the tree has changed, with the same fields, in the same order, each event once; nothing of it is lost by a watcher that has been closed.", "quantifier": "all histories of contents that change between scans, all lives of a watcher at any moment, all schedules of the Rust stream and of Node's queue", "why_tests_cant": "ranges over all histories, all lives of a watcher and all schedules of the bindings", "anchors": ["include/wtr/watcher.hpp:watch", "watcher-c/src/watcher-c.cpp:callback_bridge", "watcher-rs/src/lib.rs:Watch", "watcher-py/watcher/watcher.py:_as_event", "watcher-nodejs/lib/watcher-napi.cpp"]}
{"id": "C157", "title": "The command line program's lines tell the changes (fallback, Darwin)", "statement": "Where the fallback adapter or Darwin's is used, each line that the command line program prints while it watches is JSON; the lines together are the events in order; and those about files tell the changes: what the rounds of scans so far say (fallback), what FSEvents reported and was true when it was told (Darwin), nothing of it missing once close() has returned true.", "quantifier": "all histories, all lives of the program's watcher, at any moment", "why_tests_cant": "ranges over all histories and all moments of all lives of the watcher", "anchors": ["src/wtr/watcher/main.cpp:92-122", "include/wtr/watcher.hpp:watch"]}
{"id": "C158", "title": "The fallback tells only of what it has just seen", "statement": "Whatever the filesystem does and whenever, each event of the fallback adapter about a file comes right after it was answered that the path, the watched one or one that a listing gave, exists and is a regular file, and when it was last written; its time is that of the look at the clock that followed; it says destroyed only if the last question had no answer, and modified only if another time had been answered before.", "quantifier": "all filesystems, with any answers at any time; all runs of any length", "why_tests_cant": "ranges over all filesystems and runs of any length", "anchors": ["include/wtr/watcher.hpp:scan", "include/wtr/watcher.hpp:tend_bucket"]}
{"id": "C159", "title": "The fallback tells every difference that it sees", "statement": "Whatever the filesystem does and whenever: once the fallback adapter has been answered that a path is a regular file, and then another last-write time than the one it knows for that path, the next thing it does is to look at the clock and call the callback with that time: the path was modified, or created if no time of it is known. If the time is refused instead, it is told destroyed. The time known for a path is the last one answered for it; a refusal in a scan makes it unknown, and for a refusal in the first look the watched path's time is taken.", "quantifier": "all filesystems, with any answers at any time; all runs of any length", "why_tests_cant": "ranges over all filesystems and runs of any length", "anchors": ["include/wtr/watcher.hpp:scan", "include/wtr/watcher.hpp:tend_bucket"]}
{"id": "C160", "title": "The fallback looks at everything a listing gives it", "statement": "Whatever the filesystem does and whenever: each path that a listing gave to the fallback adapter is asked about, whether it exists or when it was last written, before the adapter asks for another listing, before it asks whether it should end, and before watch returns.", "quantifier": "all filesystems, with any answers at any time; all runs of any length", "why_tests_cant": "ranges over all filesystems and runs of any length", "anchors": ["include/wtr/watcher.hpp:scan", "include/wtr/watcher.hpp:tend_bucket"]}
{"id": "C161", "title": "The fallback looks at the watched path each time it wakes", "statement": "Whatever the filesystem does and whenever: between two questions whether it should end, the fallback adapter lists the watched path anew, or is answered that it is no directory but a regular file and looks at it as one.", "quantifier": "all filesystems, with any answers at any time; all runs of any length", "why_tests_cant": "ranges over all filesystems and runs of any length", "anchors": ["include/wtr/watcher.hpp:scan", "include/wtr/watcher.hpp:watch"]}

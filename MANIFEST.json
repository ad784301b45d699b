{
 "claims": [
  {
   "property": "C01",
   "status": "proved",
   "theorems": [
    "C01_live_first_die_last",
    "C01_linux_adapter",
    "C01_darwin_adapter",
    "C01_windows_adapter",
    "C01_warthog_adapter"
   ],
   "note": "For every adapter that does not itself speak of watchers' creation and destruction; shown for the Linux, Darwin and fallback adapters."
  },
  {
   "property": "C02",
   "status": "proved",
   "theorems": [
    "C02_live_message",
    "C02_check_is_truthful"
   ],
   "note": ""
  },
  {
   "property": "C03",
   "status": "proved",
   "theorems": [
    "C03_close_agrees"
   ],
   "note": ""
  },
  {
   "property": "C04",
   "status": "proved",
   "theorems": [
    "C04_success_only_on_request",
    "C04_success_only_after_request"
   ],
   "note": "A true return of the Linux adapter implies the stop descriptor was ready in its last wait."
  },
  {
   "property": "C05",
   "status": "proved",
   "theorems": [
    "C05_repeated_close"
   ],
   "note": ""
  },
  {
   "property": "C06",
   "status": "proved",
   "theorems": [
    "C06_silence_after_close",
    "C06_darwin_silence_after_return",
    "C06_not_silent_after_failed_close"
   ],
   "note": "The condition on the stop request is needed (second theorem)."
  },
  {
   "property": "C07",
   "status": "partial",
   "theorems": [
    "C07_close_before_live_partial",
    "C07_close_before_live_refuted"
   ],
   "note": "Holds for a stop request answered before the watching thread looks at the path; refuted for one between the check and the live message."
  },
  {
   "property": "C08",
   "status": "proved",
   "theorems": [
    "C08_close_returns",
    "C08_destructor_ends",
    "C08_darwin_adapter_returns",
    "C08_destructor_hangs_if_signal_fails",
    "C08_close_in_callback_deadlocks"
   ],
   "note": "For adapters that end after the stop signal and callbacks that do not call close(); the exceptions are shown."
  },
  {
   "property": "C09",
   "status": "partial",
   "theorems": [
    "C09_stop_ends_loop_partial",
    "C09_stop_ends_loop_refuted"
   ],
   "note": "Holds when the stop descriptor is the last ready one; otherwise its effect is overwritten and under steady load the loop never ends (refuted)."
  },
  {
   "property": "C10",
   "status": "partial",
   "theorems": [
    "C10_sticky_partial",
    "C10_first_query_linux_partial",
    "C10_sticky_linux_refuted"
   ],
   "note": "Darwin and generic flags: full. Linux: only the first query (the only one the class makes); refuted for a second one."
  },
  {
   "property": "C100",
   "status": "proved",
   "theorems": [
    "C100_windows_every_change_once_in_order"
   ],
   "note": "Environment: WinWorldSpec (the system's buffer does not overflow, reads complete; the other cases are C42 to C44)."
  },
  {
   "property": "C101",
   "status": "partial",
   "theorems": [
    "C101_windows_types_as_asked_partial",
    "C101_windows_types_refuted"
   ],
   "note": "Proved: each name in an event has the type of what was there when the watcher asked, at some moment before the event. Refuted: a removed directory is reported as a file, and so is the old name of a renamed one, since the type is asked for after the change."
  },
  {
   "property": "C102",
   "status": "proved",
   "theorems": [
    "C102_windows_a_watchers_life",
    "C102_windows_no_undefined_behaviour"
   ],
   "note": "In WinWorldSpec's environment, for paths within C57's bounds (for others the code is undefined)."
  },
  {
   "property": "C103",
   "status": "partial",
   "theorems": [
    "C103_windows_changes_before_a_wait_partial",
    "C103_windows_changes_before_close_refuted"
   ],
   "note": "Proved: a change noted before some wait that was given all that was noted. Refuted in general: the adapter looks at the stop flag before it asks for changes and drops what it did not ask for."
  },
  {
   "property": "C104",
   "status": "proved",
   "theorems": [
    "C104_fallback_run_is_exact"
   ],
   "note": "Exact in both directions: the specification (rounds_say) admits no other list. A file that goes away and comes back is compared with what was noted before it went."
  },
  {
   "property": "C105",
   "status": "proved",
   "theorems": [
    "C105_fallback_a_watchers_life"
   ],
   "note": "For histories as in C104."
  },
  {
   "property": "C106",
   "status": "partial",
   "theorems": [
    "C106_fallback_changes_before_a_round_partial",
    "C106_fallback_changes_before_close_refuted"
   ],
   "note": "Proved: if a scan has begun since the change (and one that found anything before it), a new file is reported as created and a file with another time than in the scan before as modified. Refuted in general: the adapter looks at the stop flag after its sleep and ends without another scan."
  },
  {
   "property": "C107",
   "status": "partial",
   "theorems": [
    "C107_what_becomes_of_a_change_partial",
    "C107_fanotify_every_change_is_told_partial",
    "C107_fanotify_every_change_is_told_refuted"
   ],
   "note": "Proved: each change is told, or its record waits to be read, or it was read in one batch behind the end of one move directly before the beginning of another (C107_what_becomes_of_a_change_partial); so the claim holds of runs in which no read gives that. Refuted in general: when one process saves two files the usual way (write a temporary file, rename it), the second file is never mentioned and the first is said to come from the second's temporary name."
  },
  {
   "property": "C108",
   "status": "proved",
   "theorems": [
    "C108_fanotify_events_happened"
   ],
   "note": "That p was renamed to q itself is not guaranteed: C107's counterexample."
  },
  {
   "property": "C109",
   "status": "proved",
   "theorems": [
    "C109_fanotify_without_renames"
   ],
   "note": ""
  },
  {
   "property": "C11",
   "status": "proved",
   "theorems": [
    "C11_darwin_exactly_once",
    "C11_linux_one_closer",
    "C11_linux_two_closers_may_signal_twice"
   ],
   "note": ""
  },
  {
   "property": "C110",
   "status": "partial",
   "theorems": [
    "C110_fanotify_last_event_tells_partial",
    "C110_fanotify_last_event_tells_refuted"
   ],
   "note": "Proved for one process making the changes and records that do not join the making and the removing of one file. Refuted in general: a temporary file made and removed at once is told as made only; with two processes a file can be told as removed last although it was made again."
  },
  {
   "property": "C111",
   "status": "proved",
   "theorems": [
    "C111_fanotify_covers_the_tree"
   ],
   "note": ""
  },
  {
   "property": "C112",
   "status": "partial",
   "theorems": [
    "C112_fanotify_new_trees_are_watched_partial",
    "C112_fanotify_new_trees_are_watched_refuted"
   ],
   "note": "Proved: once its record was read, a directory made in a marked one was marked (and is covered from then on) or warned about, unless that record was read in one batch behind the end of one move directly before the beginning of another. Refuted in general: with `mkdir -p a/b`, b is made before a is marked and is never watched, without a warning; and a directory made right after two files were saved (C107) is lost with all in it."
  },
  {
   "property": "C113",
   "status": "proved",
   "theorems": [
    "C113_fanotify_no_undefined_behaviour",
    "C113_fanotify_a_watchers_life"
   ],
   "note": "In the last part: told, or waiting to be read, or read in one batch behind the end of one move directly before the beginning of another (C107 shows that the third happens)."
  },
  {
   "property": "C114",
   "status": "partial",
   "theorems": [
    "C114_fanotify_reported_before_the_next_wait_partial",
    "C114_fanotify_changes_before_close_are_reported_partial",
    "C114_fanotify_changes_before_close_are_reported_refuted"
   ],
   "note": "Proved when the waiting records fit into one read (4095 bytes): each change is mentioned or was read behind the end of one move directly before the beginning of another; and if nothing is renamed each is told as such, or as one the kernel joined it with. Refuted in general: of forty files with long names made just before close(), thirteen are told."
  },
  {
   "property": "C115",
   "status": "partial",
   "theorems": [
    "C115_darwin_no_event_without_a_change_partial",
    "C115_darwin_renames_that_did_not_happen_refuted"
   ],
   "note": "Refuted for rename events: a file that goes to the trash and another that is renamed are told as a rename of the first to the second's old name. Of rename events it is proved that both paths took part in moves and that nothing was at the first when both had."
  },
  {
   "property": "C116",
   "status": "partial",
   "theorems": [
    "C116_darwin_account",
    "C116_darwin_one_event_per_change_partial",
    "C116_darwin_moved_in_or_out_untold_refuted",
    "C116_darwin_log_rotation_refuted"
   ],
   "note": "Proved with an exact account of what is told for changes inside the tree; it is one event for each if nothing is made where something made was moved away from, and what is deleted was made there. Refuted otherwise: things moved into or out of the tree are never told; after a log is rotated (made, renamed, made anew) the new one is not told; the deletion of a file that was made and renamed is not told."
  },
  {
   "property": "C117",
   "status": "partial",
   "theorems": [
    "C117_darwin_picture_partial",
    "C117_darwin_picture_refuted",
    "C117_darwin_deleted_and_made_again_refuted"
   ],
   "note": "Proved for changes that come one at a time and give no trouble (C116). Refuted otherwise: the picture lacks a new log after a rotation, keeps a deleted file that was renamed before, and (with two changes in one record) lacks a file that was deleted and made again at once."
  },
  {
   "property": "C118",
   "status": "partial",
   "theorems": [
    "C118_darwin_a_watchers_life_partial"
   ],
   "note": "Soundness is proved with the restriction of C115 on rename events; that each change is told under the conditions of C116 (which refutes it otherwise)."
  },
  {
   "property": "C119",
   "status": "partial",
   "theorems": [
    "C119_darwin_what_was_taken_partial",
    "C119_darwin_changes_before_close_refuted"
   ],
   "note": "Proved: every batch event_recv took is gone through to the end before close() returns, and its events are received. Refuted in general: a batch that occurred before close() and is handed over while the stream is flushed is dropped, since the closing thread holds the mutex."
  },
  {
   "property": "C12",
   "status": "proved",
   "theorems": [
    "C12_equality_is_componentwise",
    "C12_equality_is_an_equivalence",
    "C12_inequality_is_the_negation"
   ],
   "note": "ISO C++ path equality is modelled by path elements; the spec says: equal after squeezing runs of slashes."
  },
  {
   "property": "C120",
   "status": "proved",
   "theorems": [
    "C120_event_json_faithful_when",
    "C120_cli_json_faithful_when",
    "C120_python_json_faithful_when"
   ],
   "note": "Sharpens C15, C17 and C60, which hold in part: these are the exact conditions."
  },
  {
   "property": "C121",
   "status": "proved",
   "theorems": [
    "C121_c_view_exact_when",
    "C121_c_view_on_windows_exact_when",
    "C121_rust_event_exact_when",
    "C121_python_event_exact_when",
    "C121_node_event_exact_when"
   ],
   "note": "Sharpens C48, C50, C52 and C54, which hold in part: these are the exact conditions."
  },
  {
   "property": "C122",
   "status": "proved",
   "theorems": [
    "C122_exact_account_of_all_changes"
   ],
   "note": "Directories may be moved and records lost, which C77 leaves out."
  },
  {
   "property": "C123",
   "status": "partial",
   "theorems": [
    "C123_events_tell_what_happened_partial",
    "C123_events_tell_what_happened_refuted"
   ],
   "note": "Proved: each event tells a change exactly, or one half of a move, unless a directory at or above it was moved before, or the move went from one directory to another. The full claim is refuted: /w/d is renamed and a file made in it is told under the old name; a file moved from /w/e to /w is told as renamed within /w/e."
  },
  {
   "property": "C124",
   "status": "partial",
   "theorems": [
    "C124_lost_records_are_announced_partial",
    "C124_lost_records_are_announced_refuted"
   ],
   "note": "Proved: if anything is lost and all is read in the end, the warning w/sys/phantom@ follows. Refuted: no watcher ever says w/sys/q_overflow@ of itself, and of two systems, one having lost a change and the other having had a watched directory removed, the user is told the same."
  },
  {
   "property": "C125",
   "status": "partial",
   "theorems": [
    "C125_watching_goes_on_after_an_overflow_partial",
    "C125_watching_goes_on_after_an_overflow_refuted"
   ],
   "note": "Proved: every change of which nothing was lost, in a directory there from the start, is told, whatever was lost before. Refuted: a directory whose making was lost is never watched; changes in it after the overflow and its warning are told to nobody."
  },
  {
   "property": "C126",
   "status": "partial",
   "theorems": [
    "C126_events_concern_the_tree_partial",
    "C126_events_concern_the_tree_refuted"
   ],
   "note": "Proved: every event's path is an entry of a directory for which the watcher asked for, and got, a watch before. Refuted: a directory moved out is told of for ever under its old path."
  },
  {
   "property": "C127",
   "status": "proved",
   "theorems": [
    "C127_moved_directories_stay_watched"
   ],
   "note": "What remains watched after a rename; that the path is stale is C123."
  },
  {
   "property": "C128",
   "status": "proved",
   "theorems": [
    "C128_rust_program_lines_can_be_read",
    "C128_rust_program_tells_the_event",
    "C128_rust_program_path"
   ],
   "note": "serde's derived serialisation and serde_json's escaping are from outside the repository and modelled as documented. An argument that is not UTF-8 ends the program with a panic."
  },
  {
   "property": "C129",
   "status": "proved",
   "theorems": [
    "C129_rust_opens_when",
    "C129_python_opens_when",
    "C129_node_opens_when"
   ],
   "note": "Sharpens C58 to an equivalence."
  },
  {
   "property": "C13",
   "status": "proved",
   "theorems": [
    "C13_copies_are_equal",
    "C13_pairs_keep_both"
   ],
   "note": ""
  },
  {
   "property": "C130",
   "status": "proved",
   "theorems": [
    "C130_wide_text_when"
   ],
   "note": "Sharpens C68 to an equivalence."
  },
  {
   "property": "C131",
   "status": "proved",
   "theorems": [
    "C131_no_undefined_behaviour",
    "C131_a_watchers_life"
   ],
   "note": "C82 on the larger kernel of C122."
  },
  {
   "property": "C132",
   "status": "partial",
   "theorems": [
    "C132_reported_before_the_next_wait_partial",
    "C132_changes_before_close_are_reported_partial",
    "C132_changes_before_close_are_reported_refuted"
   ],
   "note": "Proved: if the records waiting at the last wait fit into one read (4096 bytes), all that the kernel kept is told, and if anything was lost, the warning. Refuted: forty files made just before close(), room for twenty records: close() returns true, fifteen are told, and no warning of the loss is ever given."
  },
  {
   "property": "C133",
   "status": "partial",
   "theorems": [
    "C133_failures_change_nothing",
    "C133_ends_well_when_renamed_partial",
    "C133_two_names_of_a_file_refuted",
    "C133_other_filesystems_refuted"
   ],
   "note": "Proved: failures change nothing; ending well means moved, or both names were of one file before. Refuted: two names of one file both stay, and a file never gets to another filesystem (link fails as rename does), contrary to the program's help."
  },
  {
   "property": "C134",
   "status": "partial",
   "theorems": [
    "C134_new_directories_are_watched_or_warned_partial",
    "C134_new_directories_are_watched_or_warned_refuted"
   ],
   "note": "Proved: the path at which the record says the directory is gets a watch after the record is read, or a warning; if the new directory is there at that time, all later changes in it are told wherever it goes. Refuted without that condition: a directory renamed before its record is handled, with another made in its place, is never watched and no warning is given; nor is one made in a renamed directory when there is another at the old path."
  },
  {
   "property": "C135",
   "status": "proved",
   "theorems": [
    "C135_android_watches_as_an_unprivileged_user",
    "C135_android_opens_only_inotify",
    "C135_android_account_of_all_changes"
   ],
   "note": "epoll_create(1) and epoll_create1(EPOLL_CLOEXEC) are the same call of the model; the preprocessor's choice is a separate definition."
  },
  {
   "property": "C136",
   "status": "proved",
   "theorems": [
    "C136_root_without_fanotify_watches_as_anyone",
    "C136_account_without_fanotify"
   ],
   "note": "fuel > 0 because the fanotify loop looks at its condition once."
  },
  {
   "property": "C137",
   "status": "partial",
   "theorems": [
    "C137_nothing_behind_links_is_watched_refuted"
   ],
   "note": "Refuted: the options follow_directory_symlink and skip_permission_denied are combined with &, which leaves none, so nothing behind a link is ever told of or looked at. (What the missing skip_permission_denied does is C63.)"
  },
  {
   "property": "C138",
   "status": "proved",
   "theorems": [
    "C138_changes_reach_rust",
    "C138_changes_reach_python",
    "C138_changes_reach_node"
   ],
   "note": "For Node, if its queue of 1024 was never full (C55). C85 is this for a filesystem in which directories stay where they are and nothing is lost."
  },
  {
   "property": "C139",
   "status": "partial",
   "theorems": [
    "C139_python_program_tells_partial",
    "C139_python_program_tells_refuted",
    "C139_python_program_path"
   ],
   "note": "Proved for events whose paths are UTF-8 without quote, backslash and control character. Refuted otherwise: an event with another path than UTF-8 is not written at all; a newline in a path breaks the line in two that are not JSON. The path watched is proved without condition (one that is not UTF-8 ends the program)."
  },
  {
   "property": "C14",
   "status": "partial",
   "theorems": [
    "C14_timestamps_print_exactly_partial",
    "C14_timestamps_shape",
    "C14_timestamps_exact_when",
    "C14_timestamps_print_exactly_refuted"
   ],
   "note": "False for times outside [10^18,2^63) and (-10^18,-10^17]: NUL padding or empty text (refuted theorem). Exact characterisation proved."
  },
  {
   "property": "C140",
   "status": "proved",
   "theorems": [
    "C140_windows_changes_reach_the_bindings"
   ],
   "note": "Longer paths and NUL: C48. The queues of the bindings: C55, C70."
  },
  {
   "property": "C141",
   "status": "proved",
   "theorems": [
    "C141_calls_on_own_descriptors",
    "C141_watchers_do_not_disturb_one_another"
   ],
   "note": "Each watcher's stop descriptor is taken to stay open while the program's watchers are looked at (its owner closes it after the thread has ended). That every descriptor opened is also closed: C35."
  },
  {
   "property": "C142",
   "status": "proved",
   "theorems": [
    "C142_darwin_changes_reach_the_bindings"
   ],
   "note": "What the adapter itself gets wrong: C115, C116, C119. Other paths: C121. The queues of the bindings: C55, C70."
  },
  {
   "property": "C143",
   "status": "proved",
   "theorems": [
    "C143_fanotify_changes_reach_the_bindings"
   ],
   "note": "Moves that cross in one read: C107. Other paths: C121. The queues of the bindings: C55, C70."
  },
  {
   "property": "C144",
   "status": "partial",
   "theorems": [
    "C144_one_line_per_event_when",
    "C144_lines_tell_the_changes_partial",
    "C144_exit_code",
    "C144_lines_tell_the_changes_refuted"
   ],
   "note": "For paths a JSON string can hold as they are and clocks between 2001 and 2262; other names are legal on Linux and give lines that are not JSON, or more lines than events (C144_lines_tell_the_changes_refuted)."
  },
  {
   "property": "C145",
   "status": "proved",
   "theorems": [
    "C145_fanotify_paths_are_present"
   ],
   "note": "Directory paths stay within PATH_MAX and the root directory itself is not watched; the event's path is cut to PATH_MAX - 1 bytes. Contrast with inotify, whose events keep a moved directory's old path (C123)."
  },
  {
   "property": "C146",
   "status": "partial",
   "theorems": [
    "C146_what_becomes_of_a_change_partial",
    "C146_fanotify_every_change_is_told_partial",
    "C146_fanotify_every_change_is_told_refuted"
   ],
   "note": "Proved: each change whose record the kernel kept is told, or waits to be read, or something ended the handling of its batch before it: an overflow record, a crossing of two moves, or a directory of the batch that was gone when its record was handled (C146_what_becomes_of_a_change_partial); so the claim holds of runs without these. In general false: rm -r of a watched directory makes the adapter drop the rest of the batch, and an overflow drops records, both without a message (C146_fanotify_every_change_is_told_refuted)."
  },
  {
   "property": "C147",
   "status": "partial",
   "theorems": [
    "C147_small_program_tells_the_changes_partial",
    "C147_exit_code",
    "C147_small_program_tells_the_changes_refuted"
   ],
   "note": "Proved for directories, names and messages without newline and \" ->\"; the exit code for paths without newlines. Refuted otherwise: of two filesystems, alike at the start, one has two files made and the other one, with the same output."
  },
  {
   "property": "C148",
   "status": "proved",
   "theorems": [
    "C148_fanotify_a_watchers_life_among_moving_directories",
    "C148_fanotify_no_undefined_behaviour"
   ],
   "note": "In the last part, of changes whose record was kept: told, or waiting to be read, or cut off in its batch as in C146; C146 and C149 show that this happens. No run is undefined."
  },
  {
   "property": "C149",
   "status": "partial",
   "theorems": [
    "C149_fanotify_reported_before_the_next_wait_partial",
    "C149_fanotify_changes_before_close_are_reported_partial",
    "C149_fanotify_changes_before_close_are_reported_refuted"
   ],
   "note": "Proved of changes whose record was kept if the records that wait fit into one read: each is told, or cut off in its batch by an overflow record, a crossing of two moves or a directory gone too early; so all are told where these do not happen. Refuted otherwise: a directory is removed with its file just before close(), and another file written; close() returns true and nothing was told."
  },
  {
   "property": "C15",
   "status": "partial",
   "theorems": [
    "C15_event_json_is_faithful_partial",
    "C15_event_json_is_faithful_refuted",
    "C15_event_json_drops_deep_associations"
   ],
   "note": "Proved for paths without quotes, backslashes and control characters and modern times; refuted otherwise (paths are not escaped)."
  },
  {
   "property": "C150",
   "status": "partial",
   "theorems": [
    "C150_fanotify_moving_directories_reach_the_bindings_partial",
    "C150_fanotify_moving_directories_reach_the_bindings_refuted"
   ],
   "note": "Proved where no event's path has 4095 bytes or more. Refuted otherwise: the adapter cuts a path to 4095 bytes, maybe within a character, so that when a directory is moved far down before its records are read, no binding can show the event and Python's user gets nothing for it."
  },
  {
   "property": "C151",
   "status": "partial",
   "theorems": [
    "C151_close_one_thread_at_a_time_partial",
    "C151_after_the_first_close_partial",
    "C151_close_from_several_threads_refuted"
   ],
   "note": "Proved when the threads see to it that no two are in close() at once: then no two use the future, and every state reached is one that a single owner reaches, so C01-C08 and the rest hold. Once one has returned (its release() not failing) any number may call at once: no race, all false, nothing else seen. Refuted otherwise, on every platform and with every adapter: two threads may both find the future valid and both call get(), a data race on it (the readme, line 197, says the code tries to be thread-safe)."
  },
  {
   "property": "C152",
   "status": "partial",
   "theorems": [
    "C152_python_close_one_thread_at_a_time_partial",
    "C152_python_after_the_first_close_partial",
    "C152_python_close_from_several_threads_refuted"
   ],
   "note": "Proved when no two threads are in close() at once, and for any use by threads after a first close() has returned. Refuted otherwise, on every platform: the native call is made without the interpreter's lock and _watcher is set to None only after it, so a second thread that tested _watcher calls wtr_watcher_close on a watch already deleted, even if the native calls do not overlap."
  },
  {
   "property": "C153",
   "status": "partial",
   "theorems": [
    "C153_memory_is_bounded_by_the_tree_partial",
    "C153_memory_is_bounded_by_tree_and_losses_partial",
    "C153_memory_is_bounded_by_the_tree_refuted"
   ],
   "note": "Proved for inotify on the kernel of KernelSpec (an unlimited queue, directories that do not move): one entry per descriptor, every entry a directory that exists and is watched or whose removal is still unread, every watch known; so entries <= directories + unread records. Proved too when directories move and the queue overflows (DeepSpec): entries <= directories + unread records + lost records. The last term is needed: refuted with a queue that overflows (DeepSpec): a removal lost in an overflow leaves its entry for good, and more with each."
  },
  {
   "property": "C154",
   "status": "partial",
   "theorems": [
    "C154_darwin_memory_is_what_was_told",
    "C154_darwin_memory_is_bounded_by_the_tree_partial",
    "C154_darwin_memory_is_bounded_by_the_tree_refuted"
   ],
   "note": "The first half is proved without restriction, with the count: remembered = create events - destroy events. The bound by the tree is proved where nothing is moved and the changes come one at a time (paced). Refuted with moves, even one change at a time: whatever is made and then moved out of the tree (to the Trash) is remembered for ever, for any number of files, in a tree that is empty in the end. Not modelled: the buckets of the hash set."
  },
  {
   "property": "C155",
   "status": "partial",
   "theorems": [
    "C155_fallback_memory_is_what_was_noted",
    "C155_fallback_memory_is_bounded_by_the_tree_partial",
    "C155_fallback_never_forgets_refuted",
    "C155_fallback_memory_is_bounded_by_the_tree_refuted"
   ],
   "note": "The first half is proved for the histories of C104 (each path once: for any filesystem). The bound by the tree is proved where nothing goes away. Refuted otherwise: nothing that was once remembered is ever forgotten (the clean-up only runs on an empty memory), so that any number of files made and removed one after the other are all remembered in a tree that is empty."
  },
  {
   "property": "C156",
   "status": "proved",
   "theorems": [
    "C156_fallback_changes_reach_the_bindings"
   ],
   "note": "Conditions: the histories of C104 and C105 (a path once, every file has a time, the tree changes between scans), names that are UTF-8 without NUL (as C73, C94), not empty. Node: as long as its queue was never full (C55)."
  },
  {
   "property": "C157",
   "status": "partial",
   "theorems": [
    "C157_fallback_lines_tell_the_changes_partial",
    "C157_darwin_lines_tell_the_changes_partial"
   ],
   "note": "Proved for paths that a JSON string can hold as they are, clocks between 2001 and 2262 and messages about such paths (otherwise: the refutations of C17 and C144); fallback: the histories of C104; Darwin: the conditions of C115 and C116."
  },
  {
   "property": "C158",
   "status": "proved",
   "theorems": [
    "C158_fallback_tells_what_it_saw"
   ],
   "note": "No condition on the filesystem. (The time remembered for a path may be one answered for the watched path: populate asks for that when the entry's own cannot be had.)"
  },
  {
   "property": "C159",
   "status": "proved",
   "theorems": [
    "C159_fallback_tells_what_it_sees"
   ],
   "note": "No condition on the filesystem: refusals of a time are counted as the watcher counts them (in a scan the path is forgotten, in the first look it gets the watched path's time)."
  },
  {
   "property": "C16",
   "status": "proved",
   "theorems": [
    "C16_names_are_documented",
    "C16_names_are_distinct",
    "C16_out_of_range_is_other"
   ],
   "note": "Narrow and wide names share one text in the model."
  },
  {
   "property": "C160",
   "status": "proved",
   "theorems": [
    "C160_fallback_looks_at_everything"
   ],
   "note": "No condition on the filesystem. A run that ends with a crash (an exception) may leave some."
  },
  {
   "property": "C161",
   "status": "proved",
   "theorems": [
    "C161_fallback_looks_each_time"
   ],
   "note": "No condition on the filesystem. How long it sleeps between is not modelled. With C160 and C159: each file listed is looked at, and each difference of time told."
  },
  {
   "property": "C17",
   "status": "partial",
   "theorems": [
    "C17_cli_json_is_faithful_partial",
    "C17_cli_json_is_faithful_refuted"
   ],
   "note": "As C15, at every association depth."
  },
  {
   "property": "C18",
   "status": "proved",
   "theorems": [
    "C18_codes_are_ordered",
    "C18_warnings_go_on_errors_stop"
   ],
   "note": "Codes and all runs of the Linux adapter."
  },
  {
   "property": "C19",
   "status": "proved",
   "theorems": [
    "C19_batches_decode",
    "C19_records_seen_in_order",
    "C19_runs_are_safe",
    "C19_receive_always_ends"
   ],
   "note": "For every read that holds whole records (inotify(7)); any other read at least terminates."
  },
  {
   "property": "C20",
   "status": "partial",
   "theorems": [
    "C20_every_event_once_in_order_partial",
    "C20_local_renames_exact_partial",
    "C20_renamed_directory_refuted"
   ],
   "note": "Exact account of every run. Missing: paths of directories that were themselves renamed stay stale (refuted); the destination of cross-directory renames is C22."
  },
  {
   "property": "C21",
   "status": "proved",
   "theorems": [
    "C21_rename_pairs"
   ],
   "note": "In every run, at every place of every batch."
  },
  {
   "property": "C22",
   "status": "partial",
   "theorems": [
    "C22_same_directory_partial",
    "C22_across_directories_refuted"
   ],
   "note": "Holds when both halves are in one directory; refuted across directories (C21 shows the new name is always put into the old directory)."
  },
  {
   "property": "C23",
   "status": "proved",
   "theorems": [
    "C23_only_changes_reach_the_user"
   ],
   "note": ""
  },
  {
   "property": "C24",
   "status": "proved",
   "theorems": [
    "C24_map_after_a_batch",
    "C24_records_are_attributed"
   ],
   "note": ""
  },
  {
   "property": "C25",
   "status": "partial",
   "theorems": [
    "C25_overflow_warned_partial",
    "C25_overflow_warning_never_sent_refuted",
    "C25_fanotify_overflow_silent_refuted"
   ],
   "note": "Refuted for both adapters: inotify says 'phantom' instead, fanotify says nothing and drops the rest of the batch."
  },
  {
   "property": "C26",
   "status": "proved",
   "theorems": [
    "C26_new_directories_marked_before_announced"
   ],
   "note": "Both adapters, any system."
  },
  {
   "property": "C27",
   "status": "partial",
   "theorems": [
    "C27_paths_are_entries_of_marked_directories",
    "C27_marked_directories_are_inside_partial",
    "C27_events_are_inside_partial",
    "C27_outside_by_swapped_link_refuted"
   ],
   "note": "Every event path is an entry of a marked directory; inside the tree if no path of the tree ever resolves outside (else refuted)."
  },
  {
   "property": "C28",
   "status": "partial",
   "theorems": [
    "C28_batches_decode_partial",
    "C28_runs_are_safe_partial",
    "C28_full_buffer_refuted"
   ],
   "note": "Proved for reads of less than 4096 bytes and working readlink; refuted for a move that ends exactly at the end of the buffer."
  },
  {
   "property": "C29",
   "status": "partial",
   "theorems": [
    "C29_exact_account_partial",
    "C29_every_operation_once_in_order_partial",
    "C29_overflow_loses_events_refuted",
    "C29_events_lost_refuted"
   ],
   "note": "Exact account of every run; full claim for unmerged records, openable directories, no overflow, and moves that stand apart. Refuted otherwise."
  },
  {
   "property": "C30",
   "status": "partial",
   "theorems": [
    "C30_moves_paired_partial",
    "C30_unrelated_moves_paired_refuted",
    "C30_swapped_moves_paired_refuted"
   ],
   "note": "Right when halves of different moves stand apart; refuted otherwise (the records do not even hold enough to tell)."
  },
  {
   "property": "C31",
   "status": "partial",
   "theorems": [
    "C31_would_block_is_fatal_refuted",
    "C31_failures_are_silent_refuted"
   ],
   "note": "Refuted in every case: the two conditions are exchanged."
  },
  {
   "property": "C32",
   "status": "partial",
   "theorems": [
    "C32_path_of_record_partial",
    "C32_failed_lookup_refuted",
    "C32_paths_refuted"
   ],
   "note": "Proved when directory can be opened and looked up; refuted for failed lookups (write before the buffer), the root directory, overlong paths, descriptor 0."
  },
  {
   "property": "C33",
   "status": "partial",
   "theorems": [
    "C33_every_directory_marked_once_partial",
    "C33_walk_terminates_refuted",
    "C33_every_directory_marked_once_refuted"
   ],
   "note": "Holds when joined paths fit 4095 bytes and entry types are told; refuted otherwise (endless walk, DT_UNKNOWN directory never marked)."
  },
  {
   "property": "C34",
   "status": "proved",
   "theorems": [
    "C34_errors_end_and_are_reported",
    "C34_error_hidden_by_stop"
   ],
   "note": "About the final code; within one batch a later entry can hide an error (C34_error_hidden_by_stop)."
  },
  {
   "property": "C35",
   "status": "partial",
   "theorems": [
    "C35_no_leak_no_double_close_partial",
    "C35_directory_streams_balanced",
    "C35_descriptor_zero_leaked_refuted"
   ],
   "note": "No bad close ever; all closed unless descriptor 0 is handed out (refuted for 0)."
  },
  {
   "property": "C36",
   "status": "proved",
   "theorems": [
    "C36_adapter_selection"
   ],
   "note": ""
  },
  {
   "property": "C37",
   "status": "proved",
   "theorems": [
    "C37_create_destroy_alternate"
   ],
   "note": "In every life of the adapter, all batches, flags and interleavings."
  },
  {
   "property": "C38",
   "status": "partial",
   "theorems": [
    "C38_removals_of_known_paths_partial",
    "C38_removals_of_old_paths_refuted"
   ],
   "note": "Holds for paths whose creation was reported; refuted for all others (anything that was there before the watcher)."
  },
  {
   "property": "C39",
   "status": "partial",
   "theorems": [
    "C39_renames_partial",
    "C39_sources_used_once",
    "C39_no_flag_no_rename",
    "C39_chain_refuted"
   ],
   "note": "Exact account of every rename event. Missing: a path that was itself a rename target and is renamed on with one record; then the pairing is wrong (refuted)."
  },
  {
   "property": "C40",
   "status": "proved",
   "theorems": [
    "C40_flags",
    "C40_attributes_alone_are_silent",
    "C40_all_events_from_records"
   ],
   "note": ""
  },
  {
   "property": "C41",
   "status": "partial",
   "theorems": [
    "C41_batches_begun_are_finished_partial",
    "C41_outstanding_events_dropped_refuted"
   ],
   "note": "Batches begun are finished; refuted for all that is still outstanding when the stream is flushed: the flush holds the mutex the receiver only tries."
  },
  {
   "property": "C42",
   "status": "partial",
   "theorems": [
    "C42_records_told_partial",
    "C42_walk_terminates",
    "C42_short_records_lost_refuted",
    "C42_odd_length_hangs_refuted"
   ],
   "note": "Proved for completions of at least 16 bytes. Refuted: shorter ones (one record with a name of one unit) are dropped; an odd name length hangs the walk."
  },
  {
   "property": "C43",
   "status": "partial",
   "theorems": [
    "C43_halves_joined_partial",
    "C43_halves_used_once",
    "C43_split_renames_lost_refuted"
   ],
   "note": "Within one completion, exactly. Refuted: halves in two completions are lost."
  },
  {
   "property": "C44",
   "status": "partial",
   "theorems": [
    "C44_keeps_listening_partial",
    "C44_deaf_for_ever_refuted",
    "C44_overflow_not_rearmed_refuted",
    "C44_no_port_deaf_refuted",
    "C44_first_bytes_for_ever_refuted"
   ],
   "note": "Proved while no read or completion fails and none is empty. Refuted after a buffer overflow (empty completion), a failed completion or read, without a port, and when the first read returns bytes."
  },
  {
   "property": "C45",
   "status": "proved",
   "theorems": [
    "C45_scan_is_exact"
   ],
   "note": "For contents that do not change during the scan."
  },
  {
   "property": "C46",
   "status": "partial",
   "theorems": [
    "C46_removals_never_reported_refuted"
   ],
   "note": "Refuted in every case: removals are looked for only when nothing is known."
  },
  {
   "property": "C47",
   "status": "partial",
   "theorems": [
    "C47_creations_reported_partial",
    "C47_first_files_absorbed_refuted",
    "C47_returning_files_refuted"
   ],
   "note": "Holds once the directory had any entry in an earlier round, for files never seen before; refuted otherwise."
  },
  {
   "property": "C48",
   "status": "partial",
   "theorems": [
    "C48_view_mirrors_partial",
    "C48_windows_view_mirrors_partial",
    "C48_long_windows_paths_refuted"
   ],
   "note": "Proved for NUL-free paths; on Windows below 4095 bytes. Refuted on Windows: 4095 bytes write past the buffer, longer paths lose the event."
  },
  {
   "property": "C49",
   "status": "partial",
   "theorems": [
    "C49_only_reuse_is_unsafe_partial",
    "C49_closed_is_freed",
    "C49_first_close_answers",
    "C49_null_is_refused",
    "C49_closing_twice_refuted",
    "C49_failed_watchers_leak_refuted"
   ],
   "note": "Freed exactly when close returned true; the only unsafe call is a close after a successful one (refuted). A watcher whose thread failed is never freed (refuted)."
  },
  {
   "property": "C50",
   "status": "partial",
   "theorems": [
    "C50_rust_events_mirror_partial",
    "C50_other_paths_refuted"
   ],
   "note": "Proved for UTF-8 paths; others become empty (refuted)."
  },
  {
   "property": "C51",
   "status": "partial",
   "theorems": [
    "C51_drop_closes_once_partial",
    "C51_close_then_drop_refuted"
   ],
   "note": "Drop alone closes once; a close by hand followed by the drop uses freed memory (refuted)."
  },
  {
   "property": "C52",
   "status": "partial",
   "theorems": [
    "C52_python_events_mirror_partial",
    "C52_other_paths_refuted"
   ],
   "note": "Proved for UTF-8 paths; otherwise the event is lost (refuted)."
  },
  {
   "property": "C53",
   "status": "partial",
   "theorems": [
    "C53_one_thread_closes_once_partial",
    "C53_one_thread_is_safe_partial",
    "C53_two_threads_refuted"
   ],
   "note": "Proved for one thread; two threads can close twice (refuted)."
  },
  {
   "property": "C54",
   "status": "partial",
   "theorems": [
    "C54_node_events_mirror_partial",
    "C54_node_times_are_near_partial",
    "C54_times_today_refuted"
   ],
   "note": "Proved for UTF-8 paths and times up to 2^53; present times are rounded to multiples of 256 ns (refuted), by at most half a unit."
  },
  {
   "property": "C55",
   "status": "partial",
   "theorems": [
    "C55_callbacks_in_order_partial",
    "C55_nothing_lost_below_capacity_partial",
    "C55_queue_is_bounded",
    "C55_full_queue_refuted"
   ],
   "note": "In order; complete while the queue is not full. A full queue loses (and leaks) events (refuted)."
  },
  {
   "property": "C56",
   "status": "partial",
   "theorems": [
    "C56_help_shown",
    "C56_current_directory_by_default",
    "C56_given_path_watched",
    "C56_times_partial",
    "C56_long_times_refuted",
    "C56_other_units_are_milliseconds",
    "C56_missing_path_refuted",
    "C56_exit_code",
    "C56_fractions_are_rounded",
    "C56_not_a_number_refuted"
   ],
   "note": "Proved: help, default path, given path, exit code, times up to 2^63 ns. Refuted: fallback to the current directory; longer times (undefined behaviour), times that are not whole numbers of units (rounded), nan."
  },
  {
   "property": "C57",
   "status": "partial",
   "theorems": [
    "C57_memory_safe_partial",
    "C57_long_paths_refuted",
    "C57_wide_paths_refuted"
   ],
   "note": "Proved for paths of at most 512 narrow bytes, no more than the wide form has, and well-formed records; refuted for longer paths (memcpy writes behind path_name) and for narrow forms longer than the wide one (memcpy reads behind the path)."
  },
  {
   "property": "C58",
   "status": "partial",
   "theorems": [
    "C58_path_is_passed_on_partial",
    "C58_long_paths_in_node_refuted",
    "C58_nul_refuted"
   ],
   "note": "Proved for NUL-free paths, in Node up to 4095 bytes. Refuted: Node cuts longer paths, Python cuts at NUL, Rust panics at NUL."
  },
  {
   "property": "C59",
   "status": "partial",
   "theorems": [
    "C59_native_close_once",
    "C59_no_new_events_after_close",
    "C59_callbacks_after_close_refuted"
   ],
   "note": "One native close; no new events after close. Refuted: callbacks of earlier events still run after close returned."
  },
  {
   "property": "C60",
   "status": "partial",
   "theorems": [
    "C60_python_json_partial",
    "C60_quotes_refuted",
    "C60_backslashes_refuted"
   ],
   "note": "Proved for paths without quotes, backslashes and control characters; refuted otherwise."
  },
  {
   "property": "C61",
   "status": "partial",
   "theorems": [
    "C61_token_and_port_closed_partial",
    "C61_directory_handle_leaked_refuted"
   ],
   "note": "Event token and completion port are closed exactly once; the directory handle never (refuted)."
  },
  {
   "property": "C62",
   "status": "partial",
   "theorems": [
    "C62_buffer_given_back_partial",
    "C62_read_outstanding_refuted"
   ],
   "note": "Nothing outstanding when the adapter could not start; refuted for every normally closed watcher: a read is outstanding on a buffer that is gone."
  },
  {
   "property": "C63",
   "status": "partial",
   "theorems": [
    "C63_no_errors_no_crash_partial",
    "C63_unreadable_directory_ends_the_program_refuted"
   ],
   "note": "The program is ended only after a question was answered with an error; refuted for an unreadable directory: the walk options are combined with &, which leaves none."
  },
  {
   "property": "C64",
   "status": "partial",
   "theorems": [
    "C64_nothing_used_after_return_partial",
    "C64_late_calls_refuted"
   ],
   "note": "Proved if the system waits for its calls under way when the stream is stopped; refuted if it does not."
  },
  {
   "property": "C65",
   "status": "partial",
   "theorems": [
    "C65_interrupted_waits_end_it_refuted"
   ],
   "note": "Refuted: every failed epoll_wait, EINTR included, ends the watcher with e/sys/api/epoll and a failure."
  },
  {
   "property": "C66",
   "status": "proved",
   "theorems": [
    "C66_fallback_ends_on_request",
    "C66_fallback_fails_only_without_a_path",
    "C66_windows_ends_on_request",
    "C66_darwin_ends_on_request"
   ],
   "note": "For each of the three adapters, all runs."
  },
  {
   "property": "C67",
   "status": "partial",
   "theorems": [
    "C67_windows_failed_reads_are_told_partial",
    "C67_fallback_failures_unexplained_refuted",
    "C67_windows_failures_unexplained_refuted",
    "C67_darwin_failures_unexplained_refuted"
   ],
   "note": "Refuted for all three: when they fail no message is given; the Darwin adapter without a stream even stays until it is stopped. What holds on Windows: of every read that fails while it listens there is a message, at once, and no other."
  },
  {
   "property": "C68",
   "status": "partial",
   "theorems": [
    "C68_narrow_text",
    "C68_wide_agrees_with_narrow_partial",
    "C68_other_paths_end_the_program_refuted"
   ],
   "note": "Proved for UTF-8 paths; refuted otherwise: the program is ended (an exception in a noexcept function)."
  },
  {
   "property": "C69",
   "status": "partial",
   "theorems": [
    "C69_context_outlives_the_thread_partial",
    "C69_context_outlives_the_thread_elsewhere",
    "C69_failed_stop_refuted"
   ],
   "note": "Proved whenever the stop request could be made, so always on Darwin and Windows; refuted on Linux when it cannot."
  },
  {
   "property": "C70",
   "status": "partial",
   "theorems": [
    "C70_stream_gives_every_event_once",
    "C70_stream_gives_every_event",
    "C70_stream_never_ends_refuted"
   ],
   "note": "Every event once, in order, all of them; refuted: the stream never ends."
  },
  {
   "property": "C71",
   "status": "partial",
   "theorems": [
    "C71_lines_can_be_read_partial",
    "C71_other_paths_refuted"
   ],
   "note": "Proved for paths without newlines and the first without \" ->\"; refuted otherwise."
  },
  {
   "property": "C72",
   "status": "partial",
   "theorems": [
    "C72_throwing_callbacks_refuted",
    "C72_the_program_ends_refuted",
    "C72_which_throws_end_the_program_at_once_partial"
   ],
   "note": "Refuted: on Linux the next close or destructor ends the program, elsewhere the throw itself does, unless it is at the message about the watcher's start or end (exactly: C72_which_throws_end_the_program_at_once_partial); no die message is sent."
  },
  {
   "property": "C73",
   "status": "proved",
   "theorems": [
    "C73_times_linux",
    "C73_times_fallback",
    "C73_times_windows",
    "C73_times_darwin"
   ],
   "note": "All four adapters. (Messages are dated too but may overtake an earlier filesystem event, see C73_messages_example.)"
  },
  {
   "property": "C74",
   "status": "proved",
   "theorems": [
    "C74_one_callback_at_a_time"
   ],
   "note": ""
  },
  {
   "property": "C75",
   "status": "proved",
   "theorems": [
    "C75_setup_failures_are_fatal"
   ],
   "note": ""
  },
  {
   "property": "C76",
   "status": "partial",
   "theorems": [
    "C76_nothing_marked_is_told_partial",
    "C76_fanotify_waits_whatever_it_marked_refuted"
   ],
   "note": "Holds under inotify. Refuted under fanotify: the failed marks are warned about one by one, but the watcher then waits on a descriptor for which nothing ever comes and, when stopped, reports success."
  },
  {
   "property": "C77",
   "status": "proved",
   "theorems": [
    "C77_every_change_reported_once_in_order"
   ],
   "note": "End to end: the adapter's model composed with a model of a filesystem being changed and of the kernel's inotify (KernelSpec). Directory renames, links and queue overflow are not in that kernel (overflow: C25)."
  },
  {
   "property": "C78",
   "status": "proved",
   "theorems": [
    "C78_no_event_without_a_change"
   ],
   "note": "End to end, as C77: also that the change happened before the callback was called."
  },
  {
   "property": "C79",
   "status": "proved",
   "theorems": [
    "C79_changes_in_the_tree_are_reported"
   ],
   "note": "Composes the walk of the tree with the kernel of C77."
  },
  {
   "property": "C80",
   "status": "proved",
   "theorems": [
    "C80_new_directories_are_watched_or_warned"
   ],
   "note": ""
  },
  {
   "property": "C81",
   "status": "partial",
   "theorems": [
    "C81_new_trees_are_watched_refuted",
    "C80_new_directories_are_watched_or_warned"
   ],
   "note": "Refuted: of `mkdir -p a/b` the directory `b` is neither announced nor watched, without a warning, when it is made before `a` is marked; changes in it are lost. What holds is C80 for each directory whose creation was in a watched directory."
  },
  {
   "property": "C82",
   "status": "proved",
   "theorems": [
    "C82_a_watchers_life",
    "C82_no_undefined_behaviour"
   ],
   "note": "Composes class watch, the semaphore, the Linux entry point, the inotify adapter, the kernel and the filesystem into one system; also that no run of it has undefined behaviour."
  },
  {
   "property": "C83",
   "status": "proved",
   "theorems": [
    "C83_changes_reported_before_the_next_wait"
   ],
   "note": "The bound on delay in terms of the watcher's own steps."
  },
  {
   "property": "C84",
   "status": "partial",
   "theorems": [
    "C84_changes_before_close_are_reported_partial",
    "C84_changes_before_close_are_reported_refuted"
   ],
   "note": "Proved if at most 4096 bytes of records are waiting when the stop signal is seen: readiness of the records and of the stop signal come from the same wait, and the records are read before the watcher ends. Refuted without it: 40 files with long names made just before close(); 25 are never reported."
  },
  {
   "property": "C85",
   "status": "proved",
   "theorems": [
    "C85_changes_reach_rust",
    "C85_changes_reach_python",
    "C85_changes_reach_node"
   ],
   "note": "Composes C82 with C48, C50, C52, C54, C55 and C70."
  },
  {
   "property": "C86",
   "status": "proved",
   "theorems": [
    "C86_nothing_closed_twice"
   ],
   "note": "The part of C35 that holds without conditions, also for runs that have not ended."
  },
  {
   "property": "C87",
   "status": "proved",
   "theorems": [
    "C70_stream_gives_every_event_once",
    "C70_stream_gives_every_event"
   ],
   "note": "The part of C70 that holds."
  },
  {
   "property": "C88",
   "status": "proved",
   "theorems": [
    "C59_native_close_once",
    "C59_no_new_events_after_close"
   ],
   "note": "The part of C59 that holds."
  },
  {
   "property": "C89",
   "status": "proved",
   "theorems": [
    "C89_safe_unless_used_after_close",
    "C49_closed_is_freed",
    "C49_null_is_refused"
   ],
   "note": "The exact contract behind C49."
  },
  {
   "property": "C90",
   "status": "proved",
   "theorems": [
    "C90_in_order_and_bounded"
   ],
   "note": "The part of C55 that holds without conditions."
  },
  {
   "property": "C91",
   "status": "proved",
   "theorems": [
    "C56_help_shown",
    "C56_current_directory_by_default",
    "C56_given_path_watched",
    "C56_exit_code"
   ],
   "note": "The part of C56 that holds."
  },
  {
   "property": "C92",
   "status": "proved",
   "theorems": [
    "C92_stop_not_forgotten"
   ],
   "note": "The part of C10 that holds."
  },
  {
   "property": "C93",
   "status": "proved",
   "theorems": [
    "C39_sources_used_once",
    "C39_no_flag_no_rename"
   ],
   "note": "The part of C39 that holds without conditions."
  },
  {
   "property": "C94",
   "status": "proved",
   "theorems": [
    "C27_paths_are_entries_of_marked_directories"
   ],
   "note": "The part of C27 that holds without conditions."
  },
  {
   "property": "C95",
   "status": "proved",
   "theorems": [
    "C95_token_and_port_closed_once"
   ],
   "note": "The part of C61 that holds."
  },
  {
   "property": "C96",
   "status": "proved",
   "theorems": [
    "C14_timestamps_exact_when"
   ],
   "note": "The exact answer to C14."
  },
  {
   "property": "C97",
   "status": "proved",
   "theorems": [
    "C69_context_outlives_the_thread_elsewhere"
   ],
   "note": "The part of C69 that holds."
  },
  {
   "property": "C98",
   "status": "partial",
   "theorems": [
    "C98_arrivals_and_departures_are_reported_partial",
    "C98_directories_moved_in_are_watched_refuted"
   ],
   "note": "Proved: each arrival and departure in a watched directory is reported, as a rename without counterpart. Refuted: a directory that arrives is never watched; what happens in it is not reported, and no warning is given."
  },
  {
   "property": "C99",
   "status": "partial",
   "theorems": [
    "C99_a_mirror_stays_true_partial",
    "C99_events_determine_what_is_there_refuted"
   ],
   "note": "Proved if no rename event came without its counterpart. Refuted in general: a file moved out of the tree and one moved into its place give the same events, with the same times."
  }
 ]
}

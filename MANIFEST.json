{
 "claims": [
  {
   "property": "C01",
   "status": "proved",
   "theorems": [
    "reader_chunk_independent",
    "reader_total",
    "reader_negative_length_refuted"
   ],
   "note": "For every stream without a Content-Length below -1 and every split into non-empty chunks. The refutation shows that a negative length makes the result depend on the chunks."
  },
  {
   "property": "C02",
   "status": "proved",
   "theorems": [
    "wire_round_trip",
    "line_text_round_trip",
    "wire_empty_message_refuted"
   ],
   "note": "For messages with at least one byte; an empty framed message ends the connection (refutation)."
  },
  {
   "property": "C04",
   "status": "proved",
   "theorems": [
    "writer_fifo",
    "writer_exit_last",
    "writer_finished_reason",
    "writer_finished_silent",
    "writer_drains",
    "writer_drained_on_kill",
    "writer_posted_is_sent_refuted"
   ],
   "note": "The refutation shows a command queued after the writer ended, because the test of the kill flag and the put are separate steps."
  },
  {
   "property": "C37",
   "status": "proved",
   "theorems": [
    "reader_silent_after_kill"
   ],
   "note": ""
  },
  {
   "property": "C38",
   "status": "proved",
   "theorems": [
    "set_breakpoints_replaces",
    "set_breakpoints_others",
    "breakpoints_reapply_keeps_line_refuted"
   ],
   "note": "Python line breakpoints; the file must be named the same way in all requests. The refutation shows that changing the source mapping undoes a line adjustment."
  },
  {
   "property": "C07",
   "status": "proved",
   "theorems": [
    "hit_ordinals",
    "hit_number_exact",
    "hit_once",
    "hit_progress",
    "hit_lock_released"
   ],
   "note": ""
  },
  {
   "property": "C20",
   "status": "proved",
   "theorems": [
    "hit_condition_meaning",
    "hit_condition_stops",
    "hit_condition_leading_zero_refuted",
    "hit_and_condition_refuted"
   ],
   "note": "Numbers without leading zeros; python eval is modelled for the comparison and remainder expressions that occur. The refutations are a number typed with a leading zero, which never stops, and a condition together with a hit condition, where either suffices."
  },
  {
   "property": "C08",
   "status": "proved",
   "theorems": [
    "exception_most_specific",
    "exception_none",
    "exception_order_independent",
    "exception_in_force",
    "exception_multiple_inheritance_order_refuted"
   ],
   "note": "Stated over all histories of requests. issubclass is any preorder; with multiple inheritance the registration order decides between incomparable superclasses (refutation)."
  },
  {
   "property": "C39",
   "status": "proved",
   "theorems": [
    "exception_in_force",
    "exception_chosen_in_force",
    "exception_readd_replaces_refuted"
   ],
   "note": "The refutation shows that adding the same exception again for another purpose does not undo the first request."
  },
  {
   "property": "C40",
   "status": "proved",
   "theorems": [
    "dap_raised_stops",
    "dap_unhandled_stops",
    "dap_never_overrides_refuted",
    "dap_unknown_name_skipped_refuted"
   ],
   "note": "Python exceptions; template plugins are an input that is assumed not to stop. Refutations: break mode never does not override always for a superclass; a name missing from an existing module aborts the request."
  },
  {
   "property": "C09",
   "status": "proved",
   "theorems": [
    "glob_components",
    "glob_text",
    "glob_directory_itself_refuted",
    "glob_absolute_refuted"
   ],
   "note": "The meaning of one component with a bracket expression is whatever Python's fnmatch decides (an arbitrary function); * ? and ** are specified. glob_text covers drives, alternative separators and leading separators. A trailing ** needs at least one component (refutation); a leading separator is ignored (refutation)."
  },
  {
   "property": "C10",
   "status": "proved",
   "theorems": [
    "project_roots_exact",
    "project_root_slash_refuted"
   ],
   "note": "absolute_path and normcase are arbitrary functions. The refutation: the root '/' contains nothing."
  },
  {
   "property": "C11",
   "status": "proved",
   "theorems": [
    "filter_current",
    "filter_never_hides",
    "filter_module_refuted",
    "filter_removal_refuted",
    "filter_race_refuted"
   ],
   "note": "Proved for sequential histories without unclearing removals of template breakpoints and with the module determined by file, function name and first line; the three refutations show that each condition is needed."
  },
  {
   "property": "C41",
   "status": "proved",
   "theorems": [
    "directory_rule_below",
    "exclude_first_rule",
    "rules_decide",
    "rules_none",
    "rules_file_beats_directory_refuted"
   ],
   "note": "os.path.isdir is an arbitrary function. The refutation: the '**' appended to a directory counts in the length comparison, so a file with a name of one or two characters can lose against its directory."
  },
  {
   "property": "C13",
   "status": "proved",
   "theorems": [
    "reference_resolves",
    "reference_dies",
    "frame_resolves",
    "reference_thread",
    "shared_frame_refuted"
   ],
   "note": "Histories in which a suspended thread's frames and thread ids belong to one suspension at a time and objects held by a suspension keep their address to themselves (Python's allocator). shared_frame_refuted shows what happens otherwise. Fake frames and '*' are not modelled."
  },
  {
   "property": "C19",
   "status": "proved",
   "theorems": [
    "scope_exact",
    "grouping_exact",
    "grouping_complete",
    "frame_complete",
    "object_complete"
   ],
   "note": "Values enter by what inspect says of them (routine, class, plain, or raising)."
  },
  {
   "property": "C12",
   "status": "proved",
   "theorems": [
    "repr_bounded",
    "repr_complete",
    "repr_depth",
    "repr_cut_prefix",
    "repr_other_cut",
    "repr_str_readable",
    "repr_exact_limit_refuted",
    "repr_empty_refuted",
    "repr_cut_quote_refuted"
   ],
   "note": "raw_value off. The bound is explicit in the limits and the longest type name. Complete means equal to Python's repr, for fewer items than the limit; the refutations show what is displayed differently: exactly the limit, empty sets and nested empty lists, cut texts with apostrophes."
  },
  {
   "property": "C14",
   "status": "proved",
   "theorems": [
    "ids_injective",
    "ids_round_trip",
    "ids_stable",
    "ids_sequential",
    "ids_stable_race_refuted",
    "ids_round_trip_race_refuted",
    "idmap_bijective"
   ],
   "note": "Injectivity holds for any interleaving of threads; round trip and stability hold for each completed translation when translations do not overlap; with two threads translating the same id at once they are false, with witnesses."
  },
  {
   "property": "C15",
   "status": "proved",
   "theorems": [
    "timeout_once",
    "timeout_not_early",
    "timeout_not_after_end",
    "timeout_not_forgotten",
    "timeout_registered",
    "timeout_not_after_end_refuted"
   ],
   "note": "Every read and write of exec_on_timeout and of the end of the block is a separate step. The callback can still run after the block ended when it had already passed the check (witness). Killing the timer thread is not modelled."
  },
  {
   "property": "C16",
   "status": "proved",
   "theorems": [
    "cmd_conserved",
    "cmd_once",
    "cmd_at_most_once",
    "owner_can",
    "frame_queue",
    "cmd_fifo",
    "cmd_by_target",
    "cmd_pass",
    "cmd_fifo_nested_refuted",
    "cmd_conserved_raise_refuted"
   ],
   "note": "All interleavings of posts and of the steps of processing, without any lock. The order theorem is for threads that do not process commands from inside a command (flat); the witness shows that a nested stop reorders. Conservation assumes can_be_executed_by does not raise; the witness shows commands are lost when it does."
  },
  {
   "property": "C17",
   "status": "proved",
   "theorems": [
    "single_alternates",
    "single_all_continued",
    "single_resume",
    "single_announced",
    "single_names",
    "single_per_request",
    "single_stale_continued_refuted",
    "single_nested_refuted"
   ],
   "note": "Also: at most one 'stopped' per request, and what each event names. Witnesses: a late resume announces 'continued' after another thread stopped anew; nested stops of one thread forget it."
  },
  {
   "property": "C18",
   "status": "proved",
   "theorems": [
    "thread_events_proper",
    "thread_events_known",
    "thread_events_reconcile",
    "thread_not_revived",
    "thread_events_balanced",
    "thread_events_order_refuted",
    "thread_events_sessions_refuted"
   ],
   "note": "Per session (between enabling notifications), when each message is sent before another agent takes the lock. The messages are sent after the lock is released, so without that assumption only the counts hold for every schedule; the order is refuted with a witness, and so is the statement across sessions."
  },
  {
   "property": "C21",
   "status": "proved",
   "theorems": [
    "log_message",
    "log_unbalanced",
    "log_percent_refuted",
    "log_double_percent_refuted",
    "log_comma_refuted"
   ],
   "note": "Python's % operator is described for the conversions that occur. The refutations show that a percent sign in a message with placeholders, or a comma at the top level of a placeholder, breaks it."
  },
  {
   "property": "C22",
   "status": "proved",
   "theorems": [
    "path_server_round_trip",
    "path_client_lands",
    "path_client_round_trip",
    "path_unmapped",
    "path_history",
    "path_sibling_refuted",
    "path_overlap_refuted",
    "path_backslash_refuted"
   ],
   "note": "absolute_path and the real-case lookup are arbitrary functions that keep the normalized name. The refutations show what fails for overlapping roots, for directories whose names begin like a root, and for Unix names with backslashes."
  },
  {
   "property": "C23",
   "status": "proved",
   "theorems": [
    "source_refs_distinct",
    "source_refs_denote",
    "source_ref_of_name",
    "source_ref_race_refuted",
    "source_ref_setup_refuted"
   ],
   "note": "Changing the mappings later restarts the numbers without clearing two of the tables (source_ref_setup_refuted); a thread may find a translated name before its reference is stored (source_ref_race_refuted)."
  },
  {
   "property": "C25",
   "status": "proved",
   "theorems": [
    "patch_file",
    "patch_module",
    "patch_code",
    "patch_unchanged",
    "patch_shape",
    "patch_windows",
    "patch_win_quotes_refuted",
    "patch_win_str_refuted"
   ],
   "note": "The refutations show that on Windows quotes an argument has of its own are lost, and that the one-string form loses its quoting when it is not patched."
  },
  {
   "property": "C26",
   "status": "proved",
   "theorems": [
    "cmdline_round_trip",
    "cmdline_round_trip_options",
    "cmdline_terminates",
    "cmdline_leftover",
    "child_uses_protocol",
    "child_protocol_round_trip",
    "cmdline_debug_refuted",
    "cmdline_qt_refuted",
    "child_protocol_refuted"
   ],
   "note": "With --DEBUG the parser never ends (cmdline_debug_refuted); the Qt mode is not passed on (cmdline_qt_refuted); a parent started with --protocol-http and switched to another protocol starts children with http (child_protocol_refuted)."
  },
  {
   "property": "C24",
   "status": "proved",
   "theorems": [
    "win_args_round_trip",
    "win_args_backslash_refuted",
    "win_args_newline_refuted"
   ],
   "note": "The splitting is the debugger's own splitter, modelled separately from the quoting. The two refutations show that the excluded arguments do change."
  },
  {
   "property": "C27",
   "status": "proved",
   "theorems": [
    "redirections_undone",
    "redirected_text_reaches_both",
    "client_output_reaches_both",
    "own_stream_kept",
    "writes_same_order",
    "writes_complete",
    "writes_with_exceptions",
    "redirect_overlap_refuted",
    "capture_binary_refuted"
   ],
   "note": "Redirections that overlap without being nested are not undone (redirect_overlap_refuted); a capture without a binary buffer does not see binary output (capture_binary_refuted)."
  },
  {
   "property": "C28",
   "status": "proved",
   "theorems": [
    "list_view_complete",
    "list_view_pages",
    "list_names_resolve",
    "list_view_settings_refuted",
    "list_view_empty_more_refuted"
   ],
   "note": "Settings of 0 show an item twice or never end (list_view_settings_refuted); a list of exactly the initial size has an empty 'more' entry (list_view_empty_more_refuted); hexadecimal numbers are only used on the first page (stated in list_view_complete)."
  },
  {
   "property": "C42",
   "status": "proved",
   "theorems": [
    "dict_view_complete",
    "dict_view_expressions",
    "dict_names_resolve",
    "set_view_complete",
    "dict_view_names_refuted",
    "dict_view_note_refuted"
   ],
   "note": "The note appears even when nothing is missing (dict_view_note_refuted); sets show one item more than the limit (set_view_complete); representations that imitate the identity suffix collide (dict_view_names_refuted)."
  },
  {
   "property": "C29",
   "status": "proved",
   "theorems": [
    "source_map_round_trip",
    "source_map_outside",
    "source_map_replies",
    "source_map_after_end_refuted",
    "source_map_same_source_refuted",
    "source_map_case_refuted",
    "source_map_race_refuted"
   ],
   "note": "Lookups are atomic; one interleaved with an installation may leave a stale answer (source_map_race_refuted). Runtime lines after the end of a cell are translated as well (source_map_after_end_refuted); cells sharing a runtime source go wrong and make the next request raise (source_map_same_source_refuted); on a case-insensitive system the same file under another case is refused (source_map_case_refuted)."
  },
  {
   "property": "C30",
   "status": "proved",
   "theorems": [
    "template_breakpoints_verified",
    "template_stop_lines",
    "template_verified_once",
    "template_valid_line_kept",
    "template_moved_then_edit_refuted",
    "template_changed_refuted",
    "template_order_refuted"
   ],
   "note": "Setting another breakpoint after a breakpoint was moved puts the latter back on its old line, where it never stops (template_moved_then_edit_refuted); after a change of the template a breakpoint whose line became invalid is neither moved nor reported (template_changed_refuted); which of two breakpoints gets a line depends on the order (template_order_refuted)."
  },
  {
   "property": "C33",
   "status": "proved",
   "theorems": [
    "stepping_threads_exact",
    "resume_wakes",
    "resume_wakes_refuted",
    "stepping_collected_refuted"
   ],
   "note": "With several threads the event of another thread may be set instead of the resumed one's: the loop variable shadows the parameter (resume_wakes_refuted); the thread then goes on when its wait of 0.2 s times out. A thread which ended while stepping and whose object was collected counts as stepping for ever (stepping_collected_refuted)."
  },
  {
   "property": "C36",
   "status": "proved",
   "theorems": [
    "custom_frames_shown",
    "custom_frames_gone",
    "custom_frames_others_refuted"
   ],
   "note": "With several threads suspended, resuming one also removes the frames shown for the others: every frame's id is kept, not only those of the thread (custom_frames_others_refuted)."
  },
  {
   "property": "C43",
   "status": "proved",
   "theorems": [
    "greenlets_shown",
    "greenlets_missed_refuted"
   ],
   "note": "If a switch was not reported, the update of a greenlet already recorded passes its name as thread id and the thread id as name, so the greenlet is no longer shown for its thread (greenlets_missed_refuted)."
  },
  {
   "property": "C34",
   "status": "proved",
   "theorems": [
    "page_frames",
    "pages_together",
    "stack_frames_sent",
    "page_start_refuted"
   ],
   "note": "Without a page size the starting frame is not taken into account (page_start_refuted)."
  },
  {
   "property": "C44",
   "status": "proved",
   "theorems": [
    "exception_stack",
    "exception_current",
    "exception_chain",
    "exception_chain_frames",
    "exception_all_shown",
    "exception_suppressed_refuted",
    "exception_cause_hidden_refuted",
    "exception_reraised_refuted"
   ],
   "note": "An exception raised from None still shows the hidden one (exception_suppressed_refuted). A cause which was never raised hides what it comes from (exception_cause_hidden_refuted); exception_all_shown assumes that every cause has a traceback. A frame which is twice in the traceback is shown twice with its outer line (exception_reraised_refuted)."
  },
  {
   "property": "C45",
   "status": "proved",
   "theorems": [
    "char_offset_correct",
    "columns_correct",
    "columns_utf16_refuted"
   ],
   "note": "Columns count characters, not UTF-16 units, in which the protocol counts (columns_utf16_refuted). The parser which finds the interesting part is a parameter."
  },
  {
   "property": "C46",
   "status": "proved",
   "theorems": [
    "modules_once",
    "modules_all",
    "modules_sequential",
    "modules_race_refuted"
   ],
   "note": "Two stack traces built at the same time may both find a file to be new: the second then raises TypeError, is never answered, and modules it registered are never announced (modules_race_refuted)."
  },
  {
   "property": "C35",
   "status": "proved",
   "theorems": [
    "set_break_decoded",
    "set_break_by_line",
    "remove_break_decoded",
    "set_break_escape_refuted",
    "set_break_hit_refuted"
   ],
   "note": "A condition with NEW_LINE_CHAR between two tabs is not restored (set_break_escape_refuted). A command with a hit condition but no log point flag is accepted, the hit condition becoming part of the expression (set_break_hit_refuted)."
  },
  {
   "property": "C47",
   "status": "proved",
   "theorems": [
    "add_exception_decoded",
    "plugin_exception_decoded"
   ],
   "note": ""
  },
  {
   "property": "C31",
   "status": "proved",
   "theorems": [
    "continue_stops_only_at_breakpoints",
    "step_over_stays",
    "step_over_next_line",
    "step_over_after_return",
    "step_return_waits",
    "step_return_stops",
    "step_return_continues",
    "pause_at_return_step_refuted",
    "step_over_generator_refuted"
   ],
   "note": "A pause taking effect at a return shows the returning frame, and a step over given there is never ended (pause_at_return_step_refuted). A step over in a generator which ends by an exception is lost (step_over_generator_refuted)."
  },
  {
   "property": "C32",
   "status": "proved",
   "theorems": [
    "breakpoints_in_force",
    "breakpoint_stops",
    "function_breakpoint_stops",
    "breakpoint_race_refuted",
    "breakpoint_in_library_refuted"
   ],
   "note": "If breakpoints are set while the tracing function is at a line, that line may be cached as having none, and the breakpoint is missed (breakpoint_race_refuted). Running frames of library files within the project are not traced again when a breakpoint is set in them (breakpoint_in_library_refuted)."
  },
  {
   "property": "C48",
   "status": "proved",
   "theorems": [
    "step_into_stops",
    "step_into_avoids_filtered",
    "pause_stops"
   ],
   "note": ""
  },
  {
   "property": "C03",
   "status": "partial",
   "theorems": [
    "seq_generated_increasing_partial",
    "seq_generated_unique_partial",
    "seq_explicit_kept",
    "seq_threads_any_partial",
    "seq_threads_turns_partial",
    "seq_threads_unique_refuted"
   ],
   "note": "Proved in full when each creation ends before the next begins, by whichever threads (seq_threads_turns_partial). For arbitrary interleavings only this holds: numbers are positive, even and bounded by the number of creations (seq_threads_any_partial). Missing because false: the increment is not locked, and two threads may get the same number (seq_threads_unique_refuted)."
  },
  {
   "property": "C05",
   "status": "proved",
   "theorems": [
    "auth_session_defined",
    "auth_gate",
    "auth_obeys",
    "auth_login_refused",
    "auth_lockout",
    "auth_no_token_always_open_refuted",
    "auth_login_confirmed_refuted"
   ],
   "note": "Both protocols. Findings: a login attempt when no token is configured locks the client out (auth_no_token_always_open_refuted); a correct login in the line protocol is answered by an error when the client has no token of its own (auth_login_confirmed_refuted)."
  },
  {
   "property": "C06",
   "status": "proved",
   "theorems": [
    "breakpoints_exact",
    "breakpoints_none",
    "breakpoints_last_added_decides",
    "adjust_line_spec",
    "breakpoints_readd_decides_refuted",
    "breakpoints_alias_refuted",
    "breakpoints_remove_mapped_refuted",
    "breakpoints_template_kinds_separate_refuted"
   ],
   "note": "Findings, each showing that a hypothesis is needed: an id added again does not decide for its line (breakpoints_readd_decides_refuted); removing by one name of a file removes those set by another name (breakpoints_alias_refuted); removing ignores the source mapping (breakpoints_remove_mapped_refuted); template plugins share one table of ids (breakpoints_template_kinds_separate_refuted)."
  },
  {
   "property": "C49",
   "status": "proved",
   "theorems": [
    "mon_breakpoints_last_set",
    "mon_line_breakpoint_stops",
    "mon_function_breakpoint_stops",
    "mon_breakpoint_stop_sound",
    "mon_generator_breakpoint_refuted",
    "mon_disable_race_refuted"
   ],
   "note": "Under two conditions, shown to be needed. Findings: a breakpoint put into a generator which is waiting to be resumed and had no breakpoint is missed (mon_generator_breakpoint_refuted); one added while a callback for its line is about to answer DISABLE is missed (mon_disable_race_refuted)."
  },
  {
   "property": "C50",
   "status": "proved",
   "theorems": [
    "mon_step_over_next_line",
    "mon_step_over_return",
    "mon_step_over_return_hidden",
    "mon_step_over_only",
    "mon_step_into_next_line",
    "mon_step_into_return",
    "mon_step_out",
    "mon_continue_only",
    "mon_uncommanded_only",
    "mon_pause_all_stops",
    "mon_pause_one_stops",
    "mon_step_after_exception_refuted",
    "mon_pause_one_refuted",
    "mon_pause_while_stepping_refuted",
    "mon_step_over_unwind_refuted",
    "mon_step_out_dont_trace_refuted",
    "mon_step_into_generator_refuted",
    "mon_step_into_my_code_coroutine_refuted"
   ],
   "note": "For threads stopped at a breakpoint or a step, or at an exception when every stop stops all threads. Findings: otherwise a step from an exception never stops when there is no line or function breakpoint (mon_step_after_exception_refuted); pausing one thread is without effect for ever when another thread runs the same lines first (mon_pause_one_refuted); a pause does not stop a thread which is stepping over a call that does not return (mon_pause_while_stepping_refuted); an exception leaving the frame stepped over loses the step (mon_step_over_unwind_refuted); so does stepping out to a caller marked with DontTrace (mon_step_out_dont_trace_refuted); stepping into does not stop in a generator which is resumed (mon_step_into_generator_refuted); from a coroutine a step into my code stops in other code (mon_step_into_my_code_coroutine_refuted)."
  },
  {
   "property": "C52",
   "status": "proved",
   "theorems": [
    "watch_exact",
    "watch_total",
    "watch_follow",
    "watch_reload",
    "watch_at_most_once",
    "watch_quiet",
    "watch_auto_reload",
    "watch_dangling_refuted",
    "watch_nested_refuted",
    "watch_spelling_refuted"
   ],
   "note": "For watched paths none of which is inside another and whose accepted entries can be examined; watch_at_most_once and watch_quiet without these conditions. Findings: an entry which cannot be examined (a link to nothing) with an accepted name hides the entries listed after it, so unchanged files are reported as deleted (watch_dangling_refuted); for paths inside each other the first listing visits the longest first but the rounds follow the order of a set, so a file too deep for the outer path is reported as deleted (watch_nested_refuted); one directory under two spellings (with and without a slash at the end) reports every file as added in every round (watch_spelling_refuted). A change which keeps time and size is not seen; a file deleted and made again between rounds is reported as modified."
  },
  {
   "property": "C51",
   "status": "proved",
   "theorems": [
    "rpc_accounted",
    "rpc_at_most_once",
    "rpc_answers_own",
    "rpc_exactly_once",
    "rpc_lost_never_answered",
    "rpc_immediate",
    "rpc_unauthenticated",
    "rpc_malformed",
    "rpc_reader_ends",
    "rpc_thread_answers",
    "rpc_goto_answers",
    "rpc_continue_answered",
    "rpc_continue_only",
    "rpc_continue_idle",
    "rpc_unsupported_ignored",
    "rpc_unsupported_refuted",
    "rpc_goto_gone_refuted",
    "rpc_goto_forgotten_refuted",
    "rpc_bad_thread_refuted",
    "rpc_no_path_refuted",
    "rpc_completions_refuted",
    "rpc_continue_idle_refuted",
    "rpc_disconnect"
   ],
   "note": "Findings: requests of the protocol which pydevd does not support are never answered (rpc_unsupported_refuted); a goto for a thread which ended is never answered (rpc_goto_gone_refuted), nor one whose thread is continued before it jumps (rpc_goto_forgotten_refuted); a step, pause or continue for an id which is not that of a thread ends the session (rpc_bad_thread_refuted), and so do breakpoints for a source without a path (rpc_no_path_refuted); completions of a frame which is gone are answered by a message which is not one of the protocol (rpc_completions_refuted); with one notification for all threads a continue while nothing is stopped waits until something stops (rpc_continue_idle_refuted)."
  },
  {
   "property": "C54",
   "status": "proved",
   "theorems": [
    "change_variable",
    "change_global",
    "change_fails",
    "change_once",
    "change_read",
    "change_set",
    "change_prefix_refuted",
    "change_failure_shown_refuted",
    "change_twice_refuted",
    "change_hidden_refuted",
    "change_line_refuted",
    "change_tab_refuted",
    "change_set_refuted"
   ],
   "note": "For an expression whose value does not depend on how often it is evaluated (steady), names not starting with Globals and values without the at sign. Findings: a variable named Globals_x is taken for the global x (change_prefix_refuted); a failed change is answered as a success with the old value (change_failure_shown_refuted); from Python 3.13 on the expression is evaluated twice, and the answer is not what is stored (change_twice_refuted, and change_once for the versions before); a grouped or hidden variable is changed and the answer is a failure (change_hidden_refuted); @LINE@ within a string is replaced (change_line_refuted); a tab in the value makes its first part a name (change_tab_refuted); the name given for a new item of a set equal to another is of no item (change_set_refuted)."
  },
  {
   "property": "C55",
   "status": "proved",
   "theorems": [
    "console_sees",
    "console_next",
    "console_module",
    "console_expression",
    "console_session",
    "console_delete_refuted",
    "console_walrus_refuted",
    "console_global_refuted",
    "console_same_refuted"
   ],
   "note": "console_session is for codes which remove no name. Findings: deleting a variable of a function has no effect before Python 3.13 and makes it None later (console_delete_refuted); an assignment expression in the console is not kept, though it is when watched (console_walrus_refuted); assigning a global while in a function, with the global statement too, does not change the global (console_global_refuted); an unbound variable assigned the very object its global has stays unbound (console_same_refuted, which the comment in the source knows)."
  },
  {
   "property": "C53",
   "status": "proved",
   "theorems": [
    "smart_offered",
    "smart_targets",
    "smart_labels",
    "smart_only",
    "smart_reached",
    "smart_not_lost",
    "smart_inner_offered",
    "smart_inner_only",
    "smart_inner_reached",
    "smart_text",
    "smart_inner_other_refuted",
    "smart_inner_two_refuted",
    "smart_limit_refuted",
    "smart_lines_refuted",
    "smart_text_refuted",
    "smart_operator_refuted",
    "smart_visited_refuted",
    "smart_chosen",
    "smart_variants"
   ],
   "note": "The smart_inner theorems are for one inner code; smart_labels and smart_offered for any. Codes of Python 3.11 and later. Findings: having chosen a call of an inner code, the frame between is not looked at, so a function called by any function the frame calls may be where it stops (smart_inner_other_refuted); two lambdas in one call cannot be told apart (smart_inner_two_refuted); the limit of fifteen is left by inner calls only for their own loop (smart_limit_refuted); asking for the variants of some lines fails when an inner call is on another line (smart_lines_refuted); labels are cut by byte columns as if these counted characters (smart_text_refuted); a function called by an operator after the chosen call, and before the next one, counts as the chosen one (smart_operator_refuted); whether an inner call was made is found by comparing its offset with one of the outer code (smart_visited_refuted)."
  },
  {
   "property": "C56",
   "status": "proved",
   "theorems": [
    "reload_names",
    "reload_functions",
    "reload_classes",
    "reload_rest",
    "reload_found",
    "reload_hooks",
    "reload_after",
    "reload_order",
    "reload_failed",
    "reload_main",
    "reload_import_refuted",
    "reload_alias_refuted",
    "reload_lines_refuted",
    "reload_kwdefaults_refuted",
    "reload_closure_refuted",
    "reload_added_refuted",
    "reload_added_class_refuted",
    "reload_hook_refuted",
    "reload_after_refuted",
    "reload_twice_refuted",
    "reload_loop_refuted"
   ],
   "note": "For namespaces in which no old object corresponds to two new ones and no new object is old too (well), functions with the same number of free variables, and codes apart from their first line. Findings: a name imported from another module than before overwrites the code of the function of the first module (reload_import_refuted); two names of one function get the code of either (reload_alias_refuted); a function which only moved keeps its old lines, so that breakpoints miss it (reload_lines_refuted); keyword-only defaults stay (reload_kwdefaults_refuted); a closure with another number of free variables gets the new documentation and keeps the old code (reload_closure_refuted); an added function does not see the variables of the module (reload_added_refuted), an added class derives from a copy of its base (reload_added_class_refuted); the hook is not called when the type changed (reload_hook_refuted); one failing hook prevents the others (reload_after_refuted); a class with two names is told twice (reload_twice_refuted); references from a class to itself double the work with each level of recursion (reload_loop_refuted)."
  },
  {
   "property": "C57",
   "status": "proved",
   "theorems": [
    "xml_frame",
    "xml_variable",
    "xml_output",
    "xml_completions",
    "xml_threads",
    "xml_thread",
    "xml_custom",
    "xml_stack",
    "xml_suspend",
    "xml_exception",
    "xml_details",
    "xml_details_refuted",
    "xml_surrogate_refuted",
    "xml_thread_refuted",
    "xml_thread_ambiguous_refuted",
    "xml_file_refuted",
    "xml_undecoded_refuted",
    "xml_chained_refuted",
    "xml_tab_refuted",
    "xml_message_refuted"
   ],
   "note": "For types, names of functions and ids which can be written in XML, thread names and files without the characters XML escapes. Findings: the answer on the exception of a thread which is not suspended is not well-formed (xml_details_refuted); a variable with a surrogate is missing, and the other children of its container with it (xml_surrogate_refuted); thread names and files are escaped before they are percent encoded, so that R&D is read with the entity in it (xml_thread_refuted, xml_file_refuted); names of frames shown as threads are not percent encoded, those of threads are (xml_thread_ambiguous_refuted); a file name which could not be decoded or a control character in the text of a chained exception makes the stack unreadable (xml_undecoded_refuted, xml_chained_refuted); tabs in completions and ends of lines in the message of a stop become blanks (xml_tab_refuted, xml_message_refuted)."
  },
  {
   "property": "C58",
   "status": "proved",
   "theorems": [
    "runner_chosen",
    "runner_files",
    "runner_files_once",
    "runner_once",
    "runner_parallel",
    "runner_finishes",
    "runner_deaths",
    "runner_report",
    "runner_sent",
    "runner_runtest_refuted",
    "runner_alias_refuted",
    "runner_bar_refuted",
    "runner_twice_refuted",
    "runner_lost_refuted",
    "runner_prefix_refuted",
    "runner_subtest_refuted",
    "runner_skip_refuted"
   ],
   "note": "For classes with identifiers as names and without runTest, files without a bar; with single tests given to processes, classes of different names. Findings: a class with only runTest is run again with each batch of its file (runner_runtest_refuted); a class bound to two names runs four times instead of two in several processes (runner_alias_refuted); tests of a file with a bar in its path are never run in several processes (runner_bar_refuted); a file given twice is run twice by one process and once by several (runner_twice_refuted); when all processes die the run ends with the rest not run and not reported (runner_lost_refuted); a named method without the prefix test is not run when its class is named too (runner_prefix_refuted); a test with a failing subtest is reported as passed at the end (runner_subtest_refuted); an error after a skip is not reported (runner_skip_refuted)."
  },
  {
   "property": "C59",
   "status": "proved",
   "theorems": [
    "goto_targets",
    "goto_request",
    "goto_moves",
    "goto_any",
    "goto_file_refuted",
    "goto_return_refuted",
    "goto_lost_refuted",
    "goto_dispose_refuted",
    "goto_smart_refuted"
   ],
   "note": "While the debugger is not disposed of. Findings: the file of a goto target does not count, the top frame is moved to that line of its own file (goto_file_refuted); a refusal when a function is called or returns has no text (goto_return_refuted); a goto followed by a stop of all threads or a continue before it is executed is neither executed nor answered (goto_lost_refuted); when the connection is lost after a successful goto the debugged program gets a ValueError from the debugger, as the empty message is read as a number (goto_dispose_refuted); a step into a function by name leaves the number of the request as the message of the thread (goto_smart_refuted)."
  },
  {
   "property": "C61",
   "status": "proved",
   "theorems": [
    "frameeval_same",
    "frameeval_nothing_else",
    "frameeval_traced",
    "frameeval_hit",
    "frameeval_only",
    "frameeval_hit_refuted",
    "frameeval_unlined_refuted"
   ],
   "note": "frameeval_hit is for Python 3.10 and later and code in which what follows a label has a line. Findings: before Python 3.10 a line that is in the code twice (such as that of a finally) gets one call only, so the breakpoint is missed on the other way (frameeval_hit_refuted); from 3.10 on it is missed when the jump goes to an instruction without a line followed by the line before it in the code (frameeval_unlined_refuted)."
  },
  {
   "property": "C60",
   "status": "proved",
   "theorems": [
    "options_unique",
    "options_in_force",
    "options_each_time",
    "options_kept",
    "options_mappings",
    "options_os",
    "options_exit_refuted",
    "options_mappings_refuted",
    "options_jinja_refuted",
    "options_next_client_refuted",
    "options_os_refuted",
    "options_protected_refuted",
    "options_os_text",
    "options_os_flag"
   ],
   "note": "Findings: after one attach a later one cannot ask to stop at an exit with 0 (options_exit_refuted) or to have no path mappings (options_mappings_refuted); jinja: false overrides flask: true (options_jinja_refuted); switches of one client stay in force for the next one after a disconnect (options_next_client_refuted); after an attach which failed because of its clientOS all later ones which do not give it fail, and a failed attach leaves some of its settings in force (options_os_refuted); a variablePresentation which does not mention protected variables changes them from inline to group (options_protected_refuted)."
  },
  {
   "property": "C62",
   "status": "proved",
   "theorems": [
    "framecache_seen_to",
    "framecache_function",
    "framecache_replaced",
    "framecache_left",
    "framecache_failed",
    "framecache_failed_refuted",
    "framecache_again_refuted",
    "framecache_stepping",
    "framecache_plugin"
   ],
   "note": "Findings: a generator started with a breakpoint in its code cannot be resumed after all breakpoints of its file are removed, since the lines are intersected with None (framecache_failed_refuted); a generator whose code has all the calls it needs is left alone the first time it is resumed and traced from the second time on, since the flag for this is not remembered with the rest (framecache_again_refuted; slower only)."
  },
  {
   "property": "C63",
   "status": "proved",
   "theorems": [
    "django_breakpoint",
    "django_over",
    "django_walk",
    "django_into",
    "django_back",
    "django_variables",
    "django_return",
    "django_set_variable",
    "django_change_method",
    "django_set_variable_refuted",
    "django_over_refuted",
    "django_return_refuted",
    "django_no_context_refuted"
   ],
   "note": "Findings: a variable of a template can never be changed: the call passes an argument scope which the method does not have, the exception is only logged and the client gets a successful response with the old value (django_set_variable, django_set_variable_refuted); step over from a template is lost when no template has a breakpoint any more (django_over_refuted); step return from a template acts as continue (django_return, django_return_refuted); a custom node whose render method calls its parameter anything but context ends the debugging of the thread as soon as its file has a breakpoint or one steps to it (django_no_context_refuted)."
  },
  {
   "property": "C65",
   "status": "proved",
   "theorems": [
    "evaluate_name",
    "evaluate_unique",
    "evaluate_item_named",
    "evaluate_key_named",
    "evaluate_attribute_named",
    "evaluate_change_item",
    "evaluate_change_tuple",
    "evaluate_change_key",
    "evaluate_change_attribute",
    "evaluate_expression_refuted",
    "evaluate_expression_change_refuted",
    "evaluate_float_key_refuted",
    "evaluate_enum_key_refuted",
    "evaluate_dict_refuted",
    "evaluate_attribute_refuted",
    "evaluate_raising_refuted",
    "evaluate_hidden_refuted",
    "evaluate_group_refuted",
    "evaluate_grouped_refuted",
    "evaluate_page_refuted",
    "evaluate_frames_refuted",
    "evaluate_len_refuted",
    "evaluate_argument_refuted"
   ],
   "note": "Findings: what is inside the value of an expression gets the text of that expression with a suffix but no parentheses, which is another expression, and changing it may change another variable (evaluate_expression_refuted, evaluate_expression_change_refuted); keys such as inf and members of an IntEnum give texts which are not the key (evaluate_float_key_refuted, evaluate_enum_key_refuted); attributes found in __dict__ get their name without quotation marks as the key (evaluate_dict_refuted); attributes whose name is no identifier, attributes which raise, and the argument .0 of a generator expression get expressions which are not them (evaluate_attribute_refuted, evaluate_raising_refuted, evaluate_argument_refuted); a variable of the module hidden by one of the frame gets the expression of the other, and changing an item of it changes the other one's (evaluate_hidden_refuted); the groups of a frame have a text which is no expression, what is in a group or after the first page has none and cannot be changed (evaluate_group_refuted, evaluate_grouped_refuted, evaluate_page_refuted); an object of two frames is shown with the expressions of the one listed last (evaluate_frames_refuted); lengths when the program defines len (evaluate_len_refuted)."
  },
  {
   "property": "C64",
   "status": "proved",
   "theorems": [
    "jinja_breakpoint",
    "jinja_over",
    "jinja_walk",
    "jinja_over_out",
    "jinja_over_first",
    "jinja_into",
    "jinja_enter",
    "jinja_back",
    "jinja_variables",
    "jinja_loop_variable",
    "jinja_return",
    "jinja_set_variable",
    "jinja_set_variable_refuted",
    "jinja_over_refuted",
    "jinja_over_stale_refuted",
    "jinja_over_outer_refuted",
    "jinja_enter_refuted",
    "jinja_return_refuted",
    "jinja_variables_refuted",
    "jinja_variables_name_refuted",
    "jinja_variables_outer_refuted",
    "jinja_back_into"
   ],
   "note": "Findings: the first step over of a thread leaves a line out, and takes note of the wrong frame if another template is rendered there (jinja_over_first, jinja_over_refuted); after a step over and a continue the frame is never forgotten, so that in a later rendering step over never stops (jinja_over_stale_refuted); step over from the end of an included template is lost if the including one has no breakpoints (jinja_over_outer_refuted); a function of the program whose name begins with block_ is taken for a template and cannot be stepped into (jinja_enter_refuted); step return acts as continue (jinja_return, jinja_return_refuted); a variable of a template can never be changed (jinja_set_variable); a loop variable is not shown if its value is false, is shown under a cut name if its name has an underscore, and is shown with the outer value if the context has a variable of that name (jinja_variables_refuted, jinja_variables_name_refuted, jinja_variables_outer_refuted)."
  },
  {
   "property": "C67",
   "status": "proved",
   "theorems": [
    "unix_total",
    "unix_complete",
    "unix_only",
    "unix_keeps",
    "unix_none_stopped",
    "win_complete",
    "win_only",
    "terminate_requests",
    "terminate_keeps_waiting",
    "unix_numbers_ignored",
    "unix_keeps_refuted",
    "unix_orphan_refuted",
    "unix_late_refuted",
    "win_keeps_refuted"
   ],
   "note": "Findings. On Linux and macOS a process given to pydevd.add_dont_terminate_child_pid, which documents an int, is killed all the same: the listing compares texts (unix_numbers_ignored, unix_keeps_refuted; the test for it accepts that no process lives). A process whose parent ended before is not found (unix_orphan_refuted), nor one which the program starts after the last listing (unix_late_refuted). On Windows a process to be kept is killed if its parent is (win_keeps_refuted)."
  },
  {
   "property": "C68",
   "status": "proved",
   "theorems": [
    "offset_found",
    "future_split",
    "future_kept",
    "only_inserts",
    "lines_kept",
    "no_future",
    "no_future_first",
    "blank_after_refuted",
    "indented_comment_refuted",
    "bytes_refuted",
    "form_feed_refuted",
    "compound_refuted"
   ],
   "note": "Findings. A blank after the semicolon (from __future__ import a; print(1)) makes the new code a syntax error, two semicolons in a row (blank_after_refuted). So does an indented comment or a line of blanks after the import, the attaching code then starts on an indented line (indented_comment_refuted). With a character beyond ASCII before the import on its line the code is cut behind the end of the import, as ast counts bytes (bytes_refuted); with a form feed before it, at a wrong place, as splitlines counts more lines than ast (form_feed_refuted). Code whose first statement is a compound one (python -c with for i in range(3): ...) becomes a syntax error (compound_refuted)."
  },
  {
   "property": "C66",
   "status": "proved",
   "theorems": [
    "flow_stops",
    "flow_unhandled_once",
    "flow_unhandled_seen",
    "flow_first_raise_once",
    "trace_user",
    "trace_unhandled",
    "flow_raised_again_refuted",
    "flow_runpy_refuted",
    "flow_ignored_line_refuted",
    "flow_expression_once_refuted",
    "trace_with_refuted",
    "trace_breakpoint_refuted",
    "trace_except_line_refuted",
    "trace_first_frame_refuted",
    "trace_twice_refuted",
    "starter_exact",
    "trace_latest"
   ],
   "note": "Findings. Monitoring: the frame found for an exception object is kept, so the object raised again in a later callback of a thread not started by threading is not reported (flow_raised_again_refuted); an exception of code run through runpy is reported as unhandled although the caller catches it (flow_runpy_refuted); a line marked to be ignored hides an unhandled exception when user unhandled ones are asked for too (flow_ignored_line_refuted); the expression of a breakpoint is evaluated again when the exception leaves the frame (flow_expression_once_refuted). Tracing: exceptions handled by a with statement, by any handler in a function with a breakpoint, or on the line of the except, are reported as user unhandled (trace_with_refuted, trace_breakpoint_refuted, trace_except_line_refuted), or as unhandled in a first frame without caller (trace_first_frame_refuted); with both kinds of breakpoints it stops twice (trace_twice_refuted). With tracing, each stop for an exception leaving user code is for the last exception shown to that frame (trace_latest)."
  },
  {
   "property": "C69",
   "status": "proved",
   "theorems": [
    "dedent_exact",
    "dedent_nothing",
    "dedent_idem",
    "dedent_indented",
    "compiled_typed",
    "private_exact",
    "private_inside",
    "string_refuted",
    "continuation_refuted",
    "comment_refuted",
    "mark_refuted",
    "underscore_class_refuted",
    "inherited_refuted",
    "blank_private_refuted",
    "blanks_exact",
    "line_ends_exact",
    "private_only"
   ],
   "note": "Findings. The text of a string over several lines loses blanks (string_refuted). A line within parentheses or a comment with fewer blanks than the first line leaves all code indented, which is a syntax error (continuation_refuted, comment_refuted). @LINE@ in a string of the user becomes a newline (mark_refuted). Private attributes are not found for classes whose name starts with an underscore, which Python leaves out (underscore_class_refuted), for attributes of a base class (inherited_refuted), and with a blank before the expression (blank_private_refuted)."
  },
  {
   "property": "C70",
   "status": "proved",
   "theorems": [
    "choice_replaces",
    "names_offered",
    "attributes_offered",
    "no_line_offered",
    "typed_completed",
    "after_call_refuted",
    "class_twice_refuted",
    "past_end_refuted",
    "start_from_one_refuted",
    "utf16_refuted",
    "mark_in_name_refuted",
    "lower_length_refuted",
    "sigma_refuted"
   ],
   "note": "The client counts the characters of the line from 0. Findings. After a call, an index or a text followed by a dot the names of the frame are offered instead of attributes or nothing (after_call_refuted). __class__ is offered twice for every object (class_twice_refuted). With the cursor after the end of the line the items replace another place (past_end_refuted). start counts from 0 although column counts from 1, where the protocol has both counted alike (start_from_one_refuted), and both are counted in characters where the protocol has UTF-16 code units (utf16_refuted). Names with digits or marks beyond ASCII are cut there (mark_in_name_refuted). length is that of the lower case, which can be longer (lower_length_refuted), and a capital sigma at the end of what was typed hides names (sigma_refuted)."
  },
  {
   "property": "C72",
   "status": "proved",
   "theorems": [
    "stops_exact",
    "asked_kept",
    "text_marked_refuted",
    "same_time_refuted",
    "deleted_refuted",
    "restored_refuted",
    "created_refuted",
    "asked_early_refuted",
    "bar_refuted"
   ],
   "note": "A comment is what follows a number sign. Holds where files are neither created nor deleted and each change gives another size or time. Findings: a number sign in a text of the program counts as a comment (text_marked_refuted); a change which keeps size and time is not seen (same_time_refuted); a deleted file met under another name keeps its lines (deleted_refuted); a file put back as it was, with two names, keeps the lines of the version in between (restored_refuted); a file created after other code has read its source from a loader is not read (created_refuted); a line of a file which does not exist yet is asked for in vain (asked_early_refuted); a vertical bar in a name drops the rest of the command (bar_refuted)."
  },
  {
   "property": "C71",
   "status": "proved",
   "theorems": [
    "view_proper",
    "view_unhashable",
    "text_first",
    "text_steady",
    "text_no_provider",
    "failing_provider_refuted",
    "failing_later_refuted",
    "failing_question_refuted",
    "proxy_refuted",
    "text_not_asked",
    "text_question_fails"
   ],
   "note": "The first sentence holds where values which say to be of one class are instances of the same known classes; a value which says to be of another class than it is changes the view of all values of that class (proxy_refuted). The second sentence holds where the first extension for the class fails for none of its values, or there is none; in general the first text asked for settles the extension for the class (text_first). Findings: one failure of an extension for one value takes its texts away from all values of the class (failing_provider_refuted); the same failure later shows the repr instead of the usual text (failing_later_refuted); an extension which raises when asked about a class takes away the view of dictionaries of that class (failing_question_refuted)."
  },
  {
   "property": "C73",
   "status": "proved",
   "theorems": [
    "collected_exact",
    "code_infos_exact",
    "leaving_reported",
    "return_quiet",
    "report_exact",
    "no_source_reported",
    "one_line_refuted",
    "retry_refuted",
    "suppressed_refuted",
    "finally_return_refuted",
    "two_clauses_refuted",
    "finally_missed_refuted",
    "finally_again_refuted",
    "star_refuted",
    "star_inside_refuted"
   ],
   "note": "Holds for source with statements and clauses on lines of their own and no clauses with a star. An exception which leaves is reported where each try statement has one clause or one which takes everything, and finally is not mixed with except clauses (leaving_reported); a return is quiet where only except clauses take exceptions and the line of the return raised none before (return_quiet). Findings: a clause on one line with its body (one_line_refuted), a return from a line which raised before, as in a loop which tries again (retry_refuted), an exception swallowed by with (suppressed_refuted) or by return in finally (finally_return_refuted) are reported although nothing leaves; an exception which none of two clauses takes (two_clauses_refuted), or which leaves through a finally block (finally_missed_refuted, finally_again_refuted), is not reported; a clause with a star makes the visitor fail or count for the try statement around it (star_refuted, star_inside_refuted). Without a source all are reported (no_source_reported)."
  },
  {
   "property": "C74",
   "status": "proved",
   "theorems": [
    "no_key_error",
    "stopped_again",
    "quick_silent",
    "let_go",
    "overlap_refuted",
    "overlap_error_refuted",
    "overlap_forgotten_refuted",
    "continue_undone_refuted",
    "reason_lost_refuted"
   ],
   "note": "Proved for all interleavings in which the callback is not being run at the moment when the evaluation ends; stopped_again also needs that the client does not continue after that, let_go that no thread stops at a breakpoint while the threads are let go. Findings: the end of the evaluation does not wait for a callback which has begun (it takes another lock), so the client can be told last that the threads run while one is stopped (overlap_refuted), a KeyError is raised when it goes on (overlap_error_refuted), or the threads are let go and not stopped again (overlap_forgotten_refuted); a continue of the client during the evaluation is undone by its end (continue_undone_refuted); the reason of the stop becomes a breakpoint (reason_lost_refuted)."
  },
  {
   "property": "C76",
   "status": "proved",
   "theorems": [
    "detached_runs",
    "waiting_let_go",
    "new_session",
    "functions_kept_refuted",
    "late_mark_refuted"
   ],
   "note": "Proved if no function breakpoints were set and no thread is between finding that it has to stop and marking itself at the moment when the threads are resumed. Findings: function breakpoints are not removed, so that the program stops at one later and waits with no client (functions_kept_refuted); a thread which found a breakpoint just before marks itself, and in the mode with one notification all others, after the threads were resumed (late_mark_refuted)."
  },
  {
   "property": "C75",
   "status": "proved",
   "theorems": [
    "over_shows",
    "into_shows",
    "left_shows",
    "off_silent",
    "off_removed",
    "raised_refuted",
    "earlier_refuted",
    "same_name_refuted",
    "off_kept_refuted",
    "out_inside_refuted",
    "on_kept"
   ],
   "note": "Proved for functions which are no generators, whose returns the debugger sees (not filtered out), with both engines; when tracing, if no exception leaves a function called directly. Findings: when tracing a function left by an exception is shown as one which returned None (raised_refuted); values of earlier steps remain shown (earlier_refuted); of two functions with the same name only one value is shown (same_name_refuted); turning the option off removes the values only from the present frame and its caller, and with sys.monitoring from none (off_kept_refuted); stepping out with sys.monitoring records more values than when tracing, because a condition is a pair and so always true (out_inside_refuted)."
  },
  {
   "property": "C77",
   "status": "proved",
   "theorems": [
    "marks_found",
    "marks_fail",
    "marked_not_shown",
    "unmarked_shown",
    "unmarked_return",
    "off_shown",
    "last_command",
    "last_line_refuted",
    "neighbour_refuted",
    "added_late_refuted"
   ],
   "note": "Proved for files which were not changed since the last reload and in which something other than a decorator comes after each mark. Findings: a mark on the last line of a file makes the hook raise an IndexError at each event of a function of that file (last_line_refuted); a function right below a marked function of one line, or first inside a marked one, is skipped as well (neighbour_refuted); a mark added while the program runs has no effect without a reload through the debugger (added_late_refuted)."
  },
  {
   "property": "C78",
   "status": "proved",
   "theorems": [
    "script_started",
    "script_imports",
    "archive_started",
    "module_started",
    "module_imports",
    "missing_not_run",
    "argv_restored",
    "own_dir_refuted",
    "safe_path_refuted",
    "link_refuted",
    "dir_argv_refuted",
    "main_gone_refuted",
    "chdir_refuted"
   ],
   "note": "Proved for names which the debugger's own directory does not have (and, for an archive, the directory in which it lies), scripts which are not links and modules whose program does not change the current directory. Findings: the debugger's directory stays in sys.path before the program's libraries (own_dir_refuted); with -P or PYTHONSAFEPATH the first entry of PYTHONPATH is lost if the script lies below it (safe_path_refuted); a script which is a link does not find the modules beside its target (link_refuted); for a directory sys.argv[0] differs (dir_argv_refuted); after the last line of the script __main__ is another module, while threads may still run (main_gone_refuted); python -m searches in the directory of the start, the debugger in the current one (chdir_refuted)."
  },
  {
   "property": "C80",
   "status": "proved",
   "theorems": [
    "ids_distinct",
    "ids_stay",
    "child_distinct",
    "console_kept",
    "fork_stale_refuted",
    "never_freed_refuted"
   ],
   "note": "Findings: the ids of a new child process are the parent's until the debugger sees that it knows no thread and clears them (fork_stale_refuted); a thread whose id was asked for is never freed, for the whole life of the process (never_freed_refuted)."
  },
  {
   "property": "C79",
   "status": "proved",
   "theorems": [
    "program_same",
    "outside_seen",
    "accessor_skipped",
    "enabled_seen",
    "usual_same",
    "last_switches",
    "base_setter_refuted",
    "abstract_refuted",
    "nested_refuted",
    "turned_on_refuted",
    "three_parts_refuted",
    "last_given"
   ],
   "note": "Proved for properties whose decorators are applied to the property of the same name in the same class, and for accessors which use no other property. Findings: a subclass which adds a setter to an inherited property adds it to the base class (base_setter_refuted); abstract properties no longer are abstract (abstract_refuted); an accessor to be skipped which uses another property is traced from then on (nested_refuted); tracing is turned on in threads where it was off (turned_on_refuted); a command with three parts takes effect in part and fails (three_parts_refuted)."
  },
  {
   "property": "C81",
   "status": "proved",
   "theorems": [
    "message_kept",
    "message_only",
    "message_read",
    "ids_back",
    "ids_sent",
    "dap_wf",
    "read_as_named",
    "optional_arguments_refuted",
    "self_refuted",
    "empty_source_refuted",
    "null_item_refuted",
    "which_ids",
    "answer_class"
   ],
   "note": "Proved for JSON messages without null as id in the items of lists. dap_wf: the real classes satisfy the conditions of the general theorems. Findings: a breakpointLocations request without its optional arguments cannot be read (optional_arguments_refuted); a name self in a message makes it unreadable (self_refuted); a stack frame without source is sent with an empty source (empty_source_refuted); a null id of an item in a list is translated (null_item_refuted)."
  },
  {
   "property": "C82",
   "status": "proved",
   "theorems": [
    "matrix_shown",
    "row_shown",
    "column_shown",
    "vector_shown",
    "first_shown",
    "plane_shown",
    "frame_shown",
    "one_row_refuted",
    "one_cell_refuted",
    "small_refuted",
    "frame_edge_refuted"
   ],
   "note": "Proved for parts of at least two rows or which reach the last row. Findings: one row asked for of a table with more rows below is answered with a column (one_row_refuted), one number of such a table cannot be shown (one_cell_refuted), nor can a vector of one number when more are asked for or an empty array (small_refuted); a part of a data frame which reaches beyond its last column fails (frame_edge_refuted)."
  },
  {
   "property": "C83",
   "status": "proved",
   "theorems": [
    "run_start",
    "arguments_split",
    "modules_fresh",
    "modules_kept",
    "file_restored",
    "left_behind_refuted",
    "none_file_refuted",
    "alike_directory_refuted",
    "quotes_refuted"
   ],
   "note": "Findings: a program which raises leaves __file__ and sys.argv behind (left_behind_refuted); __file__ with value None is lost, and a program which deletes __file__ makes the call fail (none_file_refuted); a project in a directory whose name only begins like the one of the installation counts as installation and its modules stay (alike_directory_refuted); quotation marks do not keep arguments together (quotes_refuted)."
  },
  {
   "property": "C85",
   "status": "proved",
   "theorems": [
    "commands_whole",
    "answers_more",
    "interrupt_drops",
    "lines_never_lost",
    "several_refuted",
    "breaks_refuted",
    "late_refuted",
    "streams_back",
    "streams_seen",
    "unbuffered_kept",
    "hook_kept",
    "exit_passed",
    "hook_refuted",
    "original_hook_refuted",
    "help_refuted",
    "frame_commands_whole",
    "frames_apart",
    "frame_more",
    "messages_lines",
    "context_first",
    "print_refuted",
    "exit_refuted",
    "other_frame_refuted"
   ],
   "note": "Findings: several lines given at once which are wrong as one statement and unfinished as a program are given up in silence (several_refuted); a text on which compiling raises an error other than those of syntax is answered as done with but stays and spoils the next command (breaks_refuted); a late KeyboardInterrupt drops lines typed after the command it was meant for (late_refuted); a hook set before the first command is lost (hook_refuted) and one set by a command replaces sys.__excepthook__ (original_hook_refuted); help.input is not given back (help_refuted); print(1, 2) in the console of a frame becomes two messages (print_refuted); after SystemExit the next line is run together with the one which raised it (exit_refuted); unfinished lines of a frame are lost when another frame is used in between (other_frame_refuted)."
  },
  {
   "property": "C84",
   "status": "proved",
   "theorems": [
    "options_read",
    "options_first",
    "options_only",
    "config_read",
    "config_only",
    "tests_given",
    "names_keys",
    "short_options_refuted",
    "dash_refuted",
    "line_pair",
    "django_yes",
    "names_taken"
   ],
   "note": "Findings: all short options which the help text and the code name are refused, for no short options are given to gnu_getopt (short_options_refuted, proved for all of them); an argument which is a single dash is lost (dash_refuted)."
  },
  {
   "property": "C86",
   "status": "proved",
   "theorems": [
    "stack_told",
    "exception_told",
    "description_told",
    "source_told",
    "mode_told",
    "notice_agrees",
    "reason_told",
    "entry_once",
    "limit_refuted",
    "description_refuted",
    "text_refuted",
    "several_lines_refuted",
    "mapped_refuted",
    "chain_cut"
   ],
   "note": "Findings: with maxExceptionStackFrames the frames kept are the last of a list which begins with the innermost one, so the place where the exception was raised is left out (limit_refuted); an exception with an empty text is described with the text of its cause (description_refuted); one whose text raises has no stack trace, nor have its causes (text_refuted, chain_cut); of a statement of several lines the first line is missing and the line after it is added (several_lines_refuted), and with mapped paths it is looked for in the client's file (mapped_refuted)."
  },
  {
   "property": "C87",
   "status": "proved",
   "theorems": [
    "real_case_mac",
    "real_case_windows",
    "not_there_kept",
    "same_but_case",
    "root_refuted",
    "renamed_refuted",
    "refused_refuted"
   ],
   "note": "Findings: the root directory of the Mac becomes two separators (root_refuted); a file renamed to another case keeps the old one (renamed_refuted); a directory which may not be listed raises when the cache was too old, while otherwise the path is left as it is (refused_refuted). same_but_case assumes for Windows that upper case changes no lower case."
  }
 ]
}
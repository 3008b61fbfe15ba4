{"id": "C01", "title": "Incoming messages do not depend on how the network splits the bytes", "statement": "When a client sends a byte stream to the debugger, the sequence of messages the debugger dispatches (newline-framed commands and Content-Length framed JSON bodies, in any mix) depends only on the concatenated bytes, never on the sizes of the chunks in which the socket delivers them.", "quantifier": "for every byte stream in which no Content-Length header announces a number below -1, and every way of cutting it into non-empty chunks", "why_tests_cant": "A test can only try a few cuts of a few streams; header/body boundaries may fall anywhere in any chunk.", "anchors": ["_pydevd_bundle/pydevd_comm.py: ReaderThread._read, ReaderThread._read_line, ReaderThread._on_run"]}
{"id": "C02", "title": "A framed message arrives whole and unchanged", "statement": "Any sequence of messages framed the way the debugger frames them (Content-Length header plus body, or one line per command) is read back by the debugger's own reader as exactly that sequence, in order; nothing is merged, cut or dropped.", "quantifier": "for every list of message bodies with a positive length (arbitrary bytes for the header framing, bytes without newline for the line framing)", "why_tests_cant": "Bodies are arbitrary; a body may itself contain text that looks like a header or a newline.", "anchors": ["_pydevd_bundle/pydevd_net_command.py: NetCommand.__init__, NetCommand.send", "_pydevd_bundle/pydevd_comm.py: ReaderThread"]}
{"id": "C03", "title": "Generated sequence numbers are never reused", "statement": "Messages created by the debugger without an explicit sequence number get numbers that are pairwise different and strictly increasing in creation order, never 0; a response created with an explicit number keeps it and does not disturb the generated ones.", "quantifier": "for every history of message creations by any number of threads", "why_tests_cant": "Needs induction over unbounded histories.", "anchors": ["_pydevd_bundle/pydevd_net_command.py: NetCommand.__init__, NetCommand.next_seq"]}
{"id": "C04", "title": "Outgoing messages leave in the order they were queued", "statement": "Whatever the interleaving of threads queueing messages with the sender thread, the messages written to the socket are a prefix of the queued ones in queue order, each written at most once; after an exit message has been written nothing more is written.", "quantifier": "for every interleaving of enqueue, dequeue, send failure and kill steps", "why_tests_cant": "Schedules are unbounded and not reproducible in a test.", "anchors": ["_pydevd_bundle/pydevd_comm.py: WriterThread.add_command, WriterThread._on_run"]}
{"id": "C05", "title": "No command is obeyed before the client has authenticated", "statement": "When an access token is configured, no request other than the ones allowed before login is executed until a login with exactly that token has succeeded; a failed login or a logout revokes access; after ten failed logins in a row no further login succeeds before a logout.", "quantifier": "for every access token and every history of requests, logins and logouts", "why_tests_cant": "A gate must hold on every history, including those nobody thought of testing.", "anchors": ["pydevd.py: _Authentication", "_pydevd_bundle/pydevd_process_net_command.py: process_net_command", "_pydevd_bundle/pydevd_process_net_command_json.py: process_net_command_json"]}
{"id": "C06", "title": "The active line breakpoints are exactly those last set", "statement": "After any history of adding and removing line breakpoints, the lines at which a file stops are exactly the lines of the breakpoints added and not removed since; removing one breakpoint never disturbs another file, and of several breakpoints on one line the one whose id became active last decides.", "quantifier": "for every history of add, remove-one, remove-all-in-file and remove-all requests over any files, lines and ids, without source mapping, when the client always names a file the same way and uses an id for one type of breakpoint", "why_tests_cant": "Histories are unbounded; the store keeps four dictionaries that must stay consistent.", "anchors": ["_pydevd_bundle/pydevd_api.py: PyDevdAPI.add_breakpoint, remove_breakpoint, remove_all_breakpoints", "pydevd.py: PyDB.consolidate_breakpoints"]}
{"id": "C07", "title": "Hit counts are exact even when several threads hit the breakpoint", "statement": "A breakpoint's hit counter grows by one per hit, so a condition on the hit count is evaluated with the true ordinal of the hit; under every interleaving of threads the k-th hit sees k, and a condition 'hit count equals n' stops exactly once.", "quantifier": "for every number of threads, every interleaving and every n", "why_tests_cant": "Race conditions over all schedules.", "anchors": ["_pydevd_bundle/pydevd_breakpoints.py: LineBreakpoint.handle_hit_condition", "pydevd.py: PyDB.handle_breakpoint_condition"]}
{"id": "C08", "title": "The exception breakpoint chosen is the most specific one", "statement": "For a raised exception class the exception breakpoint used is the one registered for the class itself if there is one, otherwise one registered for a superclass such that no other registered breakpoint sits strictly between; if neither the class nor a superclass is registered none is used.", "quantifier": "for every class hierarchy and every set of registered breakpoints, in any registration order", "why_tests_cant": "Hierarchies and dictionary orders are arbitrary.", "anchors": ["_pydevd_bundle/pydevd_breakpoints.py: get_exception_breakpoint, ExceptionBreakpoint"]}
{"id": "C09", "title": "Path patterns match what their documentation says", "statement": "A path filter pattern with *, ?, [..] and ** matches a path exactly when the path can be cut into components such that each pattern component matches one component and each ** covers any number of whole components.", "quantifier": "for every pattern and every path", "why_tests_cant": "Two unbounded strings and a recursive matcher.", "anchors": ["_pydevd_bundle/pydevd_filtering.py: _check_matches, glob_matches_path"]}
{"id": "C10", "title": "Whether a file is user code is decided by the deepest configured root", "statement": "With project roots and library roots configured, a file is user code when it lies under a project root and under no library root at least as deep; a file under a library root and no project root is library code; the order in which roots are listed is irrelevant.", "quantifier": "for every set of roots and every file name", "why_tests_cant": "Infinite inputs; order independence cannot be enumerated.", "anchors": ["_pydevd_bundle/pydevd_filtering.py: FilesFiltering.in_project_roots, _fix_roots"]}
{"id": "C11", "title": "Filter decisions always reflect the current rules", "statement": "At every moment the answer to 'is this file filtered out' equals what the current rules, roots and settings prescribe, no matter which rules were in force and which files were queried before; among the rules the first matching one decides.", "quantifier": "for every sequential history of rule changes and queries in which removing template breakpoints clears the caches and a file, function name and first line determine the module", "why_tests_cant": "Staleness of caches depends on the whole history.", "anchors": ["pydevd.py: PyDB._exclude_by_filter, apply_files_filter, set_project_roots, set_exclude_filters, set_use_libraries_filter, _clear_caches", "_pydevd_bundle/pydevd_filtering.py: FilesFiltering.exclude_by_filter, set_exclude_filters"]}
{"id": "C12", "title": "The text shown for a value is bounded whatever the value", "statement": "The representation computed for a variable is bounded by a fixed constant determined by the configured limits, for arbitrarily large, arbitrarily deeply nested values; a value with fewer items and characters than the limits and without empty sets or nested empty lists is shown exactly as Python's repr; a cut text shows its beginning and end.", "quantifier": "for every finite nested value built from collections, dictionaries, strings and opaque objects", "why_tests_cant": "Values are unbounded in size and depth.", "anchors": ["_pydevd_bundle/pydevd_safe_repr.py: SafeRepr"]}
{"id": "C13", "title": "Variable references live exactly as long as the suspension", "statement": "While a thread is suspended every frame and variable reference handed to the client resolves to the object it was created for, two different live objects never share a reference, and after the thread is resumed none of the references handed out for it resolves any more while those of other threads still do.", "quantifier": "for every history of suspending, expanding variables and resuming over any threads, in which each frame and thread belongs to one suspension at a time", "why_tests_cant": "Lifetime over unbounded histories.", "anchors": ["_pydevd_bundle/pydevd_suspended_frames.py: _FramesTracker, SuspendedFramesManager"]}
{"id": "C14", "title": "Ids sent to the client translate back to the same thing", "statement": "Ids translated for the debug adapter protocol translate back to the original id; two different ids never share a translation; the translation of an id never changes; frame and breakpoint id maps hand out the same number for the same key and different numbers for different keys.", "quantifier": "for every history of translations that do not overlap in time; that different ids never share a translation holds for every interleaving of threads", "why_tests_cant": "Unbounded histories.", "anchors": ["_pydevd_bundle/_debug_adapter/pydevd_base_schema.py: _translate_id_to_dap, _translate_id_from_dap", "_pydevd_bundle/pydevd_process_net_command_json.py: IDMap"]}
{"id": "C15", "title": "A timeout callback runs at most once and never too early", "statement": "A callback registered to run after a timeout is called at most once, never before its timeout has elapsed, and not at all when the guarded block ended before the timer examined it.", "quantifier": "for every interleaving of registrations, ends of blocks and timer wake-ups at any clock values", "why_tests_cant": "Timing-dependent; all schedules and clock values.", "anchors": ["_pydevd_bundle/pydevd_timeout.py: _TimeoutThread.process_handles, _OnTimeoutHandle, TimeoutTracker.call_on_timeout"]}
{"id": "C16", "title": "Every internal command is run exactly once, in order, or still pending", "statement": "Commands posted for a thread are executed by that thread at most once and in the order posted; a command that cannot run yet stays queued; none is lost or duplicated; a command addressed to any thread is executed by exactly one.", "quantifier": "for every interleaving of posts and of threads processing their queues; the order for threads that do not stop again inside a command; nothing is lost provided deciding whether a command can run does not raise", "why_tests_cant": "All schedules and histories.", "anchors": ["pydevd.py: PyDB.post_internal_command, PyDB.process_internal_commands, get_internal_queue_and_event", "_pydevd_bundle/pydevd_comm.py: InternalThreadCommandForAnyThread"]}
{"id": "C17", "title": "Stopped and continued notifications alternate properly", "statement": "With single notifications, the client never receives two consecutive 'continued' events without a 'stopped' in between, never a 'continued' before the first 'stopped', and once no thread is suspended every 'stopped' has been followed by a 'continued'.", "quantifier": "for every history of threads suspending, resuming and pausing", "why_tests_cant": "Interleavings of any number of threads.", "anchors": ["pydevd.py: AbstractSingleNotificationBehavior, ThreadsSuspendedSingleNotification"]}
{"id": "C18", "title": "Each thread is announced once and its exit reported once", "statement": "For each thread the client gets a 'started' event before its 'exited' event, never two 'started' without an 'exited' in between, and never an 'exited' for a thread that was not announced.", "quantifier": "for every history of thread start and exit observations within a session between two enablings of the notifications, when each event is sent before the next observation; the numbers of events balance for every interleaving", "why_tests_cant": "Unbounded histories.", "anchors": ["pydevd.py: PyDB.notify_thread_created, notify_thread_not_alive, set_enable_thread_notifications"]}
{"id": "C19", "title": "Grouping variables loses and duplicates nothing", "statement": "When variables are grouped into special, function, class and protected groups for display, every variable appears exactly once, either inline or in the one group its name or kind prescribes, and the relative order is kept.", "quantifier": "for every list of variables and every grouping configuration", "why_tests_cant": "Arbitrary lists.", "anchors": ["_pydevd_bundle/pydevd_suspended_frames.py: _AbstractVariable._group_entries", "_pydevd_bundle/pydevd_resolver.py: get_var_scope"]}
{"id": "C20", "title": "A hit condition means what the user typed", "statement": "A hit condition typed by the user (a number, or an operator ==, >, >=, <, <=, % followed by a number) stops on exactly those hits whose ordinal satisfies it.", "quantifier": "for every operator, every number without leading zeros and every hit ordinal", "why_tests_cant": "Infinitely many numbers and ordinals.", "anchors": ["_pydevd_bundle/pydevd_process_net_command_json.py: PyDevJsonCommandProcessor._get_hit_condition_expression", "_pydevd_bundle/pydevd_breakpoints.py: LineBreakpoint.handle_hit_condition"]}
{"id": "C21", "title": "A log point prints the message as written", "statement": "A log message with {expression} placeholders is turned into an expression which, evaluated, yields the message with each placeholder replaced by its value and every other character unchanged; a message whose braces do not balance is reported as such.", "quantifier": "for every message and all values of the expressions, when each placeholder is a single expression and there is no placeholder or no percent sign in the text", "why_tests_cant": "Arbitrary text, including braces, quotes and percent signs.", "anchors": ["_pydevd_bundle/pydevd_utils.py: convert_dap_log_message_to_expression, _extract_expression_list, _extract_variable_nested_braces"]}
{"id": "C22", "title": "A file name translated to the other machine comes back unchanged", "statement": "With local/remote path mappings configured, translating a server file name to the client and back gives the same file, and translating a mapped client file name to the server lands under the corresponding server root with the same relative path.", "quantifier": "for every set of mappings of plain absolute roots, none inside another, all histories of translations and configuration changes, and every file name under a mapped root (without the other system's separator in it)", "why_tests_cant": "Arbitrary names and roots; caches depend on the history of queries.", "anchors": ["pydevd_file_utils.py: setup_client_server_paths, _map_file_to_server, _map_file_to_client"]}
{"id": "C23", "title": "A source reference always denotes one file", "statement": "Source references handed to the client are non-zero and pairwise distinct, each keeps denoting the file or frame for which it was created, and the reference reported for a file's client name denotes a file with that name (none if a path mapping applied).", "quantifier": "for every interleaving of reference creations in any number of threads, as long as the path mappings are not changed after the first reference; the reference of a name when no thread is in the middle of a translation", "why_tests_cant": "Unbounded histories.", "anchors": ["pydevd_file_utils.py: _next_source_reference, create_source_reference_for_linecache, create_source_reference_for_frame_id, get_server_filename_from_source_reference, setup_client_server_paths"]}
{"id": "C24", "title": "Quoted Windows command lines keep every argument", "statement": "A list of arguments quoted for a Windows command line and parsed again by the debugger's own splitter gives the same list.", "quantifier": "for every list of arguments, none of them ending in a backslash and a newline, and the last not an argument needing no quotes that ends in a backslash", "why_tests_cant": "Arbitrary quotes, backslashes and spaces.", "anchors": ["_pydev_bundle/pydev_monkey.py: quote_arg_win32, str_to_args_windows"]}
{"id": "C25", "title": "Launching a subprocess under the debugger keeps the program's own arguments", "statement": "When a Python subprocess command line is rewritten so that the child is debugged, the program to run and all arguments after it reach the child unchanged and in order, interpreter options keep their place before the program, and a command line that does not start a Python program is returned unchanged.", "quantifier": "for every argument list made of interpreter options, a program (file, -m module or -c code, or bundled) and its arguments; on Windows arguments without quotes of their own around them", "why_tests_cant": "Arbitrary argument lists.", "anchors": ["_pydev_bundle/pydev_monkey.py: patch_args, remove_quotes_from_args, is_python"]}
{"id": "C26", "title": "Debugger settings survive being passed on a command line", "statement": "The options turned into command-line arguments for a child process are parsed back to the same values, together with the program and its arguments, the child uses the parent's protocol, and parsing a command line terminates.", "quantifier": "for every settings table with values of the options' types, every set of omitted names, program and argument list; termination for every command line without the deprecated --DEBUG; the protocol unless the parent itself was started with --protocol-http", "why_tests_cant": "Arbitrary values, including values that look like options.", "anchors": ["_pydevd_bundle/pydevd_command_line_handling.py: setup_to_argv, process_command_line, ArgHandlerWithParam, ArgHandlerBool"]}
{"id": "C27", "title": "Output redirection is undone completely", "statement": "After every redirection of the standard output has been ended the program writes to the original stream again, and while redirected every character written reaches both the original stream and the redirection, in order.", "quantifier": "for every nesting of redirections, blocks whose output is sent to the client and replacements by the program; for every interleaving of writes of any number of threads", "why_tests_cant": "All interleavings of two independent mechanisms sharing a stack.", "anchors": ["_pydevd_bundle/pydevd_io.py: start_redirect, end_redirect, redirect_stream_to_pydb_io_messages, stop_redirect_stream_to_pydb_io_messages, IORedirector"]}
{"id": "C28", "title": "Expanding a long list shows each item exactly once", "statement": "Expanding a sequence in the variables view, following the 'more' entries, shows every item exactly once, in order, under distinct names and with the index expression that evaluates to it; no page is longer than configured; a name shown leads back to the object shown.", "quantifier": "for every sequence, format and limit settings of at least one", "why_tests_cant": "All lengths and limits.", "anchors": ["_pydevd_bundle/pydevd_resolver.py: TupleResolver.get_contents_debug_adapter_protocol, MoreItems, MoreItemsRange"]}
{"id": "C29", "title": "Breakpoints in mapped cells hit the right line", "statement": "With source mappings installed, translating a client line to the runtime file and back gives the client file and line again, for lines inside a mapped cell; a line outside every cell is left alone.", "quantifier": "for every history of installing mappings whose cells do not overlap and have runtime sources of their own, refused requests and lookups; every file and line", "why_tests_cant": "Arbitrary mappings and histories, cached answers.", "anchors": ["_pydevd_bundle/pydevd_source_mapping.py: SourceMappingEntry, SourceMapping"]}
{"id": "C30", "title": "Template breakpoints move to the closest valid line before", "statement": "A breakpoint set in a template is, once the template is rendered, reported on its own line when that line can stop; otherwise it is moved to the closest valid line before it and reported there, or marked invalid when there is none or another breakpoint is there; the valid lines where the debugger stops do not depend on the order of the breakpoints; rendering again reports nothing new.", "quantifier": "for every finite set of valid lines and every history of setting and removing breakpoints on lines of their own before the first rendering; for breakpoints on valid lines, every history as long as the template does not change", "why_tests_cant": "Arbitrary sets.", "anchors": ["pydevd_plugins/pydevd_line_validation.py: ValidationInfo._verify_breakpoints_with_lines_collected"]}
{"id": "C31", "title": "Stepping stops where the user expects", "statement": "After 'continue' a thread stops only at breakpoints. After 'step over' in a function, and while its frame is there, the thread stops only at lines of that frame and at breakpoints, and the next line executed in that frame stops it; once the frame has returned, the next line executed in debugged code stops it. After 'step return' the thread stops only at breakpoints until the frame waited for returns, and that return stops it, showing the caller; the frame waited for is the first one, from the frame shown on, whose caller is not filtered out, and without one the command acts as continue.", "quantifier": "for every sequence of calls, lines, returns, yields and exceptions of one thread, every history of commands, pauses and breakpoint changes before and every breakpoint changes meanwhile, with the stepped frame that of a function (not a generator or coroutine) which is still running, code neither filtered out nor excluded by @DontTrace where a stop is claimed, and no plugins, exception stops or smart step into", "why_tests_cant": "All executions of all programs.", "anchors": ["_pydevd_bundle/pydevd_frame.py: PyDBFrame.trace_dispatch", "pydevd.py: PyDB._do_wait_suspend"]}
{"id": "C32", "title": "A breakpoint is never skipped because of a cached decision", "statement": "When a line with a breakpoint whose condition holds is executed in debugged code, the thread stops there; and when a function with such a function breakpoint is called, the thread stops there; whatever was executed, cached, stepped and whatever breakpoints were set or removed before.", "quantifier": "for every history of events of one thread, commands, pauses and breakpoint changes, where a breakpoint change does not happen within a call of the tracing function, and code which is neither of a library nor filtered out", "why_tests_cant": "Cache coherence over all histories.", "anchors": ["_pydevd_bundle/pydevd_frame.py: PyDBFrame.trace_dispatch", "pydevd.py: PyDB.on_breakpoints_changed"]}
{"id": "C33", "title": "Resuming updates the set of stepping threads and wakes at most one thread", "statement": "When a thread is resumed or stepped, the set of stepping threads afterwards is exactly the known threads that are not dead and are stepping; at most one thread's wake-up event is signalled, and it is that of the resumed thread when no other live thread is known.", "quantifier": "for every history of threads becoming known, changing state and being resumed, and every iteration order of the sets, for threads that stay dead once dead", "why_tests_cant": "Set iteration order and thread population are arbitrary.", "anchors": ["_pydevd_bundle/pydevd_additional_thread_info_regular.py: _update_stepping_info, any_thread_stepping, _get_related_thread"]}
{"id": "C34", "title": "Stack trace pages put together give the whole stack", "statement": "Requesting a stack trace page by page with a positive page size yields, put together, exactly the frames of the unpaged request, and the reported total is the number of visible frames.", "quantifier": "for every stack, every non-negative starting frame and every positive page size", "why_tests_cant": "All stacks and page sizes.", "anchors": ["_pydevd_bundle/pydevd_net_command_factory_json.py: NetCommandFactoryJson.make_get_thread_stack_message"]}
{"id": "C35", "title": "A set-breakpoint command is decoded as it was written", "statement": "The text form of a set-breakpoint command, in each of its lengths, decodes to exactly the id, type, file, line, function, condition, expression, hit condition, log point flag and suspend policy the client wrote, with escaped new lines and tabs of the condition and the expression restored, blanks around them removed, and empty texts and None taken as absent; a remove command decodes to the type, file and id written.", "quantifier": "for all numbers and all texts without tabs, and all conditions and expressions with no at sign and not containing NEW_LINE_CHAR", "why_tests_cant": "Arbitrary text fields.", "anchors": ["_pydevd_bundle/pydevd_process_net_command.py: _PyDevCommandProcessor.cmd_set_break"]}
{"id": "C36", "title": "Extra frames shown for a suspended thread are gone when it resumes", "statement": "While one thread is suspended, the client shows exactly the extra frames which belonged to it when it stopped, and none of them after it resumed.", "quantifier": "for every history of adding, updating and removing extra frames and of threads stopping and resuming; exactly these frames are shown if one thread is suspended at a time, and those of the resumed thread are gone in every history", "why_tests_cant": "Arbitrary populations.", "anchors": ["pydevd.py: PyDB.do_wait_suspend", "_pydevd_bundle/pydevd_custom_frames.py: add_custom_frame, update_custom_frame, remove_custom_frame"]}
{"id": "C37", "title": "A killed reader dispatches nothing more", "statement": "Once the debugger has asked its reader to stop, no message that arrives afterwards is dispatched, whatever the client still sends and however it is split.", "quantifier": "for every byte stream and every split, received after the stop request", "why_tests_cant": "The client may send anything at any moment during shutdown.", "anchors": ["_pydevd_bundle/pydevd_comm.py: ReaderThread._on_run, ReaderThread.do_kill_pydev_thread"]}
{"id": "C38", "title": "Setting the breakpoints of a file replaces exactly the breakpoints of that file", "statement": "After a setBreakpoints request for a file, the lines at which that file stops are exactly those of the breakpoints listed in the request (the last one listed decides for a line), whatever was set before; the breakpoints of every other file are unchanged.", "quantifier": "for every history of setBreakpoints requests for Python files, each file named the same way in all of them, and every new request", "why_tests_cant": "Histories are unbounded; stale entries could survive in any of four tables.", "anchors": ["_pydevd_bundle/pydevd_process_net_command_json.py: PyDevJsonCommandProcessor.on_setbreakpoints_request", "_pydevd_bundle/pydevd_api.py: PyDevdAPI.add_breakpoint, remove_all_breakpoints, reapply_breakpoints"]}
{"id": "C39", "title": "The exception breakpoints in force are those last requested", "statement": "After any history of adding, removing and clearing exception breakpoints, the breakpoints used for raised, unhandled and user-unhandled exceptions are exactly those requested for that purpose and not removed since; the latest request for a name and purpose wins.", "quantifier": "for every history of requests of both protocols", "why_tests_cant": "Histories are unbounded.", "anchors": ["pydevd.py: PyDB.add_break_on_exception", "_pydevd_bundle/pydevd_api.py: PyDevdAPI.add_python_exception_breakpoint, remove_python_exception_breakpoint, remove_all_exception_breakpoints"]}
{"id": "C40", "title": "The debugger stops on exceptions exactly as the exception filters ask", "statement": "After a setExceptionBreakpoints request, whatever was set before, the debugger stops when an exception is raised exactly if the request asks for raised exceptions of that class or a superclass and the event is not filtered out (control flow, library code, exclude filters); for an exception that ends a thread it stops exactly if unhandled exceptions were asked for, at the innermost frame that is not filtered.", "quantifier": "for every history, request, class hierarchy and traceback", "why_tests_cant": "Hierarchies, requests and tracebacks are arbitrary.", "anchors": ["_pydevd_bundle/pydevd_process_net_command_json.py: PyDevJsonCommandProcessor.on_setexceptionbreakpoints_request", "_pydevd_bundle/pydevd_frame.py: should_stop_on_exception", "_pydevd_bundle/pydevd_breakpoints.py: stop_on_unhandled_exception", "pydevd.py: PyDB.exclude_exception_by_filter"]}
{"id": "C41", "title": "The most specific include or exclude rule decides", "statement": "With include/exclude rules for paths and modules, among the plain file and directory rules covering a file the longest decides (a directory rule counting as its name followed by a separator and two stars), otherwise the first covering glob in the order given, otherwise the longest covering module rule; a directory rule covers everything below it and a module rule the module and its submodules; with no covering rule there is no decision.", "quantifier": "for every list of rules, every file and every module name", "why_tests_cant": "Rule lists, paths and module names are unbounded and interact through ordering.", "anchors": ["_pydevd_bundle/pydevd_process_net_command_json.py: _convert_rules_to_exclude_filters", "_pydevd_bundle/pydevd_filtering.py: FilesFiltering.exclude_by_filter, glob_matches_path"]}
{"id": "C42", "title": "Dictionary and set views are complete up to their limit", "statement": "Expanding a dictionary or set shows its first entries up to the limit, in order, under distinct names, with a note exactly when the limit is reached; an expression shown indexes the dictionary with the entry's key; a name shown by the XML protocol leads back to the value.", "quantifier": "for every dictionary, representation function and limit of at least one; distinct names if no key's representation looks like another's with its identity appended", "why_tests_cant": "representations, identities and sizes are unbounded; collisions are rare and depend on user types", "anchors": ["_pydevd_bundle/pydevd_resolver.py: DictResolver, SetResolver"]}
{"id": "C43", "title": "Paused greenlets are shown with their thread", "statement": "With gevent support the extra frames are exactly the greenlets which were switched from and can go on, each once, with its frame, name and thread; a greenlet switched to is not shown any more and running greenlets are never shown.", "quantifier": "for every interleaving of the greenlet switches of all threads in which each switch goes from the running greenlet of a thread to one of the same thread", "why_tests_cant": "All interleavings of switches in all threads.", "anchors": ["_pydevd_bundle/pydevd_gevent_integration.py: greenlet_events", "_pydevd_bundle/pydevd_custom_frames.py: add_custom_frame, update_custom_frame, remove_custom_frame"]}
{"id": "C44", "title": "The stack shown for an exception is the one it was raised in", "statement": "When the debugger stops for an exception, the frames shown are the call stack of the frame it stops in (of the raising frame for unhandled exceptions), innermost first, each with the line of the traceback or, outside of the traceback, its current line; below them come the exceptions it was caused by or raised while handling, one after the other and none twice, each with the frames and lines of its traceback.", "quantifier": "for every traceback of frames which call each other and differ from each other, every graph of causes and contexts including cyclic ones", "why_tests_cant": "All tracebacks and exception graphs.", "anchors": ["_pydevd_bundle/pydevd_frame_utils.py: create_frames_list_from_traceback, create_frames_list_from_exception_cause", "_pydevd_bundle/pydevd_net_command_factory_xml.py: _iter_visible_frames_info"]}
{"id": "C45", "title": "The reported column is that of the character", "statement": "For a frame of an exception whose position in its line is known, the reported columns are the numbers of the characters where the code starts and ends, or of its interesting part, counted from 1, whatever characters precede it.", "quantifier": "for every line of text, all positions of characters in it and every choice of the interesting part", "why_tests_cant": "All Unicode texts.", "anchors": ["_pydevd_bundle/pydevd_frame_utils.py: _utf8_byte_offset_to_character_offset, _LineColInfo.map_columns_to_line", "_pydevd_bundle/pydevd_net_command_factory_json.py: NetCommandFactoryJson.make_get_thread_stack_message"]}
{"id": "C46", "title": "Every module is announced once", "statement": "A file seen in stack traces is announced as a module at most once and with an id of its own; once all requested stack traces are answered, every file in them was announced, before its stack trace when requests are handled one after the other.", "quantifier": "for every interleaving of threads building stack traces and all lists of files", "why_tests_cant": "All interleavings.", "anchors": ["_pydevd_bundle/pydevd_net_command_factory_json.py: ModulesManager.track_module, NetCommandFactoryJson.make_get_thread_stack_message"]}
{"id": "C47", "title": "A command to stop at exceptions is decoded as it was written", "statement": "The text form of a command to stop at an exception, in each of its three lengths, decodes to the exception, condition, expression and the kinds of exceptions the client wrote; a plugin's exception is told by the type before the dash, when setting and when removing it.", "quantifier": "for all numbers, all names without tabs and dashes, and all conditions and expressions with no at sign and not containing NEW_LINE_CHAR", "why_tests_cant": "Arbitrary text fields.", "anchors": ["_pydevd_bundle/pydevd_process_net_command.py: _PyDevCommandProcessor.cmd_add_exception_break, cmd_remove_exception_break"]}
{"id": "C48", "title": "Step into and pause stop at the next line of the user's code", "statement": "After 'step into' given in a function or generator, the next line executed in debugged code stops the thread, in whatever function; a stop that ends a step into always shows a frame that is neither filtered out nor excluded by @DontTrace. A thread told to pause stops at the next line executed in debugged code.", "quantifier": "for every sequence of events of one thread and every history of commands and breakpoint changes before; for step into, code not excluded by @DontTrace", "why_tests_cant": "All executions of all programs, and all states of the caches.", "anchors": ["_pydevd_bundle/pydevd_frame.py: PyDBFrame.trace_dispatch", "pydevd.py: PyDB._do_wait_suspend, set_trace_for_frame_and_parents", "_pydevd_bundle/pydevd_thread_lifecycle.py: mark_thread_suspended"]}
{"id": "C49", "title": "With sys.monitoring a breakpoint stops every thread which reaches it, and nothing else is reported as a breakpoint", "statement": "In Python 3.12 and later, whatever the threads of the program have done before and whenever breakpoints were added or removed, a thread reaching a line with an enabled breakpoint which is to stop, or calling a function with such a function breakpoint, in code which is debugged, stops there; and a stop is reported as one at a breakpoint only when such a breakpoint is in force.", "quantifier": "for every program behaviour of any number of threads, interleaved in any way, with any breakpoint changes, steps, pauses and continues in between", "why_tests_cant": "Events are switched off location by location to make the program fast; whether one is missed depends on the history of all threads, of which tests see few.", "anchors": ["_pydevd_sys_monitoring/_pydevd_sys_monitoring.py: _get_func_code_info, enable_code_tracing, _enable_code_tracing, _enable_step_tracing, _start_method_event, _line_event, _internal_line_event, _return_event, _stop_on_return, update_monitor_events, restart_events", "pydevd.py: PyDB.set_suspend, PyDB._do_wait_suspend, PyDB.on_breakpoints_changed, PyDB.set_trace_for_frame_and_parents", "_pydevd_bundle/pydevd_thread_lifecycle.py: mark_thread_suspended, internal_run_thread, suspend_all_threads", "_pydevd_bundle/pydevd_additional_thread_info_regular.py: any_thread_stepping"]}
{"id": "C50", "title": "With sys.monitoring steps and pauses stop where they should, and a continued thread only stops at breakpoints and exceptions", "statement": "In Python 3.12 and later, a step over stops at the next line of the frame, or in the caller when the frame returns, and nowhere else but at breakpoints and exceptions; a step into stops at the next line of debugged code, or in the caller; a step out stops in the first caller not filtered out; a pause stops each paused thread at its next line of debugged code; a continued thread stops only at breakpoints and exceptions. Other threads do not interfere.", "quantifier": "for every reachable stop, every command and every behaviour of any number of threads after it, interleaved in any way", "why_tests_cant": "A thread switching off events for a code object affects all the others; whether a step of another thread is lost that way depends on the interleaving.", "anchors": ["_pydevd_sys_monitoring/_pydevd_sys_monitoring.py: _get_func_code_info, enable_code_tracing, _enable_code_tracing, _enable_step_tracing, _start_method_event, _line_event, _internal_line_event, _return_event, _stop_on_return, update_monitor_events, restart_events", "pydevd.py: PyDB.set_suspend, PyDB._do_wait_suspend, PyDB.on_breakpoints_changed, PyDB.set_trace_for_frame_and_parents", "_pydevd_bundle/pydevd_thread_lifecycle.py: mark_thread_suspended, internal_run_thread, suspend_all_threads", "_pydevd_bundle/pydevd_additional_thread_info_regular.py: any_thread_stepping"]}
{"id": "C51", "title": "Every request of the debug adapter protocol is answered once", "statement": "Each request the client sends is answered by at most one response, which carries its number and its command; every response is to a request that was made. Requests which do not need the program are answered before the next one is read; those for a stopped thread are answered by that thread in the order they were sent; a continue, when stops are announced for all threads together, when the client is told that the threads go on. A refused or unreadable request gets one failure. Requests which are never answered are exactly those listed (unsupported commands, requests which end the session, a goto whose thread is gone or told to run, code raising inside an evaluation, completions of a frame which is gone).", "quantifier": "for every sequence of messages of the client and every interleaving with threads starting, stopping, answering and going on", "why_tests_cant": "Whether an answer is lost or given twice depends on the order in which threads stop, resume and end between the request and the answer.", "anchors": ["_pydevd_bundle/pydevd_process_net_command_json.py: PyDevJsonCommandProcessor.process_net_command_json and every on_*_request", "_pydevd_bundle/pydevd_comm.py: ReaderThread._on_run, internal_get_variable_json, internal_change_variable_json, internal_evaluate_expression_json, internal_set_expression_json, internal_get_completions, internal_get_step_in_targets_json, internal_get_exception_details_json, InternalGetThreadStack, InternalSetNextStatementThread", "pydevd.py: PyDB.post_internal_command, PyDB.process_internal_commands, PyDB._do_wait_suspend, ThreadsSuspendedSingleNotification", "_pydevd_bundle/_debug_adapter/pydevd_base_schema.py: BaseSchema"]}
{"id": "C52", "title": "Every change of a watched file is reported once, and nothing else is", "statement": "Each round of watching reports, for each path, exactly the difference between what was there in the round before (or when the paths were set) and what is there now: added, modified (time or size differ), deleted, or nothing; no path twice. A file counts if it is reached from a watched path through accepted directories not deeper than the maximum and its name is accepted. Whoever follows the reports knows which files there are. Code is reloaded once for each round in which the status of a file differs, only for files which an include pattern matches.", "quantifier": "for every set of watched paths, every sequence of contents of the file system, every order in which directories are listed and paths are visited, and every choice of accepted names", "why_tests_cant": "Files are compared over pairs of directory trees: duplicates and losses depend on nesting, on the order of listings and on what happened in earlier rounds.", "anchors": ["_pydev_bundle/fsnotify/__init__.py: Watcher.set_tracked_paths, Watcher.iter_changes, _PathWatcher._check_dir", "_pydevd_bundle/pydevd_comm.py: FSNotifyThread._on_run", "pydevd.py: PyDB.setup_auto_reload_watcher"]}
{"id": "C53", "title": "Stepping into a chosen call stops in that call", "statement": "The targets offered for a step into are the calls still to be made by the code of the frame (at most fifteen when there are no inner codes), in order, each under its source text and with the number of the call when the text appears again; no two labels are equal. After one is chosen, the thread stops at the first line of the function called at that call, whatever was called before, and stops nowhere else, except when the frame returns without having made the call, where it always stops. The same holds for a call made by a comprehension, generator or lambda within the code, through the frame of the latter.", "quantifier": "for every code with its calls, every position of the frame, every target, every sequence of calls, lines, returns and generator pauses, with sys.settrace and with sys.monitoring", "why_tests_cant": "Which call is meant is found from the offset of an instruction among those of all the calls: tests try a few codes, the claim ranges over all arrangements of calls and over everything the calls passed over may do.", "anchors": ["_pydevd_bundle/pydevd_bytecode_utils_py311.py: _get_smart_step_into_targets, calculate_smart_step_into_variants", "_pydevd_bundle/pydevd_bytecode_utils.py: _convert_target_to_variant, get_smart_step_into_variant_from_frame_offset", "_pydevd_bundle/pydevd_comm.py: internal_get_step_in_targets_json, internal_get_smart_step_into_variants, internal_smart_step_into", "_pydevd_bundle/pydevd_process_net_command_json.py: on_stepin_request", "_pydevd_bundle/pydevd_frame.py: PyDBFrame.trace_dispatch (CMD_SMART_STEP_INTO)", "_pydevd_sys_monitoring/_pydevd_sys_monitoring.py: _internal_line_event, _return_event (CMD_SMART_STEP_INTO)"]}
{"id": "C54", "title": "Changing a variable changes that variable and nothing else", "statement": "When the client sets a variable of a frame to an expression, the program afterwards finds the value of the expression in that variable, every other variable and every global is as before, and the answer is that value; when it sets a global, that global and nothing else changes; when the expression raises or there is no such global, nothing changes. The command of the line protocol is read as it was written, and changing an item of a set replaces it and no other.", "quantifier": "for every frame of a function, module or class body, every variable bound or not, every expression and every state of the program, in Python before and from 3.13", "why_tests_cant": "Locals are copied between the slots of the frame and a dictionary, in different ways per version: tests see a few frames, the claim is about every other variable of every frame.", "anchors": ["_pydevd_bundle/pydevd_vars.py: change_attr_expression", "_pydevd_bundle/pydevd_save_locals.py: save_locals, make_save_locals_impl", "_pydevd_bundle/pydevd_suspended_frames.py: _FrameVariable.change_variable, _ObjectVariable.change_variable", "_pydevd_bundle/pydevd_resolver.py: SetResolver.change_var_from_name", "_pydevd_bundle/pydevd_comm.py: internal_change_variable, internal_change_variable_json", "_pydevd_bundle/pydevd_process_net_command.py: cmd_change_variable"]}
{"id": "C55", "title": "What is assigned in the debug console is what the program and the next evaluations see", "statement": "After statements were run in the console, or an expression was evaluated, in a suspended frame, the program finds in each of its variables what the code assigned to it, also when the code raised later on; the variables it did not assign, and the globals of a function, are as before; the next evaluation finds every name, new ones included, as the code left it, so that a sequence of evaluations is as if the codes were run one after the other in one namespace. In a module the globals are exactly what the code left. An expression which raises changes nothing.", "quantifier": "for every frame, every code given as a function of the namespace, every sequence of them, in Python before and from 3.13", "why_tests_cant": "The code runs in a merged copy, and the differences are written back by identity: tests run chosen snippets, the claim is about all codes, all frames and all sequences.", "anchors": ["_pydevd_bundle/pydevd_vars.py: evaluate_expression", "_pydevd_bundle/pydevd_save_locals.py: update_globals_and_locals, save_locals"]}
{"id": "C56", "title": "Reloading a module gives existing functions the new code and keeps the program's data", "statement": "After a module was reloaded, each name it had denotes the same object and each new name what the new source made; each old function, method, class method or static method, at any depth in classes, which the new source defines by the same names is the same object with the new code, documentation, defaults and attributes; each such class is the same object with its attributes and those which are new; every other object is as it was. A change is reported exactly when a name was added, a code changed or a hook was called; the hooks are called for exactly the data which could not be updated, and those for the end after all others. The order in which names are visited does not matter, a source which raises changes nothing, and the code under the guard for the main module does not run again.", "quantifier": "for every heap of objects, every namespace of the module and of the new source in which no old object corresponds to two new ones, every order of the names, every nesting up to the limit of recursion", "why_tests_cant": "The update follows references through an arbitrary graph of objects while changing it, in the order of a set: tests reload a few small modules.", "anchors": ["_pydevd_bundle/pydevd_reload.py: xreload, Reload.apply, Reload._update, Reload._update_function, Reload._update_class, Reload._update_method, Reload._update_classmethod, Reload._update_staticmethod, Reload._handle_namespace, code_objects_equal"]}
{"id": "C57", "title": "Text sent as XML is read by the client as it was", "statement": "A client which reads the messages of the line based protocol by the rules of UTF-8, percent encoding and XML receives each variable of a frame or container, each piece of output, each completion, each thread, each frame of a stack and each exception, in order and none lost, with the names, values, types, files and lines as they were; values and output longer than their limit with their start and three dots. A variable whose value cannot be encoded is left out of its frame and none of the others is affected.", "quantifier": "for all texts of names and values, of any characters, any number of variables, completions, threads and frames, all limits and both framings", "why_tests_cant": "The text goes through up to four encodings one inside the other: tests try a few characters, a message is unreadable or reads differently for one.", "anchors": ["_pydevd_bundle/pydevd_xml.py: make_valid_xml_value, var_to_xml, frame_vars_to_xml", "_pydevd_bundle/pydevd_net_command_factory_xml.py: NetCommandFactory", "_pydev_bundle/_pydev_completer.py: completions_to_xml", "_pydevd_bundle/pydevd_net_command.py: NetCommand", "_pydevd_bundle/pydevd_comm.py: internal_get_frame, InternalGetVariable.do_it"]}
{"id": "C58", "title": "The test runner runs the chosen tests, each once, in one process or in several, and reports each", "statement": "The test runner looks at the files given and at those reached in the given directories through packages, as the file patterns say, each once; in them it runs exactly the test methods which the names and patterns choose, each once. With several processes, given a module or a test at a time, the same tests are run, whichever process asks when; each at most once when processes die, and no more is lost than what the dead were running as long as one lives. For each test a start and one final verdict are reported, with the text of every error and failure, and the reports arrive in order however they are put together.", "quantifier": "for all trees of files, all classes and methods, all names and patterns, all numbers of processes and all orders in which they ask or die, all sequences of outcomes", "why_tests_cant": "The order in which processes ask is not under the control of a test, and the trees and choices of names are unbounded.", "anchors": ["_pydev_runfiles/pydev_runfiles.py: PydevTestRunner", "_pydev_runfiles/pydev_runfiles_parallel.py: execute_tests_in_parallel, CommunicationThread.GetTestsToRun", "_pydev_runfiles/pydev_runfiles_parallel_client.py: run_client, ServerComm", "_pydev_runfiles/pydev_runfiles_unittest.py: PydevTestResult"]}
{"id": "C59", "title": "Setting the next statement moves the program there or says why not", "statement": "The id given for a goto target stands for that target, whatever other targets are asked for before and after. A goto, or a run to line for the function at the top, of a thread suspended at a line is answered once and in order: when the jump is possible the program is at the new line and the thread is reported as continued and stopped again with the reason goto, otherwise the answer says why and nothing else changes, and the thread stays suspended. Whatever the client and other threads do meanwhile, no command is answered twice, the thread is reported as continued and stopped in turn, and the program only moves with a successful answer.", "quantifier": "for all sequences of targets, of commands and of what other threads do in between, all functions and lines, both protocols and any behaviour of the interpreter when the line is assigned", "why_tests_cant": "The order of the answer, the continued and stopped events and of interruptions by other threads cannot be enumerated by tests.", "anchors": ["_pydevd_bundle/pydevd_process_net_command_json.py: IDMap, on_gototargets_request, on_goto_request", "_pydevd_bundle/pydevd_api.py: request_set_next", "_pydevd_bundle/pydevd_comm.py: InternalSetNextStatementThread", "pydevd.py: set_next_statement, do_wait_suspend, _do_wait_suspend"]}
{"id": "C60", "title": "The settings in force are those given with the launch or attach request", "statement": "Once a launch or attach request succeeds, skipping of library code, redirection of output, showing returned values, debugging templates, ignoring exits and stopping at entry are as the request says: by its argument, else by the last pair for it in the options text, else by the debugOptions flags, and if it says nothing as the last earlier request of the connection which did, or the default. Settings with a default are reset by each request, the others stay when not given; path mappings are the pairs with both roots, the current directory for a remote root of one dot; variables are presented as given for their kind, else for all.", "quantifier": "for all requests, all texts of options and all lists of flags, after any sequence of launch, attach and disconnect requests", "why_tests_cant": "The combinations of arguments, texts, flags and earlier requests cannot be enumerated; most tests use a new connection.", "anchors": ["_pydevd_bundle/pydevd_json_debug_options.py: DebugOptions, bool_parser, int_parser, _build_debug_options, _parse_debug_options, _extract_debug_options", "_pydevd_bundle/pydevd_process_net_command_json.py: _resolve_remote_root, _set_debug_options, _handle_launch_or_attach_request, on_disconnect_request", "_pydevd_bundle/pydevd_api.py: set_show_return_values, stop_on_entry", "pydevd_file_utils.py: set_ide_os"]}
{"id": "C61", "title": "Code with breakpoints put into it does what the program does and stops where it should", "statement": "When the debugger puts calls for the breakpoints into the code of a function instead of tracing it, the program executes the same instructions in the same states and ends when it would end, however the breakpoints change meanwhile. Only where the program arrives at a line that has a breakpoint at that moment is it stopped, once; from Python 3.10 on it is stopped at the latest at the first such line with a call (after the POP_TOP with which a line following a label starts), and from then on the debugger is told of the same lines as when tracing from the start. A frame that is traced anyway is reported as without the calls.", "quantifier": "for all codes and lines, all effects of the instructions, all changes of the breakpoints while the frame runs, and runs of any length", "why_tests_cant": "Control flow, places of the breakpoints and the moments at which they change cannot be enumerated; tests look at the disassembly of some functions.", "anchors": ["_pydevd_frame_eval/pydevd_modify_bytecode.py: get_instructions_to_add, insert_pydevd_breaks, _PREDICT_TABLE", "_pydevd_frame_eval/pydevd_frame_tracing.py: _pydev_needs_stop_at_break, _pydev_stop_at_break"]}
{"id": "C62", "title": "With frame evaluation the breakpoints in every frame that starts or is resumed are seen to", "statement": "When a thread begins to run a frame or resumes a generator while no change of breakpoints is under way, then, whatever was changed before, by whatever thread at whatever moment, and whatever was remembered for the code, each breakpoint in the code is seen to: the frame is traced or its code has a call at that line; a function with a function breakpoint is traced. Code is replaced only for the breakpoints it has, and code of the debugger or without breakpoints runs as it is. Evaluating the frame fails only for a generator with replaced code whose file has no breakpoints left.", "quantifier": "for all codes and breakpoints, all interleavings of evaluations in any number of threads with changes of breakpoints, and all histories", "why_tests_cant": "A decision remembered at the wrong moment shows only for particular interleavings of threads; tests run one of them.", "anchors": ["_pydevd_frame_eval/pydevd_frame_evaluator.template.pyx: get_func_code_info, _CacheValue.compute_force_stay_in_untraced_mode, generate_code_with_breakpoints, get_bytecode_while_frame_eval", "pydevd.py: on_breakpoints_changed, consolidate_breakpoints", "_pydevd_bundle/pydevd_api.py: remove_all_breakpoints"]}
{"id": "C63", "title": "Breakpoints and steps in Django templates stop at the nodes of the template", "statement": "While a Django template is rendered, the program stops exactly at the Python breakpoints and at the nodes with a breakpoint at their line whose condition holds for the variables of the template. Stepping over from a place in a template stops at the next node which starts being rendered, so that stepping over again and again goes through all nodes in the order they are rendered, none left out; stepping into also stops in functions of the program which the lookup of a variable calls, and from such a function stepping over goes on in the template. What is shown at a node is the file and the line of the node and each variable with the value the template itself sees. None of this depends on whether library code is hidden.", "quantifier": "for all sequences of events of any programs and templates, all breakpoints with any conditions, all settings of the filters, all commands", "why_tests_cant": "Where a step stops depends on the whole sequence of calls, lines and returns which rendering makes; tests step through a few small templates.", "anchors": ["pydevd_plugins/django_debug.py: get_breakpoint, cmd_step_into, cmd_step_over, stop, suspend_django, can_skip, has_line_breaks, change_variable, DjangoTemplateFrame, _is_django_render_call, _is_django_resolve_call, _is_django_context_get_call, _get_template_line", "_pydevd_bundle/pydevd_frame.py: trace_dispatch", "_pydevd_bundle/pydevd_trace_dispatch_regular.py: ThreadTracer.__call__", "pydevd.py: _do_wait_suspend, apply_files_filter", "_pydevd_bundle/pydevd_vars.py: change_attr_expression"]}
{"id": "C64", "title": "Breakpoints and steps in Jinja2 templates stop at the lines of the template", "statement": "While a Jinja2 template is rendered, the program stops exactly at the Python breakpoints and at the code of the lines of the template with a breakpoint whose condition holds for the variables of the template. Stepping into stops at the next line of any template, or at the first line of a function of the program which the template calls; from such a function stepping over goes on in the template when it returns. Once a step over has taken note of the frame, stepping over again and again goes through the lines of the template which the frame reaches, none left out, and when the frame ends goes on in the template it was called from. What is shown is the file and the line of the template, the variables of the context with the values they have there, and the local variables for the other names.", "quantifier": "for all sequences of events of any programs and templates, all breakpoints with any conditions, all settings of the filters, all commands", "why_tests_cant": "Where a step stops depends on the whole sequence of lines and returns which rendering makes, and on which steps were made before; tests step through a few small templates.", "anchors": ["pydevd_plugins/jinja2_debug.py: get_breakpoint, cmd_step_into, cmd_step_over, stop, suspend, can_skip, has_line_breaks, change_variable, Jinja2TemplateFrame, _is_jinja2_render_call, _is_jinja2_context_call, _is_jinja2_internal_function, _find_jinja2_render_frame, _get_jinja2_template_line", "_pydevd_bundle/pydevd_frame.py: trace_dispatch", "_pydevd_bundle/pydevd_trace_dispatch_regular.py: ThreadTracer.__call__", "pydevd.py: _do_wait_suspend, apply_files_filter", "_pydevd_bundle/pydevd_vars.py: change_attr_expression"]}
{"id": "C65", "title": "The expression offered for a variable is that variable", "statement": "The expression given with a variable (evaluateName, which the client puts into the watch view and which is used to change it) is an expression of the language, and its value in the frame is the value shown: for each variable of the frame, each variable of its module which no variable of the frame hides, each return value, and what is inside them at any depth: items of lists and tuples, entries of dictionaries whose keys are numbers, texts, None, truth values and tuples of them, attributes, and lengths. Those of the first page, which are not put into a group, have an expression. Changing an item, an entry or an attribute changes that one and nothing else.", "quantifier": "for all programs' values, nested to any depth and shared in any way, all texts of keys, all settings of the grouping and of the page sizes", "why_tests_cant": "The expression is put together from the texts of keys and names along the path; tests evaluate a few of them, with simple keys.", "anchors": ["_pydevd_bundle/pydevd_suspended_frames.py: _ObjectVariable.get_children_variables, _ObjectVariable.change_variable, _FrameVariable.get_children_variables, _FramesTracker._register_variable, _FramesTracker.obtain_as_variable", "_pydevd_bundle/pydevd_resolver.py: DefaultResolver, DictResolver, TupleResolver, SetResolver, MoreItems, MoreItemsRange, _does_obj_repr_evaluate_to_obj, _apply_evaluate_name", "_pydevd_bundle/pydevd_comm.py: internal_evaluate_expression_json, internal_set_expression_json"]}
{"id": "C66", "title": "Stops while an exception travels through the frames of a thread", "statement": "Whatever a thread raises, catches and raises again: it stops as raised in each frame the exception reaches to which the breakpoint applies (only once for an exception object, with first raise only); it stops as user unhandled exactly when an exception leaves user code for other code; it stops as unhandled at most once, only when an exception leaves the first frame, and then at the innermost frame which is not hidden; an exception which somebody catches is never reported as unhandled. Tracing and monitoring make the same stops for user unhandled exceptions, if user code called by other code catches none itself, and for unhandled exceptions in threads started by threading or by the debugger.", "quantifier": "for all sequences of calls, lines, returns, raises, catches and re-raises of a thread, all exception objects, filters, conditions and breakpoint settings", "why_tests_cant": "The stop depends on the whole stack, on what earlier events left in the thread-local state and, under tracing, on guesses from line numbers; tests run a few programs, each with one exception.", "anchors": ["_pydevd_sys_monitoring/_pydevd_sys_monitoring.py: _raise_event, _unwind_event, _get_unhandled_exception_frame", "_pydevd_bundle/pydevd_frame.py: should_stop_on_exception, handle_exception, is_unhandled_exception, PyDBFrame.trace_exception, PyDBFrame.trace_dispatch", "_pydevd_bundle/pydevd_breakpoints.py: stop_on_unhandled_exception", "_pydevd_bundle/pydevd_trace_dispatch_regular.py: TopLevelThreadTracerOnlyUnhandledExceptions, TopLevelThreadTracerNoBackFrame"]}
{"id": "C67", "title": "Terminating the program with the processes it started", "statement": "When the client terminates the program, every process descending from it is killed, whatever these processes do meanwhile (fork, end, be reaped), except those to be kept and what is below them, and those whose link to the program was cut because a process between them ended on its own. No process outside this tree and none to be kept gets a signal; no process is left stopped; the search always ends. Each request to terminate ends the process; with onTerminate set to KeyboardInterrupt the first one only interrupts it. A thread waiting at a breakpoint does not run on while the process is ended.", "quantifier": "for all process trees, all forks, exits and reapings between any two commands of the debugger, all sets of processes to be kept, and all sequences of requests", "why_tests_cant": "The processes go on running while they are listed, stopped and killed one by one; a test has one quiet tree, and cannot place a fork between two commands.", "anchors": ["_pydevd_bundle/pydevd_api.py: PyDevdAPI.request_terminate_process, PyDevdAPI.terminate_process, PyDevdAPI._terminate_child_processes_linux_and_mac, PyDevdAPI._terminate_child_processes_windows", "_pydevd_bundle/pydevd_process_net_command_json.py: on_terminate_request, on_disconnect_request", "pydevd.py: add_dont_terminate_child_pid, PyDB.dont_terminate_child_pids, PyDB._do_wait_suspend"]}
{"id": "C68", "title": "Code given to python -c, with the attaching code put into it", "statement": "When the program starts another Python with -c and code, the debugger puts its attaching code into that code. Nothing of the code is lost or reordered, text is inserted at one place only, and its lines keep their numbers. If the code has __future__ imports, they stay before the attaching code, which comes on the same line as the end of the last one, and after it Python reads exactly what it read after the import. This holds exactly if between the import and the code after it there are only blanks, at most one semicolon and newlines, and no blank after those. Without such imports the code follows the attaching code, and Python accepts this exactly if the first statement is not a compound one (if, for, def, ...).", "quantifier": "for all texts of the code, all places of the import in it, all texts following it and all attaching code on one line", "why_tests_cant": "The tests have a dozen codes, all with the next statement right after the semicolon or on its own line; whether the new text is read the same way depends on every character between the import and the next statement, on what precedes the import on its line, and on how two notions of line and column agree.", "anchors": ["_pydev_bundle/pydev_monkey.py: _LastFutureImportFinder, _get_offset_from_line_col, _separate_future_imports, _get_python_c_args"]}
{"id": "C69", "title": "Indented code and private attributes typed for evaluation", "statement": "Code typed or selected for evaluation is evaluated without the blanks before its first line of code: if no other line of code has fewer blanks, each line of code loses just these and nothing else, otherwise the text is compiled as typed. Code all of whose lines were indented by the same blanks gives back the code. Names joined by dots which Python cannot evaluate have the value found with the private names written out as Python does for code of the class of each object on the way.", "quantifier": "for all texts and bytes, all line ends, all amounts of blanks, all objects, classes and chains of names", "why_tests_cant": "The tests have eight short texts with one kind of line end and blanks; the claim is on every mixture of lines, line ends, empty lines and kinds of blanks, and on all chains of objects.", "anchors": ["_pydevd_bundle/pydevd_vars.py: _expression_to_evaluate, eval_in_context, compile_as_eval, _compile_as_exec, evaluate_expression"]}
{"id": "C70", "title": "Completions complete the name before the cursor", "statement": "Choosing a completion replaces just the name which ends at the cursor and leaves the rest of the line as it is. Where no dot stands before that name, the completions are exactly the builtin, global and local names which begin like it, whatever the case, each once; after names joined by dots they are exactly the attributes of what these evaluate to which begin like it.", "quantifier": "for all texts of any number of lines and line ends, all places of the cursor, all names of the frame and all objects, and all tables of characters", "why_tests_cant": "The tests have a dozen short texts; the claim is on every text before and after the cursor, all line ends, and on what the client does with the positions of each item.", "anchors": ["_pydev_bundle/_pydev_completer.py: extract_token_and_qualifier, Completer, generate_completions", "_pydev_bundle/_pydev_imports_tipper.py: generate_imports_tip_for_module", "_pydevd_bundle/pydevd_comm.py: internal_get_completions", "_pydevd_bundle/pydevd_net_command_factory_json.py: make_get_completions_message", "_pydevd_bundle/pydevd_process_net_command_json.py: on_completions_request"]}
{"id": "C71", "title": "How a value is shown does not depend on what was shown before", "statement": "A value is always expanded with the view of the first extension for its class, or else with that of the first known class it is an instance of, or else by its attributes, whatever values have been shown before. Its text is always that of the first extension for its class which gives one, or else its own.", "quantifier": "for all values, classes, extensions, tables of classes and all sequences of values shown before, with or without their texts and in any context", "why_tests_cant": "Views and text providers are remembered by class for the life of the process; a test shows a few values in one order, the claim is on all orders and all extensions, also those which fail.", "anchors": ["_pydevd_bundle/pydevd_xml.py: TypeResolveHandler, get_variable_details, _create_default_type_map", "_pydevd_bundle/pydevd_extension_api.py: TypeResolveProvider, StrPresentationProvider"]}
{"id": "C72", "title": "Exceptions are ignored at the lines marked or asked for, as the source is now", "statement": "Unless the setting is switched off, the debugger does not stop at an exception just where the line of the traceback's first place or the line where it was raised has a comment with @IgnoreException in the file as it is now, or where the client has asked to ignore exceptions at that line, without having replaced what it asked for since.", "quantifier": "for all files, all sequences of changes of files, exceptions, commands and uses of the line cache by other code, all names of the same file and all pairs of lines", "why_tests_cant": "The decision is remembered by file and line, apart from the file's time of change and the lines remembered by Python; a test changes no file or one file once, the claim is on all orders of changes, exceptions and commands.", "anchors": ["_pydevd_bundle/pydevd_frame.py: handle_exception, IGNORE_EXCEPTION_TAG, filename_to_lines_where_exceptions_are_ignored, filename_to_stat_info", "_pydevd_bundle/pydevd_process_net_command.py: cmd_ignore_thrown_exception_at"]}
{"id": "C73", "title": "In a thread whose first function is user code, exceptions which leave it are told from those it handles by the lines of its source", "statement": "When tracing a function without a caller, which ends after exceptions were raised in it, the debugger takes it for left by an exception exactly when it is: an exception which no except clause takes, or which one raises again, counts as unhandled, and a return after exceptions were handled does not. The try statements and their lines are found exactly as they are in the source, also with functions inside functions.", "quantifier": "for all modules, all nestings of try, except, else, finally, with, if, loops and functions, all lines they are on, all runs of a function and all exceptions raised in it", "why_tests_cant": "The interpreter does not say whether the function is left by an exception, so this is guessed from line numbers; tests run some twenty small functions, the claim is on all nestings and all runs.", "anchors": ["_pydevd_bundle/pydevd_collect_bytecode_info.py: _Visitor, TryExceptInfo, collect_try_except_info_from_source", "pydevd.py: PyDB.collect_try_except_info", "_pydevd_bundle/pydevd_frame.py: is_unhandled_exception", "_pydevd_bundle/pydevd_trace_dispatch_regular.py: TopLevelThreadTracerNoBackFrame"]}
{"id": "C74", "title": "An evaluation which takes too long lets the other threads run and stops them again", "statement": "When an expression evaluated in a stopped thread takes longer than the unblock-threads timeout, the other threads are continued and the client is told so; when it ends all threads are stopped again, the client is told of a new stop, and the thread which evaluated stays where it was. An evaluation which ends earlier changes nothing. No thread fails because of it when it is continued later.", "quantifier": "for all programs of threads, all interleavings of the evaluation, the callback of the timeout, the threads which stop and go on, further breakpoints, pauses and continues, all states of the notifications", "why_tests_cant": "Three threads and a timer work on shared state under different locks; tests wait for one interleaving of one slow evaluation, the claim is on all interleavings.", "anchors": ["_pydevd_bundle/pydevd_vars.py: _run_with_unblock_threads", "_pydevd_bundle/pydevd_timeout.py: _OnTimeoutHandle, TimeoutTracker, _TimeoutThread", "_pydevd_bundle/pydevd_thread_lifecycle.py: mark_thread_suspended, resume_threads, suspend_all_threads, suspend_threads_lock", "pydevd.py: AbstractSingleNotificationBehavior, PyDB.set_suspend, PyDB.do_wait_suspend"]}
{"id": "C75", "title": "The values which functions return are shown in the frame which called them while stepping", "statement": "With showReturnValue on, after stepping over or into a line the frame shows, for each function which it called directly and which returned, the last value it returned, and other frames show nothing new; after stepping out of a function, or over its return, the caller shows the value it returned. With the option off nothing is shown, and turning it off removes what is shown.", "quantifier": "for all trees of calls made during a step, all functions and values, all step commands, all frames and all values shown before, tracing or sys.monitoring", "why_tests_cant": "What is shown depends on the whole tree of calls during the step and on which handler sees which return; tests step over one call of one function.", "anchors": ["_pydevd_bundle/pydevd_frame.py: PyDBFrame._show_return_values, _remove_return_values, trace_dispatch", "_pydevd_sys_monitoring/_pydevd_sys_monitoring.py: _return_event, _show_return_values", "_pydevd_bundle/pydevd_api.py: PyDevdAPI.set_show_return_values"]}
{"id": "C76", "title": "After the client has disconnected the program runs on", "statement": "When the client disconnects without terminating the program, all stopped threads go on, and from then on no breakpoint, exception, step or pause of that session stops any thread. A client which attaches later finds only the breakpoints it sets itself.", "quantifier": "for all programs of threads, all breakpoints set before, all states of the threads and all interleavings of the disconnect with what the threads do", "why_tests_cant": "A thread may be anywhere between finding a breakpoint and waiting when the request is processed; tests disconnect from one thread which waits at one line breakpoint.", "anchors": ["_pydevd_bundle/pydevd_process_net_command_json.py: PyDevJsonCommandProcessor.on_disconnect_request", "_pydevd_bundle/pydevd_api.py: PyDevdAPI.request_disconnect, remove_all_breakpoints, remove_all_exception_breakpoints, set_function_breakpoints", "_pydevd_bundle/pydevd_thread_lifecycle.py: resume_threads, internal_run_thread", "pydevd.py: PyDB.on_disconnect, PyDB.set_suspend, PyDB.do_wait_suspend"]}
{"id": "C77", "title": "Stepping skips the functions marked with @DontTrace, and only these", "statement": "While the client has the @DontTrace comments switched on, no step shows a function which has such a comment on its first line, on the line above, or separated from these by decorator lines only; every other function is shown when a step wants to stop in it. With the comments switched off they change nothing. The last command which says something decides which.", "quantifier": "for all source files, all functions in them, all histories of commands, reloads, edits of other files and trace events, and whatever the steps want", "why_tests_cant": "Where a comment counts depends on decorators above and below it and on the end of the file, and answers are cached per file and per frame; the test steps through one file with a few marked functions.", "anchors": ["_pydevd_bundle/pydevd_dont_trace.py: default_should_trace_hook, clear_trace_filter_cache, trace_filter", "_pydevd_bundle/pydevd_frame.py: PyDBFrame.trace_dispatch (should_skip, return to a caller)", "_pydevd_bundle/pydevd_process_net_command.py: cmd_enable_dont_trace", "_pydevd_bundle/pydevd_reload.py: xreload"]}
{"id": "C78", "title": "A program started by the debugger finds its arguments, main module and imports as without the debugger", "statement": "A script, an archive or a module which is started through the debugger sees the same sys.argv, runs as __main__ in the names of the module which sys.modules has under that name, and each of its imports is found in the same place as when Python starts it directly. What Python could not run is not run.", "quantifier": "for all files, archives and modules, all arguments, all entries of sys.path, all file systems and all imported names", "why_tests_cant": "How sys.path looks depends on where the debugger and the script lie and how Python was started; tests run a few scripts from one place and look at breakpoints, not at imports.", "anchors": ["pydevd.py: PyDB.run, PyDB._exec, module level (this_dir)", "_pydevd_bundle/pydevd_utils.py: save_main_module", "_pydevd_bundle/pydevd_runpy.py: run_path, _run_module_as_main, _run_module_code, _run_code, _TempModule, _ModifiedArgv0", "pydevd_file_utils.py: get_fullname, get_package_dir"]}
{"id": "C79", "title": "Keeping stepping out of properties does not change the program", "statement": "When the client asks that getters, setters or deleters of properties are not stepped into, the program runs the same lines and raises the same exceptions as with Python's own properties; nothing of such an accessor is shown, all lines outside of accessors are seen as before, also after an accessor which failed, and the kinds which were not asked for are seen as before.", "quantifier": "for all programs of lines, calls, property accesses (nested, failing, without accessor) and exceptions, all definitions of properties with decorators, all commands", "why_tests_cant": "The debugger replaces a builtin type for all classes of the program; tests step over one getter and one setter of one class.", "anchors": ["_pydevd_bundle/pydevd_traceproperty.py: DebugProperty, replace_builtin_property", "_pydevd_bundle/pydevd_process_net_command.py: cmd_set_property_trace", "pydevd.py: PyDB.enable_tracing, PyDB.disable_tracing"]}
{"id": "C80", "title": "Thread ids tell threads apart and stay", "statement": "In one process two threads never get the same id, not even when one has ended and the memory of its object was used again; a thread has the same id whenever it is asked for, also after the ids were cleared; after a fork, once the ids were cleared, no id is one which the parent has used; the thread of the console keeps its fixed id.", "quantifier": "for all sequences of starting threads, freeing them at any time, asking for ids, clearing ids, starting the console and forking, and all addresses", "why_tests_cant": "Two objects at the same address come from the memory allocator after one of them was freed; tests do not control that.", "anchors": ["_pydevd_bundle/pydevd_constants.py: get_thread_id, get_current_thread_id, clear_cached_thread_id, set_thread_id", "pydevd.py: PyDB.process_internal_commands"]}
{"id": "C81", "title": "Messages of the debug adapter protocol are read and written without loss", "statement": "Every message of the shape the protocol describes is read, as the class of its kind and name. When it is written, all that it said is there, also names the protocol does not know, and nothing is added but the kind, name and number of the message and empty dictionaries. In a message to the client all ids of threads, frames and variables, at any depth, are those of the client and nothing else is changed; ids in a message read from the client are the same when it is written again.", "quantifier": "for all 254 classes of the protocol (and all other classes of the same form), all JSON messages, all translations of ids", "why_tests_cant": "There are 254 generated classes; tests send a few dozen messages with the names they know.", "anchors": ["_pydevd_bundle/_debug_adapter/pydevd_schema.py: all classes", "_pydevd_bundle/_debug_adapter/__main__pydevd_gen_debug_adapter_protocol.py: update_class_to_generate_init, update_class_to_generate_to_json", "_pydevd_bundle/_debug_adapter/pydevd_base_schema.py: from_dict, BaseSchema"]}
{"id": "C82", "title": "The table of an array or data frame shows the cells of the place asked for", "statement": "A client which looks at a part of an array is told the number of rows and columns it can look at (at most 1000 each) and gets the rows and columns from the place asked for, as many as asked for, at most 100 each and no more than there are; the number in row i and column j of the answer is the one in row ro+i and column co+j of the array. A vector is shown as a row or column, an array of more dimensions by its first table; without a size, the first 100 rows and columns are sent. For a data frame also the labels of rows and columns and the bounds are those of the rows and columns shown.", "quantifier": "for all numbers of rows and columns, all contents, all places and sizes asked for which are at least one, all formats", "why_tests_cant": "The places, sizes and shapes have no bound and the code has a branch for each kind of shape; tests look at a few arrays of one or two sizes.", "anchors": ["_pydevd_bundle/pydevd_vars.py: table_like_struct_to_xml, array_to_xml, array_to_meta_xml, dataframe_to_xml"]}
{"id": "C83", "title": "A file run again in the console finds its modules gone and leaves the console as it was", "statement": "When deleting of user modules is switched on, a program run in the console starts, from the second run on, with all loaded modules but those of the user: modules loaded after the first run began, which have a path outside the Python installation and the debugger, and of whose dotted name no part is listed by the user. So they are imported afresh, whatever programs and the user did in between. In the first run, and when deleting is switched off, no module is removed. The program sees its file name and arguments, split at blanks, and the directory asked for. When it ends normally, the arguments are cleared and __file__ is the one of before.", "quantifier": "for all sequences of runs and changes in between, all programs, all modules, names, paths, arguments and environments", "why_tests_cant": "It depends on the whole history of the session and on every name and path; tests run one file twice.", "anchors": ["_pydev_bundle/pydev_umd.py: runfile, UserModuleDeleter.__init__, UserModuleDeleter.is_module_ignored, UserModuleDeleter.run", "_pydev_bundle/_pydev_execfile.py: execfile"]}
{"id": "C84", "title": "The command line of the test runner is read as it was written", "statement": "A command line made of options and other arguments in any order gives exactly these options with their values, in their order, and the other arguments in theirs: a long option with its value joined by an equals sign or as next argument, its name in full or shortened as long as one option only begins so, letters one by one or together, and everything after two dashes as it is. Any other command line is refused. The configuration of the test runner has the last value given for each option, else its default; the other arguments are the files and directories; the tests chosen for a file are those given for it in their order; filters of files and tests do not count when tests are given.", "quantifier": "for all tables of options, all command lines of any length, all values, all contents of the configuration files", "why_tests_cant": "Command lines have any length, order and spelling; tests parse about a dozen.", "anchors": ["_pydev_bundle/_pydev_getopt.py: gnu_getopt, do_longs, long_has_args, do_shorts, short_has_arg", "_pydev_runfiles/pydev_runfiles.py: parse_cmdline, Configuration"]}
{"id": "C85", "title": "What is typed into an interactive console is run whole, once and in order", "statement": "The texts typed into the console are cut after each one which makes a command whole (no backslash at its end, and Python does not wait for more): every text belongs to exactly one command or to the unfinished rest, the commands are run in order, each once, and the answer to a text says whether more is needed. An interrupt drops what is unfinished and nothing else. Lines are run or their error shown, never given up in silence. The same holds in the console of a stopped frame, and lines for one frame never become part of a command of another one. Whatever a command does and however it ends, sys.stdin, and in the console of a frame sys.stdout and sys.stderr, are afterwards what they were. The messages sent back are the lines written which are not blank, in order.", "quantifier": "for all sequences of texts, interrupts and steps of the main thread, all answers of the compiler, all commands, all texts written", "why_tests_cant": "Any number of texts, cut at any place, with interrupts at any moment and programs which change sys; tests type a handful of lines.", "anchors": ["_pydev_bundle/pydev_console_utils.py: BaseInterpreterInterface.need_more_for_code, need_more, do_exec_code, execLine, execMultipleLines, interrupt, add_exec, CodeFragment", "pydevconsole.py: Command, process_exec_queue", "_pydevd_bundle/pydevd_console.py: ConsoleMessage, DebugConsole.push, get_interactive_console, execute_console_command", "_pydevd_bundle/pydevconsole_code.py: InteractiveInterpreter.runsource, InteractiveConsole.push"]}
{"id": "C86", "title": "The client is told the exception and the reason for which the program stopped", "statement": "The answer to exceptionInfo names the type of the exception stopped at and describes it with its own text, whatever exceptions it came from, and says where the program stands when that is not where it was raised. Its stack trace has every exception of the chain, the first cause first, each with the frames the filters leave, their files, lines and source text, and with its type and text; the source is the file of the first frame shown. The stopped event says the same name and description. Its reason is the one for which the thread stopped, and the stop at the start is told once.", "quantifier": "for all chains of exceptions with any frames, types and texts, all filters and limits, all sources, all stop reasons", "why_tests_cant": "All chains, frames and limits; tests count the lines of a stack trace.", "anchors": ["_pydevd_bundle/pydevd_comm.py: build_exception_info_response", "_pydevd_bundle/pydevd_net_command_factory_json.py: make_thread_suspend_single_notification"]}
{"id": "C87", "title": "A path given in any case becomes the one on the disk", "statement": "On Windows and the Mac a path which differs in case alone from that of a file on the disk is turned into the path as it is on the disk, whatever paths were asked for before and whichever files were created since, although directories are listed once only. The answer is the path asked for in all but its case, whatever the disk contains and however it changes. A name which is not that of a file is left as it is and nothing is remembered.", "quantifier": "for all disks with names that differ not in case alone, all sequences of calls and of files added, all paths and all ways to write them", "why_tests_cant": "All orders of calls and changes of the disk with a cache; tests ask for a few paths on one disk.", "anchors": ["pydevd_file_utils.py: _resolve_listing, _resolve_listing_parts, get_path_with_real_case, _get_path_with_real_case"]}

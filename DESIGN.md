# Formal model of PyDev.Debugger: design

Subject: the Python sources in `/repo` (pinned commit of fabioz/PyDev.Debugger).
Prover: Rocq/Coq 8.16.1, standard library only.
The sources were read as text. Nothing was built or run; `/repo` is unchanged.

## 1. Trusted base

* Coq's kernel (and `vm_compute`, which the kernel uses for closed computations).
* What `Print Assumptions` lists for each theorem. Each `*Props.v` file prints it for every
  theorem. Section 5 below records the result.
* The hand translation of the Python functions into Gallina. Every definition cites the file and
  the lines it mirrors and states its simplifications. The translation itself is not checked by a
  machine; mutation testing (`seeded/LOG.jsonl`) probes how sensitive the theorems are to it.
* The reading of CPython's behaviour used by the code (dictionary order, slices, `re`, string
  methods, locks). Where a definition depends on it the comment says so.

No axioms are added. No `Admitted`, no `Variable` outside a section, no functors.

## 2. Conventions

* Text and byte strings are `list N` (code points or bytes). Python integers are `Z` or `N`.
* Python dictionaries are association lists in insertion order (`Dict.v`): updating an existing key
  keeps its position, deleting and re-adding moves it to the end.
* Exceptions are values (`Err ...`), never silently dropped.
* Stateful code is a `state` record plus `step : state -> op -> state * output`; properties quantify
  over arbitrary lists of operations. Concurrency is an arbitrary interleaving of atomic steps, where
  an atomic step is what runs under one lock or one bytecode-atomic dictionary or queue operation.
* Files: `X.v` (or `XModel.v`) is the model, `XSpec.v` the independent specification, `XProofs.v` the
  proofs, `XProps.v` only theorem statements, `Print Assumptions`, and examples showing that the
  hypotheses can be met.
* A property which is false of the code is refuted with a concrete witness in a theorem named
  `..._refuted`; the part which does hold is proved under a name ending in `_partial`.

## 3. Properties: what is modelled and how it is proved

| id | model | proof idea |
|----|-------|------------|
| C01 | `Reader`: `_read`, `_read_line`, the header loop of `_on_run`, over a list of chunks | a chunked run equals the run over the concatenation: invariant "buffer ++ unread chunks" |
| C02 | `Reader` + `NetCommand` frame builder | induction over the message list, decimal print/parse round trip |
| C03 | `NetCommand` counter | invariant over creation histories |
| C04 | `Writer`: queue, socket log, kill flag | invariant over interleavings |
| C05 | `Auth`: `_Authentication` plus the gate of both command processors | refinement to an abstract "last login decides" specification |
| C06 | `Breakpoints`: the four dictionaries of the API | refinement to an abstract set of breakpoints |
| C07 | `HitCond`, second half: lock-protected counter, threads as step machines | invariant over interleavings |
| C08 | `ExcBreak`: the three tables and `get_exception_breakpoint` over an abstract subclass relation | fold invariant: minimal so far; tables refine the history |
| C09 | `Glob`: `_check_matches` and `glob_matches_path` | equivalence with a declarative matching relation (`GlobSpec`) |
| C10 | `Roots`: `_fix_roots`, `in_project_roots` | equivalence with a specification using containment and lengths |
| C11 | `FilterCache`: settings, four caches, setters and the three questions | invariant: every cached answer equals the recomputed one; with an empty file-type cache every answer is independent of the do-not-trace patterns |
| C12 | `SafeRepr`: `_repr` with the loops for collections and dictionaries, strings with escapes, `_is_long_iter` | induction on the list of level limits; loops by induction on the items |
| C13 | `Frames`: the tracker's and the manager's tables, `track`, `_register_variable`, `untrack_all` (with its KeyError), lookups | invariant over histories relating every table to the history; induction from the end |
| C14 | Ids.v: id translation tables, steps of one translation per thread, IDMap | invariant over all interleavings of steps; sequential refinement; witnesses for the races |
| C15 | Timeout.v: timer thread steps, handle fields, registration, steps of the end of a block, arbitrary clock values | invariants over all interleavings |
| C16 | CmdQueue.v: queues, activations of process_internal_commands, the wait loop's turn, thread ids as text | counting and FIFO invariants over all interleavings; witnesses for nesting and exceptions |
| C17 | Notify.v: the notification state, each locked method one step, pause timeouts at any time | invariant relating the last event to the two time stamps |
| C18 | ThreadEvents.v: running threads, agents that send after the lock, reconciling, toggling | invariant: what the client knows equals what is tracked; counting invariant for all schedules; witnesses |
| C19 | `Grouping`: `get_var_scope`, `_group_entries`, children of objects and frames, `sorted_attributes_key` and the stable sort | loop invariant (inline and groups are filters of the prefix); permutation and subsequence statements |
| C20 | `HitCond` | parser/evaluator agreement |
| C21 | LogMsg.v: extraction of placeholders, the expression built, Python's % on text | every message is parsed into pieces of an inductive grammar; induction over the pieces; witnesses for percent signs and commas |
| C22 | PathMap.v: normalization, _fix_path, setup_client_server_paths, both translations and their caches, set_ide_os | first matching entry is the mapping's directory; separators and normalization commute with concatenation; cache invariant over all histories |
| C23 | SourceRef.v: the tables and the counter; each creation as its sequence of atomic steps; the lookup of on_source_request | invariant over all interleavings |
| C24 | WinArgs.v: quote_arg_win32 with its two substitutions, str_to_args_windows as a state machine | generalized induction over the arguments with the splitter's state |
| C25 | PatchArgs.v: patch_args and its helpers, patch_arg_str_win | case analysis of the recognised shapes with generalized lists of options and arguments |
| C26 | CmdLine.v: all handlers, setup_to_argv, process_command_line as a step function, the update of protocol and ppid for children, the child's choice of the protocol | induction over the handlers; the command line shrinks in every step but --DEBUG |
| C27 | Redirect.v: streams as objects with identity, start/end/redirect/stop and the context manager, the buffer attribute; IORedirector.write as steps of threads under its lock | induction over nested programs; lock invariant over all interleavings |
| C28 | ListView.v: TupleResolver, MoreItems, MoreItemsRange (contents, dictionaries, resolve, names with their formats) | a client that opens every entry; closed form of the loops by induction |
| C29 | SourceMap.v: SourceMapping (set_source_mapping with the API's part, map_to_client, has_mapping_entry, map_to_server) with its caches; normcase is an arbitrary function | invariant relating dictionaries and caches to an independently specified table of installed mappings; bisection on the sorted cells |
| C30 | LineValid.v: ValidationInfo for one template, with consolidation of the breakpoints, plugin callbacks and rendering | invariant over the loop for fresh breakpoints; second invariant over histories with unchanged lines; sortedness and bisection |
| C31 | Step.v: ThreadTracer.__call__, PyDBFrame.trace_dispatch, _do_wait_suspend, set_trace_for_frame_and_parents and the rules of sys.settrace, as a machine over events of one thread and commands | invariants over the operations: identities of frames, the frame stepped and its parents stay traced, what the thread's step command is while that frame is there and after it is gone |
| C32 | Step.v: with global_cache_skips, frame_skips_cache and the clearing of both | invariant: every entry of a cache, and every frame not traced, agrees with the breakpoints in force |
| C33 | StepInfo.v: _update_stepping_info, add/remove of thread infos, with arbitrary iteration orders of the sets | reachable states; the loops as filters up to permutation |
| C34 | Stack.v: _iter_visible_frames_info, the filters and the slice taken from the frames, with Python's slices | arithmetic of slices; induction over the number of pages |
| C35 | SetBreak.v: cmd_set_break and cmd_remove_break with split, replace and strip | splitting of joined fields by induction; replacing scans the escaped text character by character |
| C36 | CustomFrames.v: add, update and remove of custom frames, announcing them at a stop and removing them on resume | independent reading of the messages and of the history; induction over histories |
| C37 | `Reader` with the kill flag | case analysis of the reading loop |
| C38 | `Breakpoints` with the request loop of the JSON processor | refinement of one request over any history |
| C39 | `ExcBreak`: add, remove, clear and the DAP request | refinement to the history |
| C40 | `ExcBreak`: `should_stop_on_exception`, `stop_on_unhandled_exception` | case analysis over the table after the request |
| C41 | `Glob`: `exclude_by_filter`, `_convert_rules_to_exclude_filters` | first match; insertion sort gives a descending list; equivalence with components of dotted names |
| C42 | DictView.v: DictResolver and SetResolver, with id, repr and literals as arbitrary functions | induction over the entries with the set of names found |
| C43 | CustomFrames.v: greenlet_switch, with the tables of saved greenlets and custom frames | invariant over all well-formed switch histories: bijection between paused greenlets and frames |
| C44 | Stack.v: frames lists from tracebacks and from causes, with identities of frames and the table of lines | tracebacks as call chains: their reversal is a suffix of the call stack; the loop over causes ends by counting the visited exceptions |
| C45 | Stack.v: byte offsets to character offsets, columns of a frame | against an independent UTF-8 encoder: prefix sums are strictly increasing |
| C46 | Modules.v: track_module in its two atomic parts, collecting and sending the events, for any number of requests | invariant over all interleavings: every registered file is announced or pending in exactly one request |
| C47 | SetBreak.v: cmd_add_exception_break and cmd_remove_exception_break | as C35 |
| C48 | Step.v, as C31 | invariants: stepping in or paused, every frame of debugged code is traced |
| C49 | Mon.v: threads with their frames, idle generators, global and local events, disabled locations, the cache of code information, breakpoint changes, and the callback answering DISABLE after a restart. | Invariant over all operations (armed in MonProofs.v): with breakpoints in force monitoring is on, their locations are not disabled, live frames have line events; soundness by inversion of what an action leads to. |
| C50 | The same model, with the commands of the client and pauses. | Invariants over all operations: while a thread steps nothing is disabled in debugged code and monitoring stays on (clean, stepping_on); what became of a step (going, into_going) and of paused threads (halting); counterexamples run a loop for ever by a fixed point. |
| C51 | Rpc.v: the messages of the client, all 32 handlers as far as how they answer, the queues of internal commands, the threads waiting in them, jumps, the callbacks of continue, with Auth.v and Notify.v; RpcSpec.v: requests, answers, what waits and what is lost, without the handlers. | Invariant over all events: the numbers of answers, waiting and lost requests of each key add up to the requests made (total_step), by cases over all handlers; the rest follows by counting, or by induction over the queue of a thread. |
| C52 | Watch.v: directory trees with accepted names and maximum depth, the visited directories, the tables of files, set_tracked_paths, a round of iter_changes, the reload requests, the accept functions of auto reload; not: sleeping and throttling, paths of type bytes. | The scan equals noting a list of files (check_walk); these have distinct paths, since each is below a newly visited directory (walk_nodup), and are the files found (walk_found, against the inductive specification found); noting a list with distinct paths reports the difference of the tables (noted_table); induction over the rounds. |
| C53 | Smart.v: the calls of a code with positions and inner codes (Python 3.11), the variants, the targets and their ids, the bisection by offset, the decisions at lines and returns in both engines; not: the calls of a code before Python 3.11, the choice by name and line of the older protocol, breakpoints met on the way. | The bisection finds the last call at or before an offset (same_variant_spec); the variants have the offsets of the code (variants_offsets), an inner call goes to the first call around it (attach_all_nth, against the specification holds); one invariant over the actions gives smart_not_lost, the others by induction over the actions; labels by counting (spans). |
| C54 | Assign.v: frames as CPython has them (slots, f_locals, globals), change_attr_expression and its answers, the command of the line protocol, items of sets; not: names with a dot and other containers, frames of templates. | Lookups in f_locals and in the slots related by the invariant wf and by freshness after an access; only_changed is stated with what the code sees. |
| C55 | Assign.v: evaluate_expression with the merged namespace, update_globals_and_locals, save_locals; a program is any function of the namespace; not: top-level await, name mangling on retry, dedenting. | update_spec says name by name what the folds of assignments and deletions do, by induction over them; the session by induction with pointwise equal namespaces. |
| C56 | Reload.v: the objects as a heap, Reload.apply and _update with all its kinds of objects, hooks, exceptions and the limit of recursion; not: running the new source, __metaclass__, assignments to classes which fail, effects of the hooks. | An invariant of the whole run (each object is as at first or finished), each update idempotent; by induction on the depth, all linked pairs are finished at the end. |
| C57 | Xml.v: UTF-8, urllib.parse.quote, the escapes, the bytes of the messages and the functions which make the XML of variables, output, completions, threads, stacks and exceptions; not: the text of a value (given), multiprocess or protocol messages without text. | A specification of the client: decoders of UTF-8 and of percent encoding, and a reader of XML as an automaton; each piece of XML is shown to move the reader from between two tags to there with known elements, by induction on the text and on the lists. |
| C58 | TestRun.v: finding files, the loading and filtering of tests as suites, the batches and their texts, the processes as a queue served in any order with deaths, the calls of unittest and what is reported, and the sending of reports; not: importing, coverage, django, load_tests, the parsing of options. | The tests run are shown equal to a filter over everything the files define (induction on suites); a batch read back from its texts is the batch; an invariant on what was run, lost and is still queued over all sequences of asks; the reports by induction on the calls. |
| C59 | Goto.v: the map of target ids, the request, the command, the wait loop of a suspended thread as steps interleaved with other threads, set_next_statement with any result of assigning the line, the answers of both protocols; not: the tracing which steps set up (C31, C48) and the merging of notifications (C17). | Invariant of the two dictionaries over all requests; the commands one after the other by induction against a specification of what is told and where the program is; an invariant over all interleavings: what is answered and what waits is a subsequence of what was asked. |
| C60 | Options.v: the options object and its two updates, the text and flags of the older arguments, and what _set_debug_options does with the arguments in its order, exceptions included; upper, unquote, str and the conversion of rules (C41) are arbitrary functions; not: the watched directories (C52), the translation of paths (C22). | A relational specification of what a request asks for, shown to be functional; parsing by induction over the parts of the text, flags by the table; the history by induction over the requests. |
| C61 | FrameEval.v: the code as the list of labels and instructions the bytecode library gives, the inserted block and the loop which inserts it, and an interpreter for both kinds of instructions which reports lines as CPython does; the program's instructions are arbitrary functions of its state, exceptions are jumps; not: the encoding of the code, the stack size, EXTENDED_ARG, the events other than line. | A forward simulation between the code and the code with the calls: each step of the program is matched by one or more, by induction over the run; labels are found at corresponding places. |
| C62 | FrameCache.v: the decision of get_bytecode_while_frame_eval and get_func_code_info as functions, and the steps in which a thread reads the time stamp, the breakpoints and the function breakpoints and stores the result, interleaved with other threads and with the changes of the breakpoints; not: the identity of equal code objects, the threads of the debugger, the inserted code itself (C61). | An invariant over all interleavings: what is stored with the current time stamp is what would be computed now, unless a change is under way; then a case analysis of the decision. |
| C63 | Django.v: the events of a thread with their frames (function, class of self, the node's file and line, the dictionaries of the context), the decisions of the filters, of trace_dispatch and of the plugin for each event, and the commands at a stop; not: Django before 1.10, moving breakpoints to valid lines (C30), hit counts and log points, breakpoints at template exceptions, smart step into, coroutines and scoped steps, sys.monitoring, the caches of trace_dispatch (C32), the rule that a step into does not stop again where it started. | The state does not change at the events at which there is no stop, so the next stop is the first event of a class stated independently; stepping through a template by induction over the events. |
| C64 | Jinja.v: the events of a thread with their frames (function, template with the table of its lines, local variables, context, whether a generator), the decisions of the filters, of trace_dispatch and of the plugin for each event, and the commands at a stop; not: moving breakpoints to valid lines (C30), hit counts and log points, breakpoints at template exceptions, smart step into, coroutines and scoped steps, functions of the program which are generators while stepped through, sys.monitoring, the caches of trace_dispatch (C32), the rule that a step into does not stop again where it started. | As for C63: the state does not change at the events at which a step does not stop, except for those which the theorems name (a call by the template, the end of the frame, the first event of a template), so that the next stop is the first event with a property given in the terms of the template. |
| C65 | EvalName.v: values, objects with attributes, contents and __dict__; the fragment of the expressions of Python which the texts need (names, constants, attributes, items, calls of len, minus, plus, tuples) with a parser and an evaluator; the entries of the resolvers with the parts of the expressions; the variables of a frame and of an object; assignment to an expression; the registry of variables. Not: order and formats of names (C19, C28, C42), the resolvers of extensions, changing variables of the frame itself (C54) and members of sets (C54). | Texts built along the path are primaries of the grammar: a lemma for each kind of suffix, with the round trip of repr through the parser for keys (by induction over tuples); by induction over how the client came to the variable, its text reads as an expression whose value is the value shown. The reading of a text is unique (the parser is monotone in its bound), so that an assignment to it has one meaning. |
| C66 | ExcFlow.v: a thread as frames with lines, tracebacks of exception objects, and the operations of the running code, which give the events of the interpreter; the handlers of raise and unwind events of sys.monitoring with their thread-local state; the frame of unhandled exceptions; the tracers of frames and of first frames for the other stops. The decision at one event is the one of C40. Not: template plugins, events while the thread is suspended, the cache of the marked lines of a file, the stops at raised exceptions under tracing, generators and coroutines. | The stop due at an event is an inductive relation over the stack and the traceback alone. An invariant over the operations (frames are distinct, the traceback starts in the top frame, the kept frame is the first one) gives that each event makes exactly the stops due; counting over events gives the rest. For tracing, the tracers know of exactly one exception, the one about to leave user code. |
| C67 | KillTree.v: an operating system with processes, their makers and parents, states and reaping; moves of all other processes before each command of the debugger; kill -STOP, kill -KILL, pgrep and taskkill; the recursive listing and the rounds of killing on Linux and macOS, the rounds on Windows, the requests and the wait loop of a suspended thread. Process numbers are not reused, the commands succeed, nobody else sends signals to stopped processes. Not: the wait for the writer to be empty, the interrupt itself, the end of the daemon threads. | Everything is a sequence of acts on the processes. A process which does not run gets no more children, so a listing covers all below its root: each living one is stopped and listed, or a process above it ended on its own; this stays true under all further acts, and the kills leave only the second case. For Windows: below each killed process only what hangs on a process which ended on its own lives, as an invariant. The recursion ends because children are younger than their parents. |
| C68 | FutureImports.v: str.splitlines, the offset from line and column, the separation of the last __future__ import and the code which python -c gets. The line and column of the end of the import are given (ast, Python 3.8 and later). Not: the parsing by ast, the search for the name before Python 3.8, the text of the attaching code (one line starting with a letter). | A small reader gives what Python reads after a statement: the end, a new line, or a statement on the same line after one semicolon. The offset is right for ASCII lines without characters at which only splitlines ends a line (induction over the text before the import). The skipped characters are a maximal run without its last newlines, which is unique; the reader finds the attaching code after it exactly if the run has blanks and then at most one semicolon. |
| C69 | EvalText.v: splitlines and isspace for str and bytes, the removal of the indentation, the replacement of @LINE@, and the search for private attributes after a failed evaluation. Objects have the name of their class and the attributes which getattr finds; the outcome of Python's eval is given. Not: compilation, the evaluation itself, await, time limits (C15), what an evaluation assigns (C55). | The code of a text are its parts between line ends which are not only blanks. By induction over the lines: removing the same number of characters, all blanks, from each line removes them from each line of code, also where empty lines vanish; the model's check on all lines is one on the lines of code. The split at the dots gives back the names, so the search is a walk over the attributes. |
| C70 | Completion.v: the search for the token and the name before the cursor, the names offered for the frame and for an object, the filter and the positions sent. str.lower, str.isidentifier beyond ASCII, dir() and the evaluation of the token are given as functions. Not: the kinds and documentation of the items, IPython, names which are no texts, the XML protocol, a column of 0. | The characters before the cursor are uniquely a text which does not end with a name or dot followed by names joined by dots (induction from the end); the walk back returns the latter and split and join at the dots are inverse. What the client does is stated on the line, independently of how the name was found. |
| C71 | TypeView.v: get_type with its fallbacks, _get_type with its cache, str_from_providers with its cache, and the choice of the text in get_variable_details. What Python answers about values and classes, and what extensions answer, is given as functions which do not change. Not: how extensions are found, the text made of a value without extension, Jython, exceptions of evaluations shown in place of values. | Invariant over the sequence of values shown: every cached view is the proper one for some value seen as the class, hence for all of them; a cached text provider stays; a class of which no text was asked has no entry. The first text settles the entry by induction over the providers. |
| C72 | IgnoreExc.v: the two dictionaries of handle_exception, os.stat, linecache (checkcache, getlines, getline), the regular expression, and the command with its text. A file is its size and time and its lines; lines which cannot be read are none. Not: which exceptions get there (C40, C66), the suspension itself, translation of file names (C22). | Invariant over the history: where the remembered time is the present one, the remembered decisions are those of the present source and the entry of linecache is of the present file; times are those used so far, so a change makes all remembered ones differ. The text of the command is split back into its entries. The lines asked for follow by induction over the history. |
| C73 | TryInfo.v: the visitor on the statements of a module, with its infos on a heap as they are shared, the lines of a code object and the filter by them, and the tracer of a frame without caller. The decision is the one of ExcFlow.v. Python's way of running statements is the specification, in TryInfoProps.v: a relation which leaves open what is raised, what matches and which branches are taken, with the lines which CPython 3.11 gives to the events. Not: the lines of decorators, lambdas and comprehensions, generators, the collection from bytecode for Python before 3.11. | The visitor by induction over the syntax, with what it adds to the heap; the filter by the bounds of the lines of nested blocks; the decision by induction over runs: exceptions which are handled lie in a try statement and the code ends at a line which is neither that of a clause nor of raise, exceptions which leave end at a line which raised, at such a line, or were last raised outside of all try statements. |
| C74 | EvalUnblock.v: one evaluation of a thread and the callback as program counters with one step per action of the source, the other threads as they go into and out of the wait loop, set_suspend under its lock, the continuing by the client, and the notifications of Notify.v with all their operations. Not: the step commands, the interruption of the evaluation, evaluations in several threads at once, threads which begin or end. | An invariant over all interleavings relates the threads told as suspended to where they are, with the exception of the evaluating thread between callback and end; stages of the callback and of the end are invariants of their own, with a stop (or a continue) which is either due by the times or has been sent since. |
| C75 | RetVals.v: the conditions under which the return handlers of both engines record a value, the recording in the namespace of the caller, the stack of one thread between two stops, the option and the removal. Not: generators and coroutines, scoped stepping of IPython, the display of the variables, which returns the handlers get to see (a flag of the frame). | The calls made during a step are trees; by induction over them nothing is recorded inside of other frames (or only in the namespaces of the frames which call), and each direct call adds its value, the last one of a name winning. |
| C76 | Detach.v: the four kinds of breakpoints, the threads with the stages of a stop, the requests of the client and the four steps of the disconnect, in any order with the steps of the threads. Not: conditions and hit counts, authentication and redirection (other properties), the options of the session. | The disconnect leaves no breakpoints but those on functions and all threads marked as running; that no thread is to stop is then an invariant of the steps of the threads; a new session is compared with one in a fresh debugger, request by request. |
| C77 | DontTrace.v: the search for the comments in the lines of a file with its two loops, the cache of lines to ignore, linecache, the switch, the answer kept per frame and the two places where stepping asks. Not: what a step wants (C12), and stepping with sys.monitoring, which keeps the answer per code object instead of per frame and, unlike sys.settrace, ignores breakpoints in marked functions too. | The loops are compared with a specification of which lines a mark reaches, by induction over the lines; that all caches agree with the file is an invariant of the operations. |
| C78 | StartEnv.v: the debugger's own entry of sys.path, PyDB.run for scripts, directories, archives and modules, save_main_module, and the copy of runpy with the temporary main module; the file system and what the import system finds are parameters, what the program does to sys is an arbitrary function. Not: the parsing of the command line (C26), compiled files, functions as entry points. | By computation on each kind of program, compared with a description of what Python does without the debugger; imports are compared as the first entry which has the module. |
| C79 | TraceProp.v: property objects and the names they are bound to, with Python's property and with the debugger's class; programs as trees of lines, calls, accesses and exceptions, with the state of tracing of the thread and of each function; the command. Not: documentation strings, sys.monitoring (there the lines of an accessor are seen too, not only its calls, once tracing is on again), other threads. | Both kinds of properties are run on the same program and compared by induction over the program; the objects by a simulation in which each name has its own object. |
| C80 | ThreadId.v: thread objects with addresses which can be used again, the attribute with the id, the dictionary which keeps the objects alive, the process number. Not: objects without the attribute being settable, wait of a thread for the lock. | Invariant: whoever has an id made from an address is held by the dictionary at that address; the text of an id determines process and address since decimal numbers contain no underscore. |
| C81 | DapMessage.v: one interpreter for the form all generated classes have (parameters, defaults, fixed values, enums, other classes, lists, ids, names not known), over tables of properties; DapSchema.v: the tables of all 254 classes and of the registered names, written from pydevd_schema.py by a script. Not: the encoding of JSON as text, error answers without a required part, lists of objects mixed with others. | Induction over the depth of classes; dictionaries are compared by what is found under each name; the ids in the output are compared with a specification which walks the output along the classes at any depth, and a computation shows that the real classes have no ids below the items of lists. |
| C82 | ArrayView.v: array_to_meta_xml, array_to_xml, dataframe_to_xml and table_like_struct_to_xml over nested lists of numbers, with the failures of numpy and pandas as None. Not: the text of the XML (C57), the minimum and maximum of an array, formats but for percent s. | The loop over the cells is shown to give the rows and columns of a slice if each cell is found; slices of lists are compared by the places of their elements; one lemma for each branch of the code. |
| C83 | RunFile.v: UserModuleDeleter and runfile over sys.modules, sys.argv, __file__, directory and environment; the program is any function of these. Not: bytes as names, several namespaces, the printed log. | What a program sees at its start is stated by what any program makes of it; the deleter of a session is the one of its first run, by induction over the steps; parts of dotted names are specified by where they are in the name. |
| C84 | Getopt.v: gnu_getopt with all its helpers for any tables of options, and parse_cmdline. int and the lines of a configuration file are parameters. Not: what is printed, JSON of PYDEV_RUNFILES_FILTER_TESTS. | Items written on a command line are specified as a type with their text, their options and a condition each; reading the text of any list of items is shown by induction, and that every accepted command line is such a text by induction over the loop. Each setting is compared with the last value of its option by induction from the end. |
| C85 | ConsoleIn.v: need_more, do_exec_code, interrupt, the queue, Command, runsource, add_exec and DebugConsole.push with what they do to sys, the cache of consoles, the messages. What the compiler answers, what a command does to sys and what it writes are parameters. Not: IPython, Jython, the notification of a server, completions, getDescription. | Induction from the end over the events with an invariant: what was typed is the commands one after another and the rest, the commands are those taken and those queued, the buffer is the rest. Interrupts by a simulation between the console and a new one. The console of a frame by induction over the lines with any unfinished lines before them. Messages by induction over the texts written, each given by its lines. |
| C86 | ExcInfo.v: build_exception_info_response and make_thread_suspend_single_notification. Parameters: the lines of files and what traceback makes of entries. The frames of each exception are given (C44). Not: columns, the Visual Studio fields, a __module__ which is not text. | Induction over the chain with what was found so far; name, description and source stay once found; stacks grow by one text an exception, which is compared with a specification by entries. The stopped event by cases over the reasons. |
| C87 | RealCase.v: _resolve_listing, _resolve_listing_parts and the two functions for Windows and the Mac. Parameters: the separator, the case of characters, what listdir says. Not: short names of Windows, splitdrive and normpath, the variant for Jython. | Invariant of the cache: what it knows is on the disk, maybe not all of it; kept by every call and by every growth of the disk. Paths are read in one way, so a key which differs in case alone belongs to the same directory. Induction over the parts: the walk arrives, or finds the cache too old, and from an empty cache it arrives. |

## 4. What is modelled and what is not

Modelled, by source file (with the properties using it). The comment of each definition cites the
lines and states the simplifications.

* `_pydev_bundle/_pydev_completer.py`: completions_to_xml (C57), extract_token_and_qualifier (C70), Completer (C70), generate_completions (C70)
* `_pydev_bundle/_pydev_execfile.py`: execfile (C83)
* `_pydev_bundle/_pydev_getopt.py`: gnu_getopt (C84), do_longs (C84), long_has_args (C84), do_shorts (C84), short_has_arg (C84)
* `_pydev_bundle/_pydev_imports_tipper.py`: generate_imports_tip_for_module (C70)
* `_pydev_bundle/fsnotify/__init__.py`: Watcher.set_tracked_paths (C52), Watcher.iter_changes (C52), _PathWatcher._check_dir (C52)
* `_pydev_bundle/pydev_console_utils.py`: BaseInterpreterInterface.need_more_for_code (C85), need_more (C85), do_exec_code (C85), execLine (C85), execMultipleLines (C85), interrupt (C85), add_exec (C85), CodeFragment (C85)
* `_pydev_bundle/pydev_monkey.py`: quote_arg_win32 (C24), str_to_args_windows (C24), patch_args (C25), remove_quotes_from_args (C25), is_python (C25), _LastFutureImportFinder (C68), _get_offset_from_line_col (C68), _separate_future_imports (C68), _get_python_c_args (C68)
* `_pydev_bundle/pydev_umd.py`: runfile (C83), UserModuleDeleter.__init__ (C83), UserModuleDeleter.is_module_ignored (C83), UserModuleDeleter.run (C83)
* `_pydev_runfiles/pydev_runfiles.py`: PydevTestRunner (C58), parse_cmdline (C84), Configuration (C84)
* `_pydev_runfiles/pydev_runfiles_parallel.py`: execute_tests_in_parallel (C58), CommunicationThread.GetTestsToRun (C58)
* `_pydev_runfiles/pydev_runfiles_parallel_client.py`: run_client (C58), ServerComm (C58)
* `_pydev_runfiles/pydev_runfiles_unittest.py`: PydevTestResult (C58)
* `_pydevd_bundle/_debug_adapter/__main__pydevd_gen_debug_adapter_protocol.py`: update_class_to_generate_init (C81), update_class_to_generate_to_json (C81)
* `_pydevd_bundle/_debug_adapter/pydevd_base_schema.py`: _translate_id_to_dap (C14), _translate_id_from_dap (C14), BaseSchema (C51, C81), from_dict (C81)
* `_pydevd_bundle/_debug_adapter/pydevd_schema.py`: all classes (C81)
* `_pydevd_bundle/pydevconsole_code.py`: InteractiveInterpreter.runsource (C85), InteractiveConsole.push (C85)
* `_pydevd_bundle/pydevd_additional_thread_info_regular.py`: _update_stepping_info (C33), any_thread_stepping (C33, C49, C50), _get_related_thread (C33)
* `_pydevd_bundle/pydevd_api.py`: PyDevdAPI.add_breakpoint (C06, C38), remove_breakpoint (C06), remove_all_breakpoints (C06, C38, C62, C76), reapply_breakpoints (C38), PyDevdAPI.add_python_exception_breakpoint (C39), remove_python_exception_breakpoint (C39), remove_all_exception_breakpoints (C39, C76), request_set_next (C59), set_show_return_values (C60), stop_on_entry (C60), PyDevdAPI.request_terminate_process (C67), PyDevdAPI.terminate_process (C67), PyDevdAPI._terminate_child_processes_linux_and_mac (C67), PyDevdAPI._terminate_child_processes_windows (C67), PyDevdAPI.set_show_return_values (C75), PyDevdAPI.request_disconnect (C76), set_function_breakpoints (C76)
* `_pydevd_bundle/pydevd_breakpoints.py`: LineBreakpoint.handle_hit_condition (C07, C20), get_exception_breakpoint (C08), ExceptionBreakpoint (C08), stop_on_unhandled_exception (C40, C66)
* `_pydevd_bundle/pydevd_bytecode_utils.py`: _convert_target_to_variant (C53), get_smart_step_into_variant_from_frame_offset (C53)
* `_pydevd_bundle/pydevd_bytecode_utils_py311.py`: _get_smart_step_into_targets (C53), calculate_smart_step_into_variants (C53)
* `_pydevd_bundle/pydevd_collect_bytecode_info.py`: _Visitor (C73), TryExceptInfo (C73), collect_try_except_info_from_source (C73)
* `_pydevd_bundle/pydevd_comm.py`: ReaderThread._read (C01), ReaderThread._read_line (C01), ReaderThread._on_run (C01, C37, C51), ReaderThread (C02), WriterThread.add_command (C04), WriterThread._on_run (C04), InternalThreadCommandForAnyThread (C16), ReaderThread.do_kill_pydev_thread (C37), internal_get_variable_json (C51), internal_change_variable_json (C51, C54), internal_evaluate_expression_json (C51, C65), internal_set_expression_json (C51, C65), internal_get_completions (C51, C70), internal_get_step_in_targets_json (C51, C53), internal_get_exception_details_json (C51), InternalGetThreadStack (C51), InternalSetNextStatementThread (C51, C59), FSNotifyThread._on_run (C52), internal_get_smart_step_into_variants (C53), internal_smart_step_into (C53), internal_change_variable (C54), internal_get_frame (C57), InternalGetVariable.do_it (C57), build_exception_info_response (C86)
* `_pydevd_bundle/pydevd_command_line_handling.py`: setup_to_argv (C26), process_command_line (C26), ArgHandlerWithParam (C26), ArgHandlerBool (C26)
* `_pydevd_bundle/pydevd_console.py`: ConsoleMessage (C85), DebugConsole.push (C85), get_interactive_console (C85), execute_console_command (C85)
* `_pydevd_bundle/pydevd_constants.py`: get_thread_id (C80), get_current_thread_id (C80), clear_cached_thread_id (C80), set_thread_id (C80)
* `_pydevd_bundle/pydevd_custom_frames.py`: add_custom_frame (C36, C43), update_custom_frame (C36, C43), remove_custom_frame (C36, C43)
* `_pydevd_bundle/pydevd_dont_trace.py`: default_should_trace_hook (C77), clear_trace_filter_cache (C77), trace_filter (C77)
* `_pydevd_bundle/pydevd_extension_api.py`: TypeResolveProvider (C71), StrPresentationProvider (C71)
* `_pydevd_bundle/pydevd_filtering.py`: _check_matches (C09), glob_matches_path (C09, C41), FilesFiltering.in_project_roots (C10), _fix_roots (C10), FilesFiltering.exclude_by_filter (C11, C41), set_exclude_filters (C11)
* `_pydevd_bundle/pydevd_frame.py`: PyDBFrame.trace_dispatch (C31, C32, C48, C66), should_stop_on_exception (C40, C66), PyDBFrame.trace_dispatch (CMD_SMART_STEP_INTO) (C53), trace_dispatch (C63, C64, C75), handle_exception (C66, C72), is_unhandled_exception (C66, C73), PyDBFrame.trace_exception (C66), IGNORE_EXCEPTION_TAG (C72), filename_to_lines_where_exceptions_are_ignored (C72), filename_to_stat_info (C72), PyDBFrame._show_return_values (C75), _remove_return_values (C75), PyDBFrame.trace_dispatch (should_skip (C77), return to a caller) (C77)
* `_pydevd_bundle/pydevd_frame_utils.py`: create_frames_list_from_traceback (C44), create_frames_list_from_exception_cause (C44), _utf8_byte_offset_to_character_offset (C45), _LineColInfo.map_columns_to_line (C45)
* `_pydevd_bundle/pydevd_gevent_integration.py`: greenlet_events (C43)
* `_pydevd_bundle/pydevd_io.py`: start_redirect (C27), end_redirect (C27), redirect_stream_to_pydb_io_messages (C27), stop_redirect_stream_to_pydb_io_messages (C27), IORedirector (C27)
* `_pydevd_bundle/pydevd_json_debug_options.py`: DebugOptions (C60), bool_parser (C60), int_parser (C60), _build_debug_options (C60), _parse_debug_options (C60), _extract_debug_options (C60)
* `_pydevd_bundle/pydevd_net_command.py`: NetCommand.__init__ (C02, C03), NetCommand.send (C02), NetCommand.next_seq (C03), NetCommand (C57)
* `_pydevd_bundle/pydevd_net_command_factory_json.py`: NetCommandFactoryJson.make_get_thread_stack_message (C34, C45, C46), ModulesManager.track_module (C46), make_get_completions_message (C70), make_thread_suspend_single_notification (C86)
* `_pydevd_bundle/pydevd_net_command_factory_xml.py`: _iter_visible_frames_info (C44), NetCommandFactory (C57)
* `_pydevd_bundle/pydevd_process_net_command.py`: process_net_command (C05), _PyDevCommandProcessor.cmd_set_break (C35), _PyDevCommandProcessor.cmd_add_exception_break (C47), cmd_remove_exception_break (C47), cmd_change_variable (C54), cmd_ignore_thrown_exception_at (C72), cmd_enable_dont_trace (C77), cmd_set_property_trace (C79)
* `_pydevd_bundle/pydevd_process_net_command_json.py`: process_net_command_json (C05), IDMap (C14, C59), PyDevJsonCommandProcessor._get_hit_condition_expression (C20), PyDevJsonCommandProcessor.on_setbreakpoints_request (C38), PyDevJsonCommandProcessor.on_setexceptionbreakpoints_request (C40), _convert_rules_to_exclude_filters (C41), PyDevJsonCommandProcessor.process_net_command_json and every on_*_request (C51), on_stepin_request (C53), on_gototargets_request (C59), on_goto_request (C59), _resolve_remote_root (C60), _set_debug_options (C60), _handle_launch_or_attach_request (C60), on_disconnect_request (C60, C67), on_terminate_request (C67), on_completions_request (C70), PyDevJsonCommandProcessor.on_disconnect_request (C76)
* `_pydevd_bundle/pydevd_reload.py`: xreload (C56, C77), Reload.apply (C56), Reload._update (C56), Reload._update_function (C56), Reload._update_class (C56), Reload._update_method (C56), Reload._update_classmethod (C56), Reload._update_staticmethod (C56), Reload._handle_namespace (C56), code_objects_equal (C56)
* `_pydevd_bundle/pydevd_resolver.py`: get_var_scope (C19), TupleResolver.get_contents_debug_adapter_protocol (C28), MoreItems (C28, C65), MoreItemsRange (C28, C65), DictResolver (C42, C65), SetResolver (C42, C65), SetResolver.change_var_from_name (C54), DefaultResolver (C65), TupleResolver (C65), _does_obj_repr_evaluate_to_obj (C65), _apply_evaluate_name (C65)
* `_pydevd_bundle/pydevd_runpy.py`: run_path (C78), _run_module_as_main (C78), _run_module_code (C78), _run_code (C78), _TempModule (C78), _ModifiedArgv0 (C78)
* `_pydevd_bundle/pydevd_safe_repr.py`: SafeRepr (C12)
* `_pydevd_bundle/pydevd_save_locals.py`: save_locals (C54, C55), make_save_locals_impl (C54), update_globals_and_locals (C55)
* `_pydevd_bundle/pydevd_source_mapping.py`: SourceMappingEntry (C29), SourceMapping (C29)
* `_pydevd_bundle/pydevd_suspended_frames.py`: _FramesTracker (C13), SuspendedFramesManager (C13), _AbstractVariable._group_entries (C19), _FrameVariable.change_variable (C54), _ObjectVariable.change_variable (C54, C65), _ObjectVariable.get_children_variables (C65), _FrameVariable.get_children_variables (C65), _FramesTracker._register_variable (C65), _FramesTracker.obtain_as_variable (C65)
* `_pydevd_bundle/pydevd_thread_lifecycle.py`: mark_thread_suspended (C48, C49, C50, C74), internal_run_thread (C49, C50, C76), suspend_all_threads (C49, C50, C74), resume_threads (C74, C76), suspend_threads_lock (C74)
* `_pydevd_bundle/pydevd_timeout.py`: _TimeoutThread.process_handles (C15), _OnTimeoutHandle (C15, C74), TimeoutTracker.call_on_timeout (C15), TimeoutTracker (C74), _TimeoutThread (C74)
* `_pydevd_bundle/pydevd_trace_dispatch_regular.py`: ThreadTracer.__call__ (C63, C64), TopLevelThreadTracerOnlyUnhandledExceptions (C66), TopLevelThreadTracerNoBackFrame (C66, C73)
* `_pydevd_bundle/pydevd_traceproperty.py`: DebugProperty (C79), replace_builtin_property (C79)
* `_pydevd_bundle/pydevd_utils.py`: convert_dap_log_message_to_expression (C21), _extract_expression_list (C21), _extract_variable_nested_braces (C21), save_main_module (C78)
* `_pydevd_bundle/pydevd_vars.py`: change_attr_expression (C54, C63, C64), evaluate_expression (C55, C69), _expression_to_evaluate (C69), eval_in_context (C69), compile_as_eval (C69), _compile_as_exec (C69), _run_with_unblock_threads (C74), table_like_struct_to_xml (C82), array_to_xml (C82), array_to_meta_xml (C82), dataframe_to_xml (C82)
* `_pydevd_bundle/pydevd_xml.py`: make_valid_xml_value (C57), var_to_xml (C57), frame_vars_to_xml (C57), TypeResolveHandler (C71), get_variable_details (C71), _create_default_type_map (C71)
* `_pydevd_frame_eval/pydevd_frame_evaluator.template.pyx`: get_func_code_info (C62), _CacheValue.compute_force_stay_in_untraced_mode (C62), generate_code_with_breakpoints (C62), get_bytecode_while_frame_eval (C62)
* `_pydevd_frame_eval/pydevd_frame_tracing.py`: _pydev_needs_stop_at_break (C61), _pydev_stop_at_break (C61)
* `_pydevd_frame_eval/pydevd_modify_bytecode.py`: get_instructions_to_add (C61), insert_pydevd_breaks (C61), _PREDICT_TABLE (C61)
* `_pydevd_sys_monitoring/_pydevd_sys_monitoring.py`: _get_func_code_info (C49, C50), enable_code_tracing (C49, C50), _enable_code_tracing (C49, C50), _enable_step_tracing (C49, C50), _start_method_event (C49, C50), _line_event (C49, C50), _internal_line_event (C49, C50, C53), _return_event (C49, C50, C75), _stop_on_return (C49, C50), update_monitor_events (C49, C50), restart_events (C49, C50), _return_event (CMD_SMART_STEP_INTO) (C53), _raise_event (C66), _unwind_event (C66), _get_unhandled_exception_frame (C66), _show_return_values (C75)
* `pydevconsole.py`: Command (C85), process_exec_queue (C85)
* `pydevd.py`: _Authentication (C05), PyDB.consolidate_breakpoints (C06), PyDB.handle_breakpoint_condition (C07), PyDB._exclude_by_filter (C11), apply_files_filter (C11, C63, C64), set_project_roots (C11), set_exclude_filters (C11), set_use_libraries_filter (C11), _clear_caches (C11), PyDB.post_internal_command (C16, C51), PyDB.process_internal_commands (C16, C51, C80), get_internal_queue_and_event (C16), AbstractSingleNotificationBehavior (C17, C74), ThreadsSuspendedSingleNotification (C17, C51), PyDB.notify_thread_created (C18), notify_thread_not_alive (C18), set_enable_thread_notifications (C18), PyDB._do_wait_suspend (C31, C48, C49, C50, C51, C67), PyDB.on_breakpoints_changed (C32, C49, C50), PyDB.do_wait_suspend (C36, C74, C76), PyDB.add_break_on_exception (C39), PyDB.exclude_exception_by_filter (C40), set_trace_for_frame_and_parents (C48), PyDB.set_suspend (C49, C50, C74, C76), PyDB.set_trace_for_frame_and_parents (C49, C50), PyDB.setup_auto_reload_watcher (C52), set_next_statement (C59), do_wait_suspend (C59), _do_wait_suspend (C59, C63, C64), on_breakpoints_changed (C62), consolidate_breakpoints (C62), add_dont_terminate_child_pid (C67), PyDB.dont_terminate_child_pids (C67), PyDB.collect_try_except_info (C73), PyDB.on_disconnect (C76), PyDB.run (C78), PyDB._exec (C78), module level (this_dir) (C78), PyDB.enable_tracing (C79), PyDB.disable_tracing (C79)
* `pydevd_file_utils.py`: setup_client_server_paths (C22, C23), _map_file_to_server (C22), _map_file_to_client (C22), _next_source_reference (C23), create_source_reference_for_linecache (C23), create_source_reference_for_frame_id (C23), get_server_filename_from_source_reference (C23), set_ide_os (C60), get_fullname (C78), get_package_dir (C78), _resolve_listing (C87), _resolve_listing_parts (C87), get_path_with_real_case (C87), _get_path_with_real_case (C87)
* `pydevd_plugins/django_debug.py`: get_breakpoint (C63), cmd_step_into (C63), cmd_step_over (C63), stop (C63), suspend_django (C63), can_skip (C63), has_line_breaks (C63), change_variable (C63), DjangoTemplateFrame (C63), _is_django_render_call (C63), _is_django_resolve_call (C63), _is_django_context_get_call (C63), _get_template_line (C63)
* `pydevd_plugins/jinja2_debug.py`: get_breakpoint (C64), cmd_step_into (C64), cmd_step_over (C64), stop (C64), suspend (C64), can_skip (C64), has_line_breaks (C64), change_variable (C64), Jinja2TemplateFrame (C64), _is_jinja2_render_call (C64), _is_jinja2_context_call (C64), _is_jinja2_internal_function (C64), _find_jinja2_render_frame (C64), _get_jinja2_template_line (C64)
* `pydevd_plugins/pydevd_line_validation.py`: ValidationInfo._verify_breakpoints_with_lines_collected (C30)

Not modelled: the Cython versions of the tracing functions and the rewriting of bytecode by the frame evaluation mode
(`pydevd_cython*`, `_pydevd_frame_eval`; its decisions are property C62), attaching to running processes
(`pydevd_attach_to_process`), exceptions in Django and Jinja2 templates and their stepping under sys.monitoring,
what an expression means (evaluation is a function given to the model, except in C65), the bytecode analysis
of smart step into before Python 3.11, IPython and notebook consoles, which completions there are, Qt and other event loops,
the remaining handlers of the line based protocol, bodies of most responses, the text of values and types, thread creation and monkey patching of
modules other than the argument patching of processes, the nose, pytest and coverage parts of `pydev_runfiles`, and third-party code under
`_pydevd_bundle/_debug_adapter` generators, `pydev_ipython` and `third_party`.

Assumed about the environment: operations of dictionaries, lists and queues on one object are atomic,
threads interleave between them; sockets deliver bytes in order; CPython calls tracing functions as
described in `Step.v`. Functions of the operating system (path normalization, the case of file names,
directories) are arbitrary functions or parameters with the laws stated as hypotheses.

## 5. Assumptions of the theorems

`Print Assumptions` is run in the `*Props.v` files for every theorem named in `MANIFEST.json`. The result is
the same for all of them: "Closed under the global context" (771 printed, 0 with axioms). No axiom of
the standard library is used by any theorem. The names `Coq.ssr.ssrunder.Under_rel.*` which a whole-library
check may list are parameters of a module type of the standard library, loaded but not used.

## 6. Findings

Behaviour of the code which contradicts what a user would expect, each shown by a machine-checked
witness. Properties are worded to exclude them; the witness is next to the theorem.

* C01: For every stream without a Content-Length below -1 and every split into non-empty chunks. The refutation shows that a negative length makes the result depend on the chunks. (`reader_negative_length_refuted`)
* C02: For messages with at least one byte; an empty framed message ends the connection (refutation). (`wire_empty_message_refuted`)
* C03: Proved in full when each creation ends before the next begins, by whichever threads (seq_threads_turns_partial). For arbitrary interleavings only this holds: numbers are positive, even and bounded by the number of creations (seq_threads_any_partial). Missing because false: the increment is not locked, and two threads may get the same number (seq_threads_unique_refuted). (`seq_threads_unique_refuted`)
* C04: The refutation shows a command queued after the writer ended, because the test of the kill flag and the put are separate steps. (`writer_posted_is_sent_refuted`)
* C05: Both protocols. Findings: a login attempt when no token is configured locks the client out (auth_no_token_always_open_refuted); a correct login in the line protocol is answered by an error when the client has no token of its own (auth_login_confirmed_refuted). (`auth_no_token_always_open_refuted`, `auth_login_confirmed_refuted`)
* C06: Findings, each showing that a hypothesis is needed: an id added again does not decide for its line (breakpoints_readd_decides_refuted); removing by one name of a file removes those set by another name (breakpoints_alias_refuted); removing ignores the source mapping (breakpoints_remove_mapped_refuted); template plugins share one table of ids (breakpoints_template_kinds_separate_refuted). (`breakpoints_readd_decides_refuted`, `breakpoints_alias_refuted`, `breakpoints_remove_mapped_refuted`, `breakpoints_template_kinds_separate_refuted`)
* C08: Stated over all histories of requests. issubclass is any preorder; with multiple inheritance the registration order decides between incomparable superclasses (refutation). (`exception_multiple_inheritance_order_refuted`)
* C09: The meaning of one component with a bracket expression is whatever Python's fnmatch decides (an arbitrary function); * ? and ** are specified. glob_text covers drives, alternative separators and leading separators. A trailing ** needs at least one component (refutation); a leading separator is ignored (refutation). (`glob_directory_itself_refuted`, `glob_absolute_refuted`)
* C10: absolute_path and normcase are arbitrary functions. The refutation: the root '/' contains nothing. (`project_root_slash_refuted`)
* C11: Proved for sequential histories without unclearing removals of template breakpoints and with the module determined by file, function name and first line; the three refutations show that each condition is needed. (`filter_module_refuted`, `filter_removal_refuted`, `filter_race_refuted`)
* C12: raw_value off. The bound is explicit in the limits and the longest type name. Complete means equal to Python's repr, for fewer items than the limit; the refutations show what is displayed differently: exactly the limit, empty sets and nested empty lists, cut texts with apostrophes. (`repr_exact_limit_refuted`, `repr_empty_refuted`, `repr_cut_quote_refuted`)
* C13: Histories in which a suspended thread's frames and thread ids belong to one suspension at a time and objects held by a suspension keep their address to themselves (Python's allocator). shared_frame_refuted shows what happens otherwise. Fake frames and '*' are not modelled. (`shared_frame_refuted`)
* C14: Injectivity holds for any interleaving of threads; round trip and stability hold for each completed translation when translations do not overlap; with two threads translating the same id at once they are false, with witnesses. (`ids_stable_race_refuted`, `ids_round_trip_race_refuted`)
* C15: Every read and write of exec_on_timeout and of the end of the block is a separate step. The callback can still run after the block ended when it had already passed the check (witness). Killing the timer thread is not modelled. (`timeout_not_after_end_refuted`)
* C16: All interleavings of posts and of the steps of processing, without any lock. The order theorem is for threads that do not process commands from inside a command (flat); the witness shows that a nested stop reorders. Conservation assumes can_be_executed_by does not raise; the witness shows commands are lost when it does. (`cmd_fifo_nested_refuted`, `cmd_conserved_raise_refuted`)
* C17: Also: at most one 'stopped' per request, and what each event names. Witnesses: a late resume announces 'continued' after another thread stopped anew; nested stops of one thread forget it. (`single_stale_continued_refuted`, `single_nested_refuted`)
* C18: Per session (between enabling notifications), when each message is sent before another agent takes the lock. The messages are sent after the lock is released, so without that assumption only the counts hold for every schedule; the order is refuted with a witness, and so is the statement across sessions. (`thread_events_order_refuted`, `thread_events_sessions_refuted`)
* C20: Numbers without leading zeros; python eval is modelled for the comparison and remainder expressions that occur. The refutations are a number typed with a leading zero, which never stops, and a condition together with a hit condition, where either suffices. (`hit_condition_leading_zero_refuted`, `hit_and_condition_refuted`)
* C21: Python's % operator is described for the conversions that occur. The refutations show that a percent sign in a message with placeholders, or a comma at the top level of a placeholder, breaks it. (`log_percent_refuted`, `log_double_percent_refuted`, `log_comma_refuted`)
* C22: absolute_path and the real-case lookup are arbitrary functions that keep the normalized name. The refutations show what fails for overlapping roots, for directories whose names begin like a root, and for Unix names with backslashes. (`path_sibling_refuted`, `path_overlap_refuted`, `path_backslash_refuted`)
* C23: Changing the mappings later restarts the numbers without clearing two of the tables (source_ref_setup_refuted); a thread may find a translated name before its reference is stored (source_ref_race_refuted). (`source_ref_race_refuted`, `source_ref_setup_refuted`)
* C24: The splitting is the debugger's own splitter, modelled separately from the quoting. The two refutations show that the excluded arguments do change. (`win_args_backslash_refuted`, `win_args_newline_refuted`)
* C25: The refutations show that on Windows quotes an argument has of its own are lost, and that the one-string form loses its quoting when it is not patched. (`patch_win_quotes_refuted`, `patch_win_str_refuted`)
* C26: With --DEBUG the parser never ends (cmdline_debug_refuted); the Qt mode is not passed on (cmdline_qt_refuted); a parent started with --protocol-http and switched to another protocol starts children with http (child_protocol_refuted). (`cmdline_debug_refuted`, `cmdline_qt_refuted`, `child_protocol_refuted`)
* C27: Redirections that overlap without being nested are not undone (redirect_overlap_refuted); a capture without a binary buffer does not see binary output (capture_binary_refuted). (`redirect_overlap_refuted`, `capture_binary_refuted`)
* C28: Settings of 0 show an item twice or never end (list_view_settings_refuted); a list of exactly the initial size has an empty 'more' entry (list_view_empty_more_refuted); hexadecimal numbers are only used on the first page (stated in list_view_complete). (`list_view_settings_refuted`, `list_view_empty_more_refuted`)
* C29: Lookups are atomic; one interleaved with an installation may leave a stale answer (source_map_race_refuted). Runtime lines after the end of a cell are translated as well (source_map_after_end_refuted); cells sharing a runtime source go wrong and make the next request raise (source_map_same_source_refuted); on a case-insensitive system the same file under another case is refused (source_map_case_refuted). (`source_map_after_end_refuted`, `source_map_same_source_refuted`, `source_map_case_refuted`, `source_map_race_refuted`)
* C30: Setting another breakpoint after a breakpoint was moved puts the latter back on its old line, where it never stops (template_moved_then_edit_refuted); after a change of the template a breakpoint whose line became invalid is neither moved nor reported (template_changed_refuted); which of two breakpoints gets a line depends on the order (template_order_refuted). (`template_moved_then_edit_refuted`, `template_changed_refuted`, `template_order_refuted`)
* C31: A pause taking effect at a return shows the returning frame, and a step over given there is never ended (pause_at_return_step_refuted). A step over in a generator which ends by an exception is lost (step_over_generator_refuted). (`pause_at_return_step_refuted`, `step_over_generator_refuted`)
* C32: If breakpoints are set while the tracing function is at a line, that line may be cached as having none, and the breakpoint is missed (breakpoint_race_refuted). Running frames of library files within the project are not traced again when a breakpoint is set in them (breakpoint_in_library_refuted). (`breakpoint_race_refuted`, `breakpoint_in_library_refuted`)
* C33: With several threads the event of another thread may be set instead of the resumed one's: the loop variable shadows the parameter (resume_wakes_refuted); the thread then goes on when its wait of 0.2 s times out. A thread which ended while stepping and whose object was collected counts as stepping for ever (stepping_collected_refuted). (`resume_wakes_refuted`, `stepping_collected_refuted`)
* C34: Without a page size the starting frame is not taken into account (page_start_refuted). (`page_start_refuted`)
* C35: A condition with NEW_LINE_CHAR between two tabs is not restored (set_break_escape_refuted). A command with a hit condition but no log point flag is accepted, the hit condition becoming part of the expression (set_break_hit_refuted). (`set_break_escape_refuted`, `set_break_hit_refuted`)
* C36: With several threads suspended, resuming one also removes the frames shown for the others: every frame's id is kept, not only those of the thread (custom_frames_others_refuted). (`custom_frames_others_refuted`)
* C38: Python line breakpoints; the file must be named the same way in all requests. The refutation shows that changing the source mapping undoes a line adjustment. (`breakpoints_reapply_keeps_line_refuted`)
* C39: The refutation shows that adding the same exception again for another purpose does not undo the first request. (`exception_readd_replaces_refuted`)
* C40: Python exceptions; template plugins are an input that is assumed not to stop. Refutations: break mode never does not override always for a superclass; a name missing from an existing module aborts the request. (`dap_never_overrides_refuted`, `dap_unknown_name_skipped_refuted`)
* C41: os.path.isdir is an arbitrary function. The refutation: the '**' appended to a directory counts in the length comparison, so a file with a name of one or two characters can lose against its directory. (`rules_file_beats_directory_refuted`)
* C42: The note appears even when nothing is missing (dict_view_note_refuted); sets show one item more than the limit (set_view_complete); representations that imitate the identity suffix collide (dict_view_names_refuted). (`dict_view_names_refuted`, `dict_view_note_refuted`)
* C43: If a switch was not reported, the update of a greenlet already recorded passes its name as thread id and the thread id as name, so the greenlet is no longer shown for its thread (greenlets_missed_refuted). (`greenlets_missed_refuted`)
* C44: An exception raised from None still shows the hidden one (exception_suppressed_refuted). A cause which was never raised hides what it comes from (exception_cause_hidden_refuted); exception_all_shown assumes that every cause has a traceback. A frame which is twice in the traceback is shown twice with its outer line (exception_reraised_refuted). (`exception_suppressed_refuted`, `exception_cause_hidden_refuted`, `exception_reraised_refuted`)
* C45: Columns count characters, not UTF-16 units, in which the protocol counts (columns_utf16_refuted). The parser which finds the interesting part is a parameter. (`columns_utf16_refuted`)
* C46: Two stack traces built at the same time may both find a file to be new: the second then raises TypeError, is never answered, and modules it registered are never announced (modules_race_refuted). (`modules_race_refuted`)
* C49: Under two conditions, shown to be needed. Findings: a breakpoint put into a generator which is waiting to be resumed and had no breakpoint is missed (mon_generator_breakpoint_refuted); one added while a callback for its line is about to answer DISABLE is missed (mon_disable_race_refuted). (`mon_generator_breakpoint_refuted`, `mon_disable_race_refuted`)
* C50: For threads stopped at a breakpoint or a step, or at an exception when every stop stops all threads. Findings: otherwise a step from an exception never stops when there is no line or function breakpoint (mon_step_after_exception_refuted); pausing one thread is without effect for ever when another thread runs the same lines first (mon_pause_one_refuted); a pause does not stop a thread which is stepping over a call that does not return (mon_pause_while_stepping_refuted); an exception leaving the frame stepped over loses the step (mon_step_over_unwind_refuted); so does stepping out to a caller marked with DontTrace (mon_step_out_dont_trace_refuted); stepping into does not stop in a generator which is resumed (mon_step_into_generator_refuted); from a coroutine a step into my code stops in other code (mon_step_into_my_code_coroutine_refuted). (`mon_step_after_exception_refuted`, `mon_pause_one_refuted`, `mon_pause_while_stepping_refuted`, `mon_step_over_unwind_refuted`, `mon_step_out_dont_trace_refuted`, `mon_step_into_generator_refuted`, `mon_step_into_my_code_coroutine_refuted`)
* C51: Findings: requests of the protocol which pydevd does not support are never answered (rpc_unsupported_refuted); a goto for a thread which ended is never answered (rpc_goto_gone_refuted), nor one whose thread is continued before it jumps (rpc_goto_forgotten_refuted); a step, pause or continue for an id which is not that of a thread ends the session (rpc_bad_thread_refuted), and so do breakpoints for a source without a path (rpc_no_path_refuted); completions of a frame which is gone are answered by a message which is not one of the protocol (rpc_completions_refuted); with one notification for all threads a continue while nothing is stopped waits until something stops (rpc_continue_idle_refuted). (`rpc_unsupported_refuted`, `rpc_goto_gone_refuted`, `rpc_goto_forgotten_refuted`, `rpc_bad_thread_refuted`, `rpc_no_path_refuted`, `rpc_completions_refuted`, `rpc_continue_idle_refuted`)
* C52: For watched paths none of which is inside another and whose accepted entries can be examined; watch_at_most_once and watch_quiet without these conditions. Findings: an entry which cannot be examined (a link to nothing) with an accepted name hides the entries listed after it, so unchanged files are reported as deleted (watch_dangling_refuted); for paths inside each other the first listing visits the longest first but the rounds follow the order of a set, so a file too deep for the outer path is reported as deleted (watch_nested_refuted); one directory under two spellings (with and without a slash at the end) reports every file as added in every round (watch_spelling_refuted). A change which keeps time and size is not seen; a file deleted and made again between rounds is reported as modified. (`watch_dangling_refuted`, `watch_nested_refuted`, `watch_spelling_refuted`)
* C53: The smart_inner theorems are for one inner code; smart_labels and smart_offered for any. Codes of Python 3.11 and later. Findings: having chosen a call of an inner code, the frame between is not looked at, so a function called by any function the frame calls may be where it stops (smart_inner_other_refuted); two lambdas in one call cannot be told apart (smart_inner_two_refuted); the limit of fifteen is left by inner calls only for their own loop (smart_limit_refuted); asking for the variants of some lines fails when an inner call is on another line (smart_lines_refuted); labels are cut by byte columns as if these counted characters (smart_text_refuted); a function called by an operator after the chosen call, and before the next one, counts as the chosen one (smart_operator_refuted); whether an inner call was made is found by comparing its offset with one of the outer code (smart_visited_refuted). (`smart_inner_other_refuted`, `smart_inner_two_refuted`, `smart_limit_refuted`, `smart_lines_refuted`, `smart_text_refuted`, `smart_operator_refuted`, `smart_visited_refuted`)
* C54: For an expression whose value does not depend on how often it is evaluated (steady), names not starting with Globals and values without the at sign. Findings: a variable named Globals_x is taken for the global x (change_prefix_refuted); a failed change is answered as a success with the old value (change_failure_shown_refuted); from Python 3.13 on the expression is evaluated twice, and the answer is not what is stored (change_twice_refuted, and change_once for the versions before); a grouped or hidden variable is changed and the answer is a failure (change_hidden_refuted); @LINE@ within a string is replaced (change_line_refuted); a tab in the value makes its first part a name (change_tab_refuted); the name given for a new item of a set equal to another is of no item (change_set_refuted). (`change_prefix_refuted`, `change_failure_shown_refuted`, `change_twice_refuted`, `change_hidden_refuted`, `change_line_refuted`, `change_tab_refuted`, `change_set_refuted`)
* C55: console_session is for codes which remove no name. Findings: deleting a variable of a function has no effect before Python 3.13 and makes it None later (console_delete_refuted); an assignment expression in the console is not kept, though it is when watched (console_walrus_refuted); assigning a global while in a function, with the global statement too, does not change the global (console_global_refuted); an unbound variable assigned the very object its global has stays unbound (console_same_refuted, which the comment in the source knows). (`console_delete_refuted`, `console_walrus_refuted`, `console_global_refuted`, `console_same_refuted`)
* C56: For namespaces in which no old object corresponds to two new ones and no new object is old too (well), functions with the same number of free variables, and codes apart from their first line. Findings: a name imported from another module than before overwrites the code of the function of the first module (reload_import_refuted); two names of one function get the code of either (reload_alias_refuted); a function which only moved keeps its old lines, so that breakpoints miss it (reload_lines_refuted); keyword-only defaults stay (reload_kwdefaults_refuted); a closure with another number of free variables gets the new documentation and keeps the old code (reload_closure_refuted); an added function does not see the variables of the module (reload_added_refuted), an added class derives from a copy of its base (reload_added_class_refuted); the hook is not called when the type changed (reload_hook_refuted); one failing hook prevents the others (reload_after_refuted); a class with two names is told twice (reload_twice_refuted); references from a class to itself double the work with each level of recursion (reload_loop_refuted). (`reload_import_refuted`, `reload_alias_refuted`, `reload_lines_refuted`, `reload_kwdefaults_refuted`, `reload_closure_refuted`, `reload_added_refuted`, `reload_added_class_refuted`, `reload_hook_refuted`, `reload_after_refuted`, `reload_twice_refuted`, `reload_loop_refuted`)
* C57: For types, names of functions and ids which can be written in XML, thread names and files without the characters XML escapes. Findings: the answer on the exception of a thread which is not suspended is not well-formed (xml_details_refuted); a variable with a surrogate is missing, and the other children of its container with it (xml_surrogate_refuted); thread names and files are escaped before they are percent encoded, so that R&D is read with the entity in it (xml_thread_refuted, xml_file_refuted); names of frames shown as threads are not percent encoded, those of threads are (xml_thread_ambiguous_refuted); a file name which could not be decoded or a control character in the text of a chained exception makes the stack unreadable (xml_undecoded_refuted, xml_chained_refuted); tabs in completions and ends of lines in the message of a stop become blanks (xml_tab_refuted, xml_message_refuted). (`xml_details_refuted`, `xml_surrogate_refuted`, `xml_thread_refuted`, `xml_thread_ambiguous_refuted`, `xml_file_refuted`, `xml_undecoded_refuted`, `xml_chained_refuted`, `xml_tab_refuted`, `xml_message_refuted`)
* C58: For classes with identifiers as names and without runTest, files without a bar; with single tests given to processes, classes of different names. Findings: a class with only runTest is run again with each batch of its file (runner_runtest_refuted); a class bound to two names runs four times instead of two in several processes (runner_alias_refuted); tests of a file with a bar in its path are never run in several processes (runner_bar_refuted); a file given twice is run twice by one process and once by several (runner_twice_refuted); when all processes die the run ends with the rest not run and not reported (runner_lost_refuted); a named method without the prefix test is not run when its class is named too (runner_prefix_refuted); a test with a failing subtest is reported as passed at the end (runner_subtest_refuted); an error after a skip is not reported (runner_skip_refuted). (`runner_runtest_refuted`, `runner_alias_refuted`, `runner_bar_refuted`, `runner_twice_refuted`, `runner_lost_refuted`, `runner_prefix_refuted`, `runner_subtest_refuted`, `runner_skip_refuted`)
* C59: While the debugger is not disposed of. Findings: the file of a goto target does not count, the top frame is moved to that line of its own file (goto_file_refuted); a refusal when a function is called or returns has no text (goto_return_refuted); a goto followed by a stop of all threads or a continue before it is executed is neither executed nor answered (goto_lost_refuted); when the connection is lost after a successful goto the debugged program gets a ValueError from the debugger, as the empty message is read as a number (goto_dispose_refuted); a step into a function by name leaves the number of the request as the message of the thread (goto_smart_refuted). (`goto_file_refuted`, `goto_return_refuted`, `goto_lost_refuted`, `goto_dispose_refuted`, `goto_smart_refuted`)
* C60: Findings: after one attach a later one cannot ask to stop at an exit with 0 (options_exit_refuted) or to have no path mappings (options_mappings_refuted); jinja: false overrides flask: true (options_jinja_refuted); switches of one client stay in force for the next one after a disconnect (options_next_client_refuted); after an attach which failed because of its clientOS all later ones which do not give it fail, and a failed attach leaves some of its settings in force (options_os_refuted); a variablePresentation which does not mention protected variables changes them from inline to group (options_protected_refuted). (`options_exit_refuted`, `options_mappings_refuted`, `options_jinja_refuted`, `options_next_client_refuted`, `options_os_refuted`, `options_protected_refuted`)
* C61: frameeval_hit is for Python 3.10 and later and code in which what follows a label has a line. Findings: before Python 3.10 a line that is in the code twice (such as that of a finally) gets one call only, so the breakpoint is missed on the other way (frameeval_hit_refuted); from 3.10 on it is missed when the jump goes to an instruction without a line followed by the line before it in the code (frameeval_unlined_refuted). (`frameeval_hit_refuted`, `frameeval_unlined_refuted`)
* C62: Findings: a generator started with a breakpoint in its code cannot be resumed after all breakpoints of its file are removed, since the lines are intersected with None (framecache_failed_refuted); a generator whose code has all the calls it needs is left alone the first time it is resumed and traced from the second time on, since the flag for this is not remembered with the rest (framecache_again_refuted; slower only). (`framecache_failed_refuted`, `framecache_again_refuted`)
* C63: Findings: a variable of a template can never be changed: the call passes an argument scope which the method does not have, the exception is only logged and the client gets a successful response with the old value (django_set_variable, django_set_variable_refuted); step over from a template is lost when no template has a breakpoint any more (django_over_refuted); step return from a template acts as continue (django_return, django_return_refuted); a custom node whose render method calls its parameter anything but context ends the debugging of the thread as soon as its file has a breakpoint or one steps to it (django_no_context_refuted). (`django_set_variable_refuted`, `django_over_refuted`, `django_return_refuted`, `django_no_context_refuted`)
* C64: Findings: the first step over of a thread leaves a line out, and takes note of the wrong frame if another template is rendered there (jinja_over_first, jinja_over_refuted); after a step over and a continue the frame is never forgotten, so that in a later rendering step over never stops (jinja_over_stale_refuted); step over from the end of an included template is lost if the including one has no breakpoints (jinja_over_outer_refuted); a function of the program whose name begins with block_ is taken for a template and cannot be stepped into (jinja_enter_refuted); step return acts as continue (jinja_return, jinja_return_refuted); a variable of a template can never be changed (jinja_set_variable); a loop variable is not shown if its value is false, is shown under a cut name if its name has an underscore, and is shown with the outer value if the context has a variable of that name (jinja_variables_refuted, jinja_variables_name_refuted, jinja_variables_outer_refuted). (`jinja_set_variable_refuted`, `jinja_over_refuted`, `jinja_over_stale_refuted`, `jinja_over_outer_refuted`, `jinja_enter_refuted`, `jinja_return_refuted`, `jinja_variables_refuted`, `jinja_variables_name_refuted`, `jinja_variables_outer_refuted`)
* C65: Findings: what is inside the value of an expression gets the text of that expression with a suffix but no parentheses, which is another expression, and changing it may change another variable (evaluate_expression_refuted, evaluate_expression_change_refuted); keys such as inf and members of an IntEnum give texts which are not the key (evaluate_float_key_refuted, evaluate_enum_key_refuted); attributes found in __dict__ get their name without quotation marks as the key (evaluate_dict_refuted); attributes whose name is no identifier, attributes which raise, and the argument .0 of a generator expression get expressions which are not them (evaluate_attribute_refuted, evaluate_raising_refuted, evaluate_argument_refuted); a variable of the module hidden by one of the frame gets the expression of the other, and changing an item of it changes the other one's (evaluate_hidden_refuted); the groups of a frame have a text which is no expression, what is in a group or after the first page has none and cannot be changed (evaluate_group_refuted, evaluate_grouped_refuted, evaluate_page_refuted); an object of two frames is shown with the expressions of the one listed last (evaluate_frames_refuted); lengths when the program defines len (evaluate_len_refuted). (`evaluate_expression_refuted`, `evaluate_expression_change_refuted`, `evaluate_float_key_refuted`, `evaluate_enum_key_refuted`, `evaluate_dict_refuted`, `evaluate_attribute_refuted`, `evaluate_raising_refuted`, `evaluate_hidden_refuted`, `evaluate_group_refuted`, `evaluate_grouped_refuted`, `evaluate_page_refuted`, `evaluate_frames_refuted`, `evaluate_len_refuted`, `evaluate_argument_refuted`)
* C66: Findings. Monitoring: the frame found for an exception object is kept, so the object raised again in a later callback of a thread not started by threading is not reported (flow_raised_again_refuted); an exception of code run through runpy is reported as unhandled although the caller catches it (flow_runpy_refuted); a line marked to be ignored hides an unhandled exception when user unhandled ones are asked for too (flow_ignored_line_refuted); the expression of a breakpoint is evaluated again when the exception leaves the frame (flow_expression_once_refuted). Tracing: exceptions handled by a with statement, by any handler in a function with a breakpoint, or on the line of the except, are reported as user unhandled (trace_with_refuted, trace_breakpoint_refuted, trace_except_line_refuted), or as unhandled in a first frame without caller (trace_first_frame_refuted); with both kinds of breakpoints it stops twice (trace_twice_refuted). With tracing, each stop for an exception leaving user code is for the last exception shown to that frame (trace_latest). (`flow_raised_again_refuted`, `flow_runpy_refuted`, `flow_ignored_line_refuted`, `flow_expression_once_refuted`, `trace_with_refuted`, `trace_breakpoint_refuted`, `trace_except_line_refuted`, `trace_first_frame_refuted`, `trace_twice_refuted`)
* C67: Findings. On Linux and macOS a process given to pydevd.add_dont_terminate_child_pid, which documents an int, is killed all the same: the listing compares texts (unix_numbers_ignored, unix_keeps_refuted; the test for it accepts that no process lives). A process whose parent ended before is not found (unix_orphan_refuted), nor one which the program starts after the last listing (unix_late_refuted). On Windows a process to be kept is killed if its parent is (win_keeps_refuted). (`unix_keeps_refuted`, `unix_orphan_refuted`, `unix_late_refuted`, `win_keeps_refuted`)
* C68: Findings. A blank after the semicolon (from __future__ import a; print(1)) makes the new code a syntax error, two semicolons in a row (blank_after_refuted). So does an indented comment or a line of blanks after the import, the attaching code then starts on an indented line (indented_comment_refuted). With a character beyond ASCII before the import on its line the code is cut behind the end of the import, as ast counts bytes (bytes_refuted); with a form feed before it, at a wrong place, as splitlines counts more lines than ast (form_feed_refuted). Code whose first statement is a compound one (python -c with for i in range(3): ...) becomes a syntax error (compound_refuted). (`blank_after_refuted`, `indented_comment_refuted`, `bytes_refuted`, `form_feed_refuted`, `compound_refuted`)
* C69: Findings. The text of a string over several lines loses blanks (string_refuted). A line within parentheses or a comment with fewer blanks than the first line leaves all code indented, which is a syntax error (continuation_refuted, comment_refuted). @LINE@ in a string of the user becomes a newline (mark_refuted). Private attributes are not found for classes whose name starts with an underscore, which Python leaves out (underscore_class_refuted), for attributes of a base class (inherited_refuted), and with a blank before the expression (blank_private_refuted). (`string_refuted`, `continuation_refuted`, `comment_refuted`, `mark_refuted`, `underscore_class_refuted`, `inherited_refuted`, `blank_private_refuted`)
* C70: The client counts the characters of the line from 0. Findings. After a call, an index or a text followed by a dot the names of the frame are offered instead of attributes or nothing (after_call_refuted). __class__ is offered twice for every object (class_twice_refuted). With the cursor after the end of the line the items replace another place (past_end_refuted). start counts from 0 although column counts from 1, where the protocol has both counted alike (start_from_one_refuted), and both are counted in characters where the protocol has UTF-16 code units (utf16_refuted). Names with digits or marks beyond ASCII are cut there (mark_in_name_refuted). length is that of the lower case, which can be longer (lower_length_refuted), and a capital sigma at the end of what was typed hides names (sigma_refuted). (`after_call_refuted`, `class_twice_refuted`, `past_end_refuted`, `start_from_one_refuted`, `utf16_refuted`, `mark_in_name_refuted`, `lower_length_refuted`, `sigma_refuted`)
* C71: The first sentence holds where values which say to be of one class are instances of the same known classes; a value which says to be of another class than it is changes the view of all values of that class (proxy_refuted). The second sentence holds where the first extension for the class fails for none of its values, or there is none; in general the first text asked for settles the extension for the class (text_first). Findings: one failure of an extension for one value takes its texts away from all values of the class (failing_provider_refuted); the same failure later shows the repr instead of the usual text (failing_later_refuted); an extension which raises when asked about a class takes away the view of dictionaries of that class (failing_question_refuted). (`failing_provider_refuted`, `failing_later_refuted`, `failing_question_refuted`, `proxy_refuted`)
* C72: A comment is what follows a number sign. Holds where files are neither created nor deleted and each change gives another size or time. Findings: a number sign in a text of the program counts as a comment (text_marked_refuted); a change which keeps size and time is not seen (same_time_refuted); a deleted file met under another name keeps its lines (deleted_refuted); a file put back as it was, with two names, keeps the lines of the version in between (restored_refuted); a file created after other code has read its source from a loader is not read (created_refuted); a line of a file which does not exist yet is asked for in vain (asked_early_refuted); a vertical bar in a name drops the rest of the command (bar_refuted). (`text_marked_refuted`, `same_time_refuted`, `deleted_refuted`, `restored_refuted`, `created_refuted`, `asked_early_refuted`, `bar_refuted`)
* C73: Holds for source with statements and clauses on lines of their own and no clauses with a star. An exception which leaves is reported where each try statement has one clause or one which takes everything, and finally is not mixed with except clauses (leaving_reported); a return is quiet where only except clauses take exceptions and the line of the return raised none before (return_quiet). Findings: a clause on one line with its body (one_line_refuted), a return from a line which raised before, as in a loop which tries again (retry_refuted), an exception swallowed by with (suppressed_refuted) or by return in finally (finally_return_refuted) are reported although nothing leaves; an exception which none of two clauses takes (two_clauses_refuted), or which leaves through a finally block (finally_missed_refuted, finally_again_refuted), is not reported; a clause with a star makes the visitor fail or count for the try statement around it (star_refuted, star_inside_refuted). Without a source all are reported (no_source_reported). (`one_line_refuted`, `retry_refuted`, `suppressed_refuted`, `finally_return_refuted`, `two_clauses_refuted`, `finally_missed_refuted`, `finally_again_refuted`, `star_refuted`, `star_inside_refuted`)
* C74: Proved for all interleavings in which the callback is not being run at the moment when the evaluation ends; stopped_again also needs that the client does not continue after that, let_go that no thread stops at a breakpoint while the threads are let go. Findings: the end of the evaluation does not wait for a callback which has begun (it takes another lock), so the client can be told last that the threads run while one is stopped (overlap_refuted), a KeyError is raised when it goes on (overlap_error_refuted), or the threads are let go and not stopped again (overlap_forgotten_refuted); a continue of the client during the evaluation is undone by its end (continue_undone_refuted); the reason of the stop becomes a breakpoint (reason_lost_refuted). (`overlap_refuted`, `overlap_error_refuted`, `overlap_forgotten_refuted`, `continue_undone_refuted`, `reason_lost_refuted`)
* C75: Proved for functions which are no generators, whose returns the debugger sees (not filtered out), with both engines; when tracing, if no exception leaves a function called directly. Findings: when tracing a function left by an exception is shown as one which returned None (raised_refuted); values of earlier steps remain shown (earlier_refuted); of two functions with the same name only one value is shown (same_name_refuted); turning the option off removes the values only from the present frame and its caller, and with sys.monitoring from none (off_kept_refuted); stepping out with sys.monitoring records more values than when tracing, because a condition is a pair and so always true (out_inside_refuted). (`raised_refuted`, `earlier_refuted`, `same_name_refuted`, `off_kept_refuted`, `out_inside_refuted`)
* C76: Proved if no function breakpoints were set and no thread is between finding that it has to stop and marking itself at the moment when the threads are resumed. Findings: function breakpoints are not removed, so that the program stops at one later and waits with no client (functions_kept_refuted); a thread which found a breakpoint just before marks itself, and in the mode with one notification all others, after the threads were resumed (late_mark_refuted). (`functions_kept_refuted`, `late_mark_refuted`)
* C77: Proved for files which were not changed since the last reload and in which something other than a decorator comes after each mark. Findings: a mark on the last line of a file makes the hook raise an IndexError at each event of a function of that file (last_line_refuted); a function right below a marked function of one line, or first inside a marked one, is skipped as well (neighbour_refuted); a mark added while the program runs has no effect without a reload through the debugger (added_late_refuted). (`last_line_refuted`, `neighbour_refuted`, `added_late_refuted`)
* C78: Proved for names which the debugger's own directory does not have (and, for an archive, the directory in which it lies), scripts which are not links and modules whose program does not change the current directory. Findings: the debugger's directory stays in sys.path before the program's libraries (own_dir_refuted); with -P or PYTHONSAFEPATH the first entry of PYTHONPATH is lost if the script lies below it (safe_path_refuted); a script which is a link does not find the modules beside its target (link_refuted); for a directory sys.argv[0] differs (dir_argv_refuted); after the last line of the script __main__ is another module, while threads may still run (main_gone_refuted); python -m searches in the directory of the start, the debugger in the current one (chdir_refuted). (`own_dir_refuted`, `safe_path_refuted`, `link_refuted`, `dir_argv_refuted`, `main_gone_refuted`, `chdir_refuted`)
* C79: Proved for properties whose decorators are applied to the property of the same name in the same class, and for accessors which use no other property. Findings: a subclass which adds a setter to an inherited property adds it to the base class (base_setter_refuted); abstract properties no longer are abstract (abstract_refuted); an accessor to be skipped which uses another property is traced from then on (nested_refuted); tracing is turned on in threads where it was off (turned_on_refuted); a command with three parts takes effect in part and fails (three_parts_refuted). (`base_setter_refuted`, `abstract_refuted`, `nested_refuted`, `turned_on_refuted`, `three_parts_refuted`)
* C80: Findings: the ids of a new child process are the parent's until the debugger sees that it knows no thread and clears them (fork_stale_refuted); a thread whose id was asked for is never freed, for the whole life of the process (never_freed_refuted). (`fork_stale_refuted`, `never_freed_refuted`)
* C81: Proved for JSON messages without null as id in the items of lists. dap_wf: the real classes satisfy the conditions of the general theorems. Findings: a breakpointLocations request without its optional arguments cannot be read (optional_arguments_refuted); a name self in a message makes it unreadable (self_refuted); a stack frame without source is sent with an empty source (empty_source_refuted); a null id of an item in a list is translated (null_item_refuted). (`optional_arguments_refuted`, `self_refuted`, `empty_source_refuted`, `null_item_refuted`)
* C82: Proved for parts of at least two rows or which reach the last row. Findings: one row asked for of a table with more rows below is answered with a column (one_row_refuted), one number of such a table cannot be shown (one_cell_refuted), nor can a vector of one number when more are asked for or an empty array (small_refuted); a part of a data frame which reaches beyond its last column fails (frame_edge_refuted). (`one_row_refuted`, `one_cell_refuted`, `small_refuted`, `frame_edge_refuted`)
* C83: Findings: a program which raises leaves __file__ and sys.argv behind (left_behind_refuted); __file__ with value None is lost, and a program which deletes __file__ makes the call fail (none_file_refuted); a project in a directory whose name only begins like the one of the installation counts as installation and its modules stay (alike_directory_refuted); quotation marks do not keep arguments together (quotes_refuted). (`left_behind_refuted`, `none_file_refuted`, `alike_directory_refuted`, `quotes_refuted`)
* C84: Findings: all short options which the help text and the code name are refused, for no short options are given to gnu_getopt (short_options_refuted, proved for all of them); an argument which is a single dash is lost (dash_refuted). (`short_options_refuted`, `dash_refuted`)
* C85: Findings: several lines given at once which are wrong as one statement and unfinished as a program are given up in silence (several_refuted); a text on which compiling raises an error other than those of syntax is answered as done with but stays and spoils the next command (breaks_refuted); a late KeyboardInterrupt drops lines typed after the command it was meant for (late_refuted); a hook set before the first command is lost (hook_refuted) and one set by a command replaces sys.__excepthook__ (original_hook_refuted); help.input is not given back (help_refuted); print(1, 2) in the console of a frame becomes two messages (print_refuted); after SystemExit the next line is run together with the one which raised it (exit_refuted); unfinished lines of a frame are lost when another frame is used in between (other_frame_refuted). (`several_refuted`, `breaks_refuted`, `late_refuted`, `hook_refuted`, `original_hook_refuted`, `help_refuted`, `print_refuted`, `exit_refuted`, `other_frame_refuted`)
* C86: Findings: with maxExceptionStackFrames the frames kept are the last of a list which begins with the innermost one, so the place where the exception was raised is left out (limit_refuted); an exception with an empty text is described with the text of its cause (description_refuted); one whose text raises has no stack trace, nor have its causes (text_refuted, chain_cut); of a statement of several lines the first line is missing and the line after it is added (several_lines_refuted), and with mapped paths it is looked for in the client's file (mapped_refuted). (`limit_refuted`, `description_refuted`, `text_refuted`, `several_lines_refuted`, `mapped_refuted`)
* C87: Findings: the root directory of the Mac becomes two separators (root_refuted); a file renamed to another case keeps the old one (renamed_refuted); a directory which may not be listed raises when the cache was too old, while otherwise the path is left as it is (refused_refuted). same_but_case assumes for Windows that upper case changes no lower case. (`root_refuted`, `renamed_refuted`, `refused_refuted`)

Noticed while reading, without a proof: the translation of ids leaves out
`TerminateThreadsArguments.threadIds` and `InvalidatedEventBody.stackFrameId`; variables of the groups
in a frame cannot be changed by `setVariable`; `remove_all_exception_breakpoints` does not update
`has_plugin_exception_breaks`; a line which is not UTF-8 ends the reader; `cmd_set_property_trace`
checks for three fields and reads a fourth; a timeout callback which adds a handle would block on its
own lock; stepping into a coroutine whose caller is filtered out loses the step.

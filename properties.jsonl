{"id": "C01", "title": "Scoped group restores launch configurations and environment", "statement": "Visiting a GroupAction with scoped=True, whatever its body does to launch configurations and environment variables (set, unset, append, reset, nested groups, includes), leaves the launch configurations and the environment exactly as they were before the visit, provided the visit does not raise.", "quantifier": "every starting context, every body built from the launch actions nested to any depth, forwarding on or off, any launch_configurations argument", "why_tests_cant": "bodies nest without bound and any action may touch any variable; a test samples a few bodies", "anchors": ["launch/launch/actions/group_action.py:GroupAction.get_sub_entities", "launch/launch/launch_context.py:LaunchContext._push_launch_configurations", "launch/launch/launch_context.py:LaunchContext._pop_environment"]}
{"id": "C02", "title": "What the body of a group sees", "statement": "In a scoped forwarding group the body starts from the outer launch configurations updated, in order, with the group's launch_configurations; in a scoped non-forwarding group it starts with exactly the given launch_configurations (evaluated against the outer launch configurations) and the environment the context was created with; in an unscoped group the group is equivalent to splicing its settings and actions into the parent.", "quantifier": "every context, every launch_configurations argument, every body", "why_tests_cant": "depends on all contexts and all substitutions used as names and values", "anchors": ["launch/launch/actions/group_action.py:GroupAction.get_sub_entities", "launch/launch/actions/reset_launch_configurations.py:ResetLaunchConfigurations.execute", "launch/launch/actions/reset_environment.py:ResetEnvironment.execute"]}
{"id": "C03", "title": "Push/pop of launch configurations, environment and locals is LIFO", "statement": "Each pop restores exactly the value current at the matching push, at any nesting; popping with no matching push raises and changes nothing; the three stacks do not interfere.", "quantifier": "every sequence of pushes, pops and updates of any length", "why_tests_cant": "unbounded histories", "anchors": ["launch/launch/launch_context.py:LaunchContext._push_locals", "launch/launch/launch_context.py:LaunchContext._pop_locals", "launch/launch/launch_context.py:LaunchContext._push_environment", "launch/launch/launch_context.py:LaunchContext._pop_environment", "launch/launch/launch_context.py:LaunchContext._push_launch_configurations", "launch/launch/launch_context.py:LaunchContext._pop_launch_configurations"]}
{"id": "C04", "title": "Context locals are globals overridden by locals, never stale", "statement": "After any history, context.locals / get_locals_as_dict() shows exactly the extensions made with extend_globals (permanent) overridden by the extensions made with extend_locals that have not been popped; caching never shows an outdated value.", "quantifier": "every sequence of extend_globals, extend_locals, push, pop and read operations", "why_tests_cant": "stale caches appear only on particular histories", "anchors": ["launch/launch/launch_context.py:LaunchContext.extend_globals", "launch/launch/launch_context.py:LaunchContext.extend_locals", "launch/launch/launch_context.py:LaunchContext._get_combined_locals"]}
{"id": "C05", "title": "Locals provided to one event handler are not visible afterwards", "statement": "While an event is processed each matching handler sees context.locals.event equal to that event, and when the event has been processed without exception the locals are exactly what they were before, whatever the handlers and visited entities added.", "quantifier": "every context, every set of handlers, every handler result", "why_tests_cant": "quantifies over arbitrary handlers and visited entities", "anchors": ["launch/launch/launch_service.py:LaunchService.__process_event", "launch/launch/event_handler.py:BaseEventHandler.handle"]}
{"id": "C06", "title": "Locals leak when a handler raises", "statement": "If a handler or an entity it returns raises while an event is processed, the locals it added stay visible to everything processed later (the restoring pop is skipped), so the isolation of C05 holds only for exception-free processing.", "quantifier": "existence of an event history exhibiting the leak, and the exact condition under which isolation holds", "why_tests_cant": "needs the exact characterisation of when isolation fails", "anchors": ["launch/launch/launch_service.py:LaunchService.__process_event"]}
{"id": "C07", "title": "Entities are visited depth first, left to right", "statement": "Visiting an entity executes it, then visits every entity it returned, completely and in order, before any later sibling; the futures collected are listed in the order in which the entities were finished (that of an entity after those of its descendants); nothing is visited twice or skipped.", "quantifier": "every tree of entities of any shape and depth", "why_tests_cant": "all tree shapes", "anchors": ["launch/launch/utilities/visit_all_entities_and_collect_futures_impl.py:visit_all_entities_and_collect_futures", "launch/launch/launch_description.py:LaunchDescription.visit", "launch/launch/action.py:Action.visit"]}
{"id": "C08", "title": "A false condition suppresses an action completely", "statement": "An action whose condition evaluates to False is not executed: the context is unchanged by the visit apart from what evaluating the condition itself does, no sub-entity is visited and no ExecutionComplete event is emitted; with a true or absent condition it is executed exactly once.", "quantifier": "every action, context and condition", "why_tests_cant": "all actions and contexts", "anchors": ["launch/launch/action.py:Action.visit", "launch/launch/condition.py:Condition.evaluate"]}
{"id": "C09", "title": "ExecutionComplete is emitted once per executed action, when someone listens", "statement": "When an executed action completes (immediately, or when its future is done), exactly one ExecutionComplete event for it is emitted if some registered handler matched it at visit time and none otherwise; this also holds if execution raised.", "quantifier": "every action, handler set and completion order", "why_tests_cant": "depends on handler sets and on asynchronous completion", "anchors": ["launch/launch/action.py:Action.visit", "launch/launch/launch_context.py:LaunchContext.would_handle_event"]}
{"id": "C10", "title": "Events are processed in the order they were emitted", "statement": "Events are processed one at a time, each completely before the next, in emission order, including events emitted while another event is being processed and events emitted before run(); none is lost or duplicated, also when the queue is recreated at the start of a run and when a handler raises.", "quantifier": "every sequence of emissions and every schedule of the run loop", "why_tests_cant": "all interleavings of emission and processing", "anchors": ["launch/launch/launch_context.py:LaunchContext.emit_event", "launch/launch/launch_context.py:LaunchContext.emit_event_sync", "launch/launch/launch_service.py:LaunchService._prepare_run_loop", "launch/launch/launch_service.py:LaunchService._process_one_event"]}
{"id": "C11", "title": "Every event reaches every matching handler, in registration order", "statement": "An event is handled by exactly the handlers that are registered when its processing starts and match it, each once per registration, most recently registered first (handlers registered with append=True after all earlier ones).", "quantifier": "every registration history, event and matcher", "why_tests_cant": "all registration histories", "anchors": ["launch/launch/launch_context.py:LaunchContext.register_event_handler", "launch/launch/launch_service.py:LaunchService.__process_event"]}
{"id": "C12", "title": "Handlers registered during an event do not see that event", "statement": "A handler registered while an event is processed is never matched against that event but is matched against all later ones until unregistered; a handler unregistered during an event still receives that event and no later one.", "quantifier": "every handler and every event history", "why_tests_cant": "all interleavings of registration with processing", "anchors": ["launch/launch/launch_service.py:LaunchService.__process_event", "launch/launch/actions/register_event_handler.py:RegisterEventHandler.execute", "launch/launch/actions/unregister_event_handler.py:UnregisterEventHandler.execute"]}
{"id": "C13", "title": "handle_once handlers run at most once", "statement": "An event handler created with handle_once=True and registered once handles exactly the first matching event processed after registration and no other.", "quantifier": "every event history", "why_tests_cant": "unbounded event histories", "anchors": ["launch/launch/event_handler.py:BaseEventHandler.handle", "launch/launch/launch_context.py:LaunchContext.unregister_event_handler"]}
{"id": "C14", "title": "Registration and unregistration are inverse", "statement": "Unregistering removes exactly one registration (the first) of that handler, keeps the order of all others, and raises, changing nothing, if the handler is not registered; register followed by unregister restores the handler sequence when the handler was not registered before.", "quantifier": "every handler sequence", "why_tests_cant": "all handler sequences", "anchors": ["launch/launch/launch_context.py:LaunchContext.register_event_handler", "launch/launch/launch_context.py:LaunchContext.unregister_event_handler"]}
{"id": "C15", "title": "Target matching of action event handlers", "statement": "OnProcessExit/OnProcessStart/OnProcessIO/OnExecutionComplete match exactly the events of their kind whose action is the target action, or satisfies the target predicate, or any if no target was given; OnProcessIO calls exactly the callback of the event's stream.", "quantifier": "every event and every target", "why_tests_cant": "all targets and predicates", "anchors": ["launch/launch/event_handlers/on_action_event_base.py:OnActionEventBase", "launch/launch/event_handlers/on_process_io.py:OnProcessIO"]}
{"id": "C16", "title": "run() returns only when shutting down and idle", "statement": "run()/run_async() returns only if it was cancelled, or a shutdown is in progress and at that moment the event queue is empty and every future collected from visited entities or added with add_completion_future is done.", "quantifier": "every schedule of events, futures, signals, shutdown requests and exceptions", "why_tests_cant": "all schedules", "anchors": ["launch/launch/launch_service.py:LaunchService.run_async", "launch/launch/launch_service.py:LaunchService._is_idle"]}
{"id": "C17", "title": "Idle shutdown", "statement": "With shutdown_when_idle=True, whenever the service finds itself idle and not shutting down it emits exactly one Shutdown event with reason 'idle'; with shutdown_when_idle=False it never shuts down by itself unless an exception occurs.", "quantifier": "every schedule", "why_tests_cant": "all schedules", "anchors": ["launch/launch/launch_service.py:LaunchService.run_async"]}
{"id": "C18", "title": "The service emits at most one Shutdown event per run", "statement": "However often shutdown() is called, SIGINT received, exceptions raised or idleness detected during one run, the service itself emits at most one Shutdown event, and none after a user-emitted Shutdown event has been processed to the end; only if another thread is inside shutdown() when the service decides to shut down for a different reason may it emit a second one (never a third).", "quantifier": "every sequence of shutdown requests, signals, exceptions and processed events", "why_tests_cant": "all interleavings", "anchors": ["launch/launch/launch_service.py:LaunchService._shutdown", "launch/launch/launch_service.py:LaunchService._prepare_run_loop", "launch/launch/launch_service.py:LaunchService.shutdown"]}
{"id": "C19", "title": "Return code reports failures", "statement": "run() returns 1 if and only if it noticed an exception or was cancelled, and it notices every exception raised by event processing or by a future it is waiting for at that moment (not that of a completion future that fails while events are queued); after an exception the service starts shutting down and keeps processing events until idle.", "quantifier": "every schedule", "why_tests_cant": "all schedules and exception points", "anchors": ["launch/launch/launch_service.py:LaunchService.run_async"]}
{"id": "C20", "title": "shutdown() on a service that is not running does nothing", "statement": "Calling shutdown() before run or after run has returned emits nothing and changes nothing; events emitted while not running stay queued for the next run, unless the last run was cancelled (then a task it left behind may take one).", "quantifier": "every history of a service", "why_tests_cant": "all histories", "anchors": ["launch/launch/launch_service.py:LaunchService.shutdown", "launch/launch/launch_service.py:LaunchService.emit_event"]}
{"id": "C21", "title": "A rejected concurrent run disturbs the running one", "statement": "A second run() attempted while one is in progress is rejected with an error, but in doing so it clears the running service's loop and shutting-down flag, so that a later shutdown() has no effect and emit_event from another thread takes the not-running path.", "quantifier": "existence of a history exhibiting it, from every running state", "why_tests_cant": "needs concurrency of two runs", "anchors": ["launch/launch/launch_service.py:LaunchService._prepare_run_loop"]}
{"id": "C22", "title": "A service that was shut down does not start processes in a later run", "statement": "After a run ended by shutdown the context stays marked as shut down, so in a second run of the same service process actions are executed without ever starting a process.", "quantifier": "every first run that was shut down and every later run", "why_tests_cant": "history dependent", "anchors": ["launch/launch/launch_service.py:LaunchService._shutdown", "launch/launch/actions/execute_local.py:ExecuteLocal.execute"]}
{"id": "C23", "title": "A process action executes at most once", "statement": "Executing the same ExecuteProcess/ExecuteLocal action a second time raises and starts nothing; an action executed after shutdown started never starts a process.", "quantifier": "every sequence of executions", "why_tests_cant": "all histories", "anchors": ["launch/launch/actions/execute_local.py:ExecuteLocal.execute"]}
{"id": "C24", "title": "Process life-cycle events alternate", "statement": "For every action the emitted life-cycle events are ProcessStarted, ProcessExited, ProcessStarted, ... with equal pid within a pair, ProcessExited carrying the real exit code; at most one process of the action is alive at any time.", "quantifier": "every schedule of starts, exits, failures, signals, respawns and shutdowns", "why_tests_cant": "all schedules", "anchors": ["launch/launch/actions/execute_local.py:ExecuteLocal.__execute_process"]}
{"id": "C25", "title": "Respawn bound", "statement": "With respawn off the process is started at most once; with respawn_max_retries = n >= 0 at most n+1 times; with a negative value without bound; every exit without shutdown (also a clean one) leads to a respawn while retries remain.", "quantifier": "every schedule and every n", "why_tests_cant": "unbounded number of exits", "anchors": ["launch/launch/actions/execute_local.py:ExecuteLocal.__execute_process"]}
{"id": "C26", "title": "No respawn once the action was told to shut down", "statement": "After the action processed a shutdown request (global Shutdown or matching ShutdownProcess) while its process was running or in its respawn delay, no further process is started by it and it completes when the current process has exited.", "quantifier": "every schedule", "why_tests_cant": "races between exit, respawn delay and shutdown", "anchors": ["launch/launch/actions/execute_local.py:ExecuteLocal._shutdown_process", "launch/launch/actions/execute_local.py:ExecuteLocal.__execute_process"]}
{"id": "C27", "title": "Completion of a process action", "statement": "The completion future of a process action is resolved at most once, exactly when its last process has exited (or failed to start) and no respawn follows; afterwards its escalation timers are cancelled and no signal reaches any process because of it.", "quantifier": "every schedule", "why_tests_cant": "all schedules", "anchors": ["launch/launch/actions/execute_local.py:ExecuteLocal.__cleanup", "launch/launch/actions/execute_local.py:ExecuteLocal.__execute_process"]}
{"id": "C28", "title": "Signal escalation", "statement": "When a running process is asked to shut down it is sent SIGINT first (unless the terminal already did), SIGTERM only if still running sigterm_timeout later, SIGKILL only if still running a further sigkill_timeout later, and nothing after it exited.", "quantifier": "every schedule and every pair of timeouts", "why_tests_cant": "timing races", "anchors": ["launch/launch/actions/execute_local.py:ExecuteLocal.__get_shutdown_timer_actions", "launch/launch/actions/execute_local.py:ExecuteLocal.__on_signal_process_event"]}
{"id": "C29", "title": "Shutdown requests are idempotent", "statement": "Any number of shutdown requests to one process action starts the escalation at most once.", "quantifier": "every sequence of requests and process states", "why_tests_cant": "all histories", "anchors": ["launch/launch/actions/execute_local.py:ExecuteLocal._shutdown_process"]}
{"id": "C30", "title": "Deferred shutdown of a process that is still starting", "statement": "A shutdown request that arrives before the process has started is not lost: as soon as the process has started the escalation begins; until then each start of any other process re-registers the request, so handlers accumulate.", "quantifier": "every schedule of starts of other processes", "why_tests_cant": "start-up races", "anchors": ["launch/launch/actions/execute_local.py:ExecuteLocal._shutdown_process"]}
{"id": "C31", "title": "Logged lines do not depend on how output was chunked", "statement": "For every way of splitting a process's output into chunks, the lines logged are exactly the newline-terminated lines of the whole output in order, followed at exit by the unterminated rest if any; nothing is lost, duplicated or reordered.", "quantifier": "every output text and every chunking", "why_tests_cant": "all chunkings of unbounded output", "anchors": ["launch/launch/actions/execute_local.py:ExecuteLocal.__on_process_output", "launch/launch/actions/execute_local.py:ExecuteLocal.__flush_buffers"]}
{"id": "C32", "title": "Cached output is complete", "statement": "With cached_output=True get_stdout()/get_stderr() always return the concatenation of everything received so far on that stream, and the lines logged are the same as without caching.", "quantifier": "every output text, chunking and time of the query", "why_tests_cant": "all chunkings", "anchors": ["launch/launch/actions/execute_local.py:ExecuteLocal.__on_process_output_cached", "launch/launch/actions/execute_local.py:ExecuteLocal.get_stdout"]}
{"id": "C33", "title": "Process names are unique", "statement": "Over any sequence of executed process actions, whatever their names, the final process names are pairwise different in their numeric suffix, and the suffixes increase.", "quantifier": "every sequence of prepares", "why_tests_cant": "unbounded sequences and arbitrary names", "anchors": ["launch/launch/descriptions/executable.py:Executable.prepare"]}
{"id": "C34", "title": "Environment of a started process", "statement": "A process gets exactly the given env if one was given, otherwise the context environment, in both cases overridden by additional_env; the context environment itself is unchanged.", "quantifier": "every context, env and additional_env", "why_tests_cant": "all environments", "anchors": ["launch/launch/descriptions/executable.py:Executable.prepare"]}
{"id": "C35", "title": "Timers fire at most once and never after cancellation", "statement": "Each execution of a TimerAction yields its actions at most once, not before its period elapsed, and not at all if it was cancelled before; its future is done in either case and a timer cancelled before execution completes immediately. The exception is a timer that is cancelled while waiting and executed again before its waiting task goes on: it yields its actions at once.", "quantifier": "every schedule of executions, cancellations and time", "why_tests_cant": "timing races", "anchors": ["launch/launch/actions/timer_action.py:TimerAction.execute", "launch/launch/actions/timer_action.py:TimerAction.cancel", "launch/launch/actions/timer_action.py:TimerAction._wait_to_fire_event"]}
{"id": "C36", "title": "Timers are cancelled by shutdown unless told otherwise", "statement": "With cancel_on_shutdown true, a Shutdown event processed before the period elapsed prevents the timer from firing; with false the timer fires normally.", "quantifier": "every schedule", "why_tests_cant": "timing races", "anchors": ["launch/launch/actions/timer_action.py:TimerAction.execute"]}
{"id": "C37", "title": "Condition expressions", "statement": "A condition expression is accepted exactly if, stripped and lower-cased, it is 'true', '1', 'false' or '0', and then has the obvious value; anything else raises InvalidConditionExpressionError; IfCondition and UnlessCondition are complementary and fail together.", "quantifier": "every string / every context", "why_tests_cant": "all strings", "anchors": ["launch/launch/conditions/evaluate_condition_expression_impl.py:evaluate_condition_expression", "launch/launch/conditions/if_condition.py:IfCondition", "launch/launch/conditions/unless_condition.py:UnlessCondition"]}
{"id": "C38", "title": "Boolean substitutions compute boolean algebra", "statement": "NotSubstitution, AndSubstitution, OrSubstitution, AnySubstitution, AllSubstitution return 'true' or 'false' according to boolean algebra on their operands (Any of none is false, All of none is true), every operand is evaluated, and a non-boolean operand raises.", "quantifier": "every list of operands and context", "why_tests_cant": "all operand lists", "anchors": ["launch/launch/substitutions/boolean_substitution.py"]}
{"id": "C39", "title": "EqualsSubstitution and NotEqualsSubstitution", "statement": "NotEqualsSubstitution is the negation of EqualsSubstitution; comparison is symmetric for all operands; it is not an equivalence: it is neither transitive nor reflexive on all strings.", "quantifier": "every pair of operands; counterexamples for the negative part", "why_tests_cant": "all pairs of strings", "anchors": ["launch/launch/substitutions/equals_substitution.py:EqualsSubstitution.perform", "launch/launch/substitutions/not_equals_substitution.py:NotEqualsSubstitution.perform"]}
{"id": "C40", "title": "LaunchConfiguration and EnvironmentVariable defaults", "statement": "Performing LaunchConfiguration/EnvironmentVariable returns the current value if set (whatever the default), else the performed default if one was given, else raises SubstitutionFailure; it never changes launch configurations or environment.", "quantifier": "every context, name and default", "why_tests_cant": "all contexts", "anchors": ["launch/launch/substitutions/launch_configuration.py:LaunchConfiguration.perform", "launch/launch/substitutions/environment_variable.py:EnvironmentVariable.perform"]}
{"id": "C41", "title": "AnonName is stable within a scope", "statement": "Within one context all AnonName substitutions of the same name give the same value until the launch configurations are reset or popped past its creation, and they change no launch configuration other than the reserved key.", "quantifier": "every history of performs", "why_tests_cant": "history dependent", "anchors": ["launch/launch/substitutions/anon_name.py:AnonName.perform"]}
{"id": "C42", "title": "Performing substitutions concatenates", "statement": "Performing a list of substitutions yields the concatenation of the individual results in order, evaluated left to right; splitting literal text or regrouping the list does not change the result.", "quantifier": "every list of substitutions and context", "why_tests_cant": "all lists", "anchors": ["launch/launch/utilities/perform_substitutions_impl.py:perform_substitutions", "launch/launch/utilities/normalize_to_list_of_substitutions_impl.py:normalize_to_list_of_substitutions"]}
{"id": "C43", "title": "Set, unset and append of variables", "statement": "SetLaunchConfiguration/SetEnvironmentVariable/UnsetLaunchConfiguration/UnsetEnvironmentVariable/AppendEnvironmentVariable change exactly the named variable, to the documented value, leaving all others alone; names and values are evaluated in the context before the change.", "quantifier": "every context, name and value", "why_tests_cant": "all contexts", "anchors": ["launch/launch/actions/set_launch_configuration.py", "launch/launch/actions/unset_launch_configuration.py", "launch/launch/actions/set_environment_variable.py", "launch/launch/actions/unset_environment_variable.py", "launch/launch/actions/append_environment_variable.py"]}
{"id": "C44", "title": "ResetLaunchConfigurations evaluates before clearing", "statement": "After ResetLaunchConfigurations the launch configurations are exactly the given ones (later duplicates win), each name and value evaluated in the configurations before the reset.", "quantifier": "every context and argument", "why_tests_cant": "all contexts", "anchors": ["launch/launch/actions/reset_launch_configurations.py:ResetLaunchConfigurations.execute"]}
{"id": "C45", "title": "Declared arguments", "statement": "After DeclareLaunchArgument executes without raising, its launch configuration is set, an already set value was not changed, otherwise it is the performed default, and if choices were given the value is one of them; it raises exactly when there is neither value nor default or the value is not among the choices.", "quantifier": "every context, default and choices", "why_tests_cant": "all contexts", "anchors": ["launch/launch/actions/declare_launch_argument.py:DeclareLaunchArgument.execute", "launch/launch/actions/declare_launch_argument.py:DeclareLaunchArgument.__init__"]}
{"id": "C46", "title": "Arguments of an included description", "statement": "IncludeLaunchDescription sets the given launch arguments, in order, in the including scope before visiting the included entities, and raises if an argument declared unconditionally and without default by the included description is not among the given names (even if it is already set in the including scope) \u2014 except that the names given by nested includes examined earlier are wrongly counted as given, because one list accumulates them.", "quantifier": "every included description and argument list", "why_tests_cant": "all descriptions", "anchors": ["launch/launch/actions/include_launch_description.py:IncludeLaunchDescription.execute"]}
{"id": "C47", "title": "Listing the launch arguments of a description", "statement": "get_launch_arguments lists each argument name at most once, keeping the first declaration found in depth-first order, lists every declaration not hidden behind a ResetLaunchConfigurations earlier in the same list, and executes nothing.", "quantifier": "every description tree", "why_tests_cant": "all trees", "anchors": ["launch/launch/launch_description.py:LaunchDescription.get_launch_arguments_with_include_launch_description_actions"]}
{"id": "C48", "title": "Typed coercion and typed substitutions are sound", "statement": "get_typed_value/coerce_to_type/perform_typed_substitution either raise or return a value that is an instance of the requested type; already typed values are returned unchanged; with can_be_str, text is always accepted for int, float and str (as the string itself if it does not read as a number), but not for bool.", "quantifier": "every value and every supported type", "why_tests_cant": "all values and types", "anchors": ["launch/launch/utilities/type_utils.py"]}
{"id": "C49", "title": "Frontend attribute completeness", "statement": "Whatever the parse methods do, an XML or YAML element is accepted as an action exactly if its parse method returns and asked for every attribute and child present; attributes read are returned with the requested type or an error is raised; a description is accepted only if each child of its root is. The root element and the choices of an argument are not checked.", "quantifier": "every element and every sequence of reads", "why_tests_cant": "all elements", "anchors": ["launch_xml/launch_xml/entity.py:Entity", "launch_yaml/launch_yaml/entity.py:Entity"]}
{"id": "C50", "title": "Frontend parser selection", "statement": "Loading a launch file tries every registered parser (distinct classes) at most once, those matching the file name first, returns the result of the first that succeeds, and raises only if all fail.", "quantifier": "every set of parsers and file", "why_tests_cant": "all parser sets", "anchors": ["launch/launch/frontend/parser.py:Parser.load"]}
{"id": "C51", "title": "Escapes in frontend strings", "statement": "Replacing escaped characters is a left inverse of escaping (a backslash before every backslash and before any other characters except newlines), and leaves text without backslashes unchanged.", "quantifier": "every string", "why_tests_cant": "all strings", "anchors": ["launch/launch/frontend/parse_substitution.py:replace_escaped_characters"]}
{"id": "C52", "title": "Command-line strings", "statement": "Parsing the cmd attribute splits literal text at unquoted white space like a shell and glues substitutions to adjacent text; no token or substitution is dropped, duplicated or reordered; quoted arguments come back unchanged; an empty argument appears exactly if the line begins with a text without tokens, in particular for a blank before a substitution; quotes around a substitution are refused.", "quantifier": "every sequence of text and substitutions", "why_tests_cant": "all sequences", "anchors": ["launch/launch/actions/execute_process.py:ExecuteProcess._parse_cmdline"]}
{"id": "C53", "title": "Output routing", "statement": "Each documented output option ('screen','log','both','own_log','full' and per-stream dictionaries) routes stdout and stderr of a new process name to exactly the documented sinks, each line once to each and with the documented format, whatever loggers were configured before and whatever is done with other loggers later; anything else raises a ValueError. Names that end in their process number share no file but the launch log. (Exceptions: configuring a name again only adds sinks; the combined log of a process called 'launch' is the launch log; setting the log format later changes the logs of processes too.)", "quantifier": "every output configuration and every history of logging calls", "why_tests_cant": "all dictionaries and sets", "anchors": ["launch/launch/logging/__init__.py:_normalize_output_configuration", "launch/launch/logging/__init__.py:get_output_loggers"]}
{"id": "C54", "title": "Unique log directories", "statement": "Callers that share a host and a log root, of which no two with the same process number call at the same time, get pairwise different log directories that did not exist before, whatever the clock says and however their steps interleave; the link to the latest directory is renewed unless something else is there. (Two callers with one process number, e.g. threads, can get the same directory.)", "quantifier": "every file system state, clock and interleaving", "why_tests_cant": "all histories", "anchors": ["launch/launch/logging/__init__.py:_make_unique_log_dir"]}
{"id": "C55", "title": "Nested signal managers restore handlers", "statement": "Entering and leaving signal managers in LIFO order restores the process's wakeup descriptor and signal.set_wakeup_fd, other code's calls of signal.set_wakeup_fd inside are honoured, and while nested each received signal is delivered once and in order to every manager that handles it and to the descriptor set before. (Exceptions: signals unread when the innermost manager is left are lost, as are those read together with one whose handler raises.)", "quantifier": "every nesting depth and signal sequence", "why_tests_cant": "all nestings", "anchors": ["launch/launch/utilities/signal_management.py:AsyncSafeSignalManager"]}
{"id": "C56", "title": "ReadyAggregator fires exactly once", "statement": "The parent ready function is called exactly once, at the n-th call of the child function, whatever threads make the calls, and never if fewer calls are made. (With n = 0 it is never called.)", "quantifier": "every n and every interleaving of calls", "why_tests_cant": "all thread interleavings", "anchors": ["launch_testing/launch_testing/ready_aggregator.py:ReadyAggregator"]}
{"id": "C57", "title": "Sequential output assertions", "statement": "assertInStdout succeeds on a sequence of messages exactly if they occur in that order without overlap, each within a single output chunk; a failed assertion does not move the position. (The output includes what was written to stderr.)", "quantifier": "every output and message sequence", "why_tests_cant": "all outputs", "anchors": ["launch_testing/launch_testing/asserts/assert_sequential_output.py:SequentialTextChecker"]}
{"id": "C58", "title": "Captured process output", "statement": "The I/O handler's per-process record is exactly the sub-sequence of the global record for that process, in order; nothing is lost; the record of starts and exits gives the last event of each process.", "quantifier": "every sequence of appended events", "why_tests_cant": "all histories", "anchors": ["launch_testing/launch_testing/io_handler.py:IoHandler"]}
{"id": "C59", "title": "Process lookup", "statement": "resolveProcesses returns exactly the processes matching name and arguments, in order, raises if none match, and with strict matching never returns more than one for a name.", "quantifier": "every process table and query", "why_tests_cant": "all tables", "anchors": ["launch_testing/launch_testing/util/proc_lookup.py:resolveProcesses"]}
{"id": "C60", "title": "Waiting for process output in tests", "statement": "launch_pytest's wait_for_output and its variants return True only if the condition's last evaluation was true (and no earlier one), False only if all evaluations were false and the time is over, always unregister their handler, and never keep waiting while the condition holds; without a timeout they raise instead of waiting. wait_for_start/exit return True only for an event handled during the call. (Exceptions: in another thread, output between the first evaluation and the registration goes unnoticed until the next event; a coroutine can time out although it was just woken; an event handled before the call is missed.)", "quantifier": "every history of outputs and timeouts", "why_tests_cant": "timing races", "anchors": ["launch_pytest/launch_pytest/tools/process.py:_wait_for_event_with_condition"]}
{"id": "C61", "title": "Exit code assertions", "statement": "assertExitCodes passes exactly if it finds processes and each of them has exited, the last time with an allowed code. (An earlier bad exit of a process that was started again is forgotten.)", "quantifier": "every history of starts and exits, and every query", "why_tests_cant": "all histories", "anchors": ["launch_testing/launch_testing/asserts/assert_exit_codes.py:assertExitCodes", "launch_testing/launch_testing/proc_info_handler.py:ProcInfoHandler"]}
{"id": "C62", "title": "Matching output in tests", "statement": "build_text_match on texts and nested sequences of texts matches exactly if the texts occur one after the other without overlap in the output with line ends normalised, reports the earliest match, and with patterns reports only matches that are there; strict sequences must be adjacent. build_line_match likewise for lines. expect_output rejects ambiguous arguments and agrees with these. assertInStdout/assertInStderr pass exactly if some selected process's recorded output on that stream matches. basic_output_filter removes exactly the lines with a given prefix or pattern. (Exceptions: a carriage return before carriage return and newline; with greedy patterns a possible match is missed; strict sequences ignore what follows; strict lines hold without output; a single pattern as expected lines raises TypeError.)", "quantifier": "every expectation, however nested, every text, every behaviour of patterns, every history of output", "why_tests_cant": "all texts and expectations", "anchors": ["launch_testing/launch_testing/tools/text.py:build_text_match", "launch_testing/launch_testing/tools/text.py:build_line_match", "launch_testing/launch_testing/tools/output.py:expect_output", "launch_testing/launch_testing/tools/output.py:basic_output_filter", "launch_testing/launch_testing/asserts/assert_output.py:assertInStream"]}
{"id": "C63", "title": "Conditions on launch configurations", "statement": "LaunchConfigurationEquals(name, expression) is true exactly if the launch configuration is set to the text the expression performs to; with None exactly if it is not set; an unset configuration equals no text, not even the empty one; LaunchConfigurationNotEquals is always the opposite and both fail when the expression fails.", "quantifier": "every expression, context and world", "why_tests_cant": "all contexts and expressions", "anchors": ["launch/launch/conditions/launch_configuration_equals.py:LaunchConfigurationEquals", "launch/launch/conditions/launch_configuration_not_equals.py:LaunchConfigurationNotEquals"]}
{"id": "C64", "title": "Joining paths", "statement": "PathJoinSubstitution performs its members once each from left to right and joins the results: an absolute member replaces everything before it, a separator is added exactly where the text so far is nonempty and does not end with one; nonempty plain relative members are joined by single slashes. (Without members it raises TypeError.)", "quantifier": "every list of members, context and world", "why_tests_cant": "all lists of substitutions", "anchors": ["launch/launch/substitutions/path_join_substitution.py:PathJoinSubstitution"]}
{"id": "C65", "title": "Waiting on records in tests", "statement": "However threads, records and time interleave, waitFor, assertWaitForShutdown, assertWaitForStartup and the methods of ProcessProxy return success only if their predicate held of the records at a moment of the call, and report failure only if it was false when the time was over; at the deadline every call looks once more; a call that is the only one on its condition never sleeps while its predicate holds. (Exceptions: with several calls a record wakes only one; assertWaitForShutdown for all processes looks at the first only; ProcessProxy.wait_for_output does not find the output of an exited process and is not woken by starts.)", "quantifier": "every number of concurrent calls, every interleaving of their steps, records and timeouts, every predicate", "why_tests_cant": "interleavings of threads and deadlines", "anchors": ["launch_testing/launch_testing/io_handler.py:ActiveIoHandler.waitFor", "launch_testing/launch_testing/proc_info_handler.py:ActiveProcInfoHandler", "launch_testing/launch_testing/tools/process.py:ProcessProxy"]}
{"id": "C66", "title": "Verdict of launch tests", "statement": "A test run succeeds exactly if none of the reports of its active tests and of its tests after the shutdown is a failure, an error or an unexpected success; active tests begin only after ReadyToTest, and the tests after the shutdown only after the active tests and the launch have ended; if the launch ends before the active tests do, the run counts as died, all its cases fail and no later run is started. launch_test exits with 0 exactly if every run was skipped or succeeded. The xml report holds the counts and the elements for exactly the cases that started. (The return code of the launch is not looked at; unexpected successes do not show in the report.)", "quantifier": "every interleaving of the two threads with the launch, every sequence of reports, every number of runs", "why_tests_cant": "interleavings of threads, histories of reports", "anchors": ["launch_testing/launch_testing/test_runner.py:_RunnerWorker.run", "launch_testing/launch_testing/test_runner.py:LaunchTestRunner.run", "launch_testing/launch_testing/test_result.py:TestResult", "launch_testing/launch_testing/junitxml.py:unittestResultsToXml", "launch_testing/launch_testing/launch_test.py:run"]}
{"id": "C67", "title": "Arguments of launch tests", "statement": "parse_launch_arguments accepts a list exactly if every item is name:=value with a name that is not empty and has no ':=' in it and a value that is not empty; a repeated name has the value given last, and the names are in the order of their first occurrence.", "quantifier": "every list of texts", "why_tests_cant": "all texts", "anchors": ["launch_testing/launch_testing/parse_arguments.py:parse_launch_arguments"]}
{"id": "C68", "title": "Substitutions in text", "statement": "In launch files, reading a text always ends; it gives the texts and substitutions the grammar describes, each text being as long as possible, and there is only one such reading; a text in which every '$(' is escaped stands for itself without the escaping backslashes, and every text can be written so that it stands for itself. Which lists of texts and substitutions can be written at all is exactly known. Parsing fails if the text does not follow the grammar or if a name that occurs anywhere in it is unknown. A list of values is accepted exactly if the values that hold no substitutions have one type. (Exceptions: an escaped backslash before '$(' disables the substitution; quotes within quotes do not quote; the types of values made of substitutions are not compared.)", "quantifier": "every text of any length and nesting, every set of registered substitutions, every list of values", "why_tests_cant": "all texts, unbounded nesting", "anchors": ["launch/share/launch/frontend/grammar.lark", "launch/launch/frontend/parse_substitution.py:parse_substitution", "launch/launch/frontend/parse_substitution.py:parse_if_substitutions", "launch/launch/frontend/parse_substitution.py:ExtractSubstitution", "launch/launch/frontend/expose.py:instantiate_extension"]}
{"id": "C69", "title": "Order of launch_pytest tests", "statement": "The launch_pytest plugin only reorders the collected tests: each one stays, once. In the result no test that needs the launch comes after a shutdown test with the same instance of the launch fixture; tests that need the launch keep their order, and so do the shutdown tests of an instance. The order is the one in which every shutdown test that was collected before a test of its instance that needs the launch stands behind the last such test, and all else stays.", "quantifier": "every list of collected tests, every mix of fixtures, parameters and kinds", "why_tests_cant": "all lists of tests", "anchors": ["launch_pytest/launch_pytest/plugin.py:pytest_collection_modifyitems", "launch_pytest/launch_pytest/plugin.py:is_same_launch_test_fixture"]}
{"id": "C70", "title": "Runs of launch_pytest tests", "statement": "With one instance of a launch fixture, a shutdown test and the part of a generator test after its yield begin only after the launch service has ended with return code 0, the latter only if its first part has yielded; tests that need the launch begin before the plugin has shut the service down or seen its end; every part begins at most once; the plugin shuts the service down only with auto_shutdown; every test gets exactly one outcome, the expected one, as long as the service ends. (If the first item of a generator is deselected, the second fails with an AttributeError.) A description has exactly one ReadyToTest action in the end: its own or a new one; several are an error.", "quantifier": "every list of tests, every behaviour of their parts, every return code, every description", "why_tests_cant": "all sequences of tests and outcomes", "anchors": ["launch_pytest/launch_pytest/plugin.py:pytest_pyfunc_call", "launch_pytest/launch_pytest/plugin.py:pytest_pycollect_makeitem", "launch_pytest/launch_pytest/plugin.py:get_ready_to_test_action", "launch_pytest/launch_pytest/fixture.py:finalize_launch_service"]}
{"id": "C71", "title": "Verdict of the legacy test service", "statement": "A legacy LaunchTestService returns the code of the launch service if that is not 0; otherwise the last return code of the process that first left one (a test process that exited with an error, a fixture process that exited as it may not), otherwise 1 if some test failed and 0 if none did. The status of every test is determined by the last event that settled it, and armed tests are dropped by a failure. Shutdown is emitted once all tests have ended, when a test fails, when a fixture dies and for the side effect of an output test, and for nothing else. Findings: expected output that never comes does not make the run fail; a run whose last test is cancelled never shuts down.", "quantifier": "all services (fixtures, tests, output tests in any order), all sequences of exits, completions, outputs and shutdowns", "why_tests_cant": "tests run one scenario; the verdict must be right for every interleaving of events of all processes", "anchors": ["launch_testing/launch_testing/legacy/__init__.py:LaunchTestService", "launch_testing/launch_testing/legacy/__init__.py:LaunchTestService.run"]}
{"id": "C72", "title": "Output tests of the legacy test service", "statement": "An output test of lines is satisfied exactly when every expected line that is not empty occurs, without line ends, in the filtered output so far, however the output was cut into pieces. A filter of prefixes keeps exactly the other lines. Findings: output tests of patterns do depend on the cuts; the patterns of a filter are used up by the first line that none of them matches; a final line end is doubled.", "quantifier": "all outputs and cuts of them, all expected lines, all prefixes and patterns", "why_tests_cant": "tests feed whole lines; pipes cut output anywhere", "anchors": ["launch_testing/launch_testing/legacy/output.py:create_output_lines_test", "launch_testing/launch_testing/legacy/output.py:create_output_regex_test", "launch_testing/launch_testing/legacy/output.py:create_output_lines_filter"]}
{"id": "C73", "title": "A source of a launch description loads at most once and keeps its location", "statement": "Once get_launch_description has given a description, every later use of the same source, in whatever context and order, gives that description and location and loads nothing. The location is the text of its substitutions until some get can expand them, from then on what the first such get has expanded it to, and gets load that location only. Trying without a context changes neither and loads at most once. A source constructed with a description never loads. Findings: a get whose load fails fixes the location for gets in other contexts; a file that gives no description is loaded again by every get.", "quantifier": "all sequences of gets, tries and location reads in all contexts, whatever expanding and loading give each time", "why_tests_cant": "tests get once in one context; includes are got again and again by introspection and visits in different contexts", "anchors": ["launch/launch/launch_description_source.py:LaunchDescriptionSource"]}
{"id": "C74", "title": "How a launch file of any kind is loaded, and the registry of parsers", "statement": "get_launch_description_from_any_launch_file reads a file as Python first exactly if the last component of its path has the extension py, as markup first otherwise; the other way is tried exactly if the first fails with an Exception; if both fail the InvalidLaunchFileError holds both errors in order, and any other exception goes through at once. The registry of parsers is sorted by name, has every name once, with the last entry point of that name that could be loaded, and does not depend on the order of entry points with distinct names. Finding: the error does not tell the errors of files with unknown extensions.", "quantifier": "all paths, all outcomes of both ways of loading, all lists of entry points", "why_tests_cant": "tests use a few file names and the installed parsers", "anchors": ["launch/launch/launch_description_sources/any_launch_file_utilities.py:get_launch_description_from_any_launch_file", "launch/launch/invalid_launch_file_error.py:InvalidLaunchFileError", "launch/launch/frontend/parser.py:Parser.load_parser_implementations"]}
{"id": "C75", "title": "What a substitution written in text is", "statement": "A text is parsed to the reading the grammar gives, with every $(name arguments) replaced by the substitution which that name and number of arguments stand for (19 names); any other name or number of arguments anywhere in it makes parsing fail. Every substitution whose arguments are texts that do not end with a backslash can be written, so every launch configuration can be read by a text. Findings: any and all are exposed but no text that uses them, however deep, can be parsed; all but the first part of the modules of eval is dropped.", "quantifier": "all texts, all names, all argument lists", "why_tests_cant": "tests parse one text per substitution", "anchors": ["launch/launch/substitutions/command.py:Command.parse", "launch/launch/substitutions/boolean_substitution.py:AnySubstitution.parse", "launch/launch/substitutions/python_expression.py:PythonExpression.parse", "launch/launch/substitutions/launch_configuration.py:LaunchConfiguration.parse", "launch/launch/frontend/expose.py:instantiate_substitution"]}
{"id": "C76", "title": "Command substitutions", "statement": "A Command gives a text exactly if its command and then its on_stderr can be performed, the command can be split and is not empty, the mode is one of fail, ignore, warn, capture, and the program exits with 0, having written nothing to stderr in mode fail. The text is what was written to stdout, in mode capture together with what was written to stderr in the order written, with newlines for all line ends. A warning is logged exactly in mode warn with stderr output. An unknown mode, a missing program, another exit code, stderr output in mode fail are a SubstitutionFailure; an unknown mode runs nothing; the program is run at most once and only as asked. Finding: a program that may not be executed, an empty command, unclosed quotes and undecodable output are other exceptions.", "quantifier": "all commands, modes, contexts, programs and interleavings of their output", "why_tests_cant": "tests run a few scripts; the four modes interact with every exit code and output", "anchors": ["launch/launch/substitutions/command.py:Command.perform"]}
{"id": "C77", "title": "Python expressions, executables and file contents", "statement": "A PythonExpression performs its module names, imports them in order, performs its expression and evaluates it with exactly these names: every module by its own name, and all names of math if math is among the modules; a later module hides an earlier one. A failing import is raised before the expression is performed. FindExecutable gives what is found and FileContent what is read, and a missing one is a SubstitutionFailure. Findings: a module asked for by a dotted name is not known by it; names of math hide modules asked for before it.", "quantifier": "all module lists, expressions, contexts, and results of importing, searching and reading", "why_tests_cant": "tests evaluate a few expressions with one or two modules", "anchors": ["launch/launch/substitutions/python_expression.py:PythonExpression.perform", "launch/launch/substitutions/find_executable.py:FindExecutable.perform", "launch/launch/substitutions/file_content.py:FileContent.perform"]}
{"id": "C78", "title": "Runs of a launch test, and what its tests are given", "statement": "A test description with parametrize has one run per value, in order; the parameters of a run are the names of the text, each with the value of its position. A run takes the timeout and the keep_alive mark of the function below parametrize. The runs are accepted exactly if every value gives exactly the arguments of the function, and then the function is called with these. Every test of the module is in the run exactly once: after the shutdown if its class, or one it is derived from, is marked, and before it otherwise. The run waits for the first ReadyToTest action of the description, and fails without one. A test gets for a parameter the object of launch_testing of that name, else the argument of the run, else the item of the test context, else its default; otherwise it is an error.", "quantifier": "all test descriptions, decorators in any order, parameter texts, values, class hierarchies, trees of entities, and test signatures", "why_tests_cant": "tests use a few parameters and flat descriptions; the order of decorators, class hierarchies and clashes of names are unbounded", "anchors": ["launch_testing/launch_testing/parametrize.py:parametrize", "launch_testing/launch_testing/loader.py:LoadTestsFromPythonModule", "launch_testing/launch_testing/loader.py:TestRun", "launch_testing/launch_testing/loader.py:_normalize_ld", "launch_testing/launch_testing/loader.py:_make_loader", "launch_testing/launch_testing/loader.py:_partially_bind_matching_args", "launch_testing/launch_testing/test_runner.py:LaunchTestRunner.validate", "launch_testing/launch_testing/test_runner.py:_RunnerWorker.run", "launch_testing/launch_testing/markers.py:keep_alive", "launch_testing/launch_testing/ready_to_test_action_timeout.py:ready_to_test_action_timeout", "launch_testing/launch_testing/decorator.py:post_shutdown_test"]}
{"id": "C79", "title": "A test that is retried counts by its last call", "statement": "A test with retry_on_failure is called until a call does not fail by assertion, at most the given number of times, with the delay between two calls only; a failing sub-test counts as a failed assertion, and any other exception ends the test at once. What it returns or raises is what the last call does, and the result is as if only that call had been made.", "quantifier": "all numbers of calls, all behaviours of each call and its sub-tests, and all earlier results", "why_tests_cant": "tests retry once or twice with one kind of failure; what earlier calls and other tests leave in the result ranges over all histories", "anchors": ["launch_testing/launch_testing/markers.py:retry_on_failure"]}
{"id": "C80", "title": "A run that has nothing left to do ends by itself", "statement": "A run that is shutting down, whose event queue is empty and whose awaited futures have all ended, returns by steps of its own; one that shuts down when idle first does so by itself. A run that cannot go on by itself waits for an event, for a future that has not ended, or, if it does not shut down when idle and is not shutting down, for the next event. Findings: if a thread is inside shutdown() while the run ends, both wait for each other for ever; if shutdown() is called in the loop and its result is not awaited, or if the service's own handler was unregistered, a run that does not shut down when idle never notices.", "quantifier": "all histories of a launch service and all points of them at which the run may be", "why_tests_cant": "tests see the schedules that occur; a deadlock needs one particular interleaving of a thread with the loop", "anchors": ["launch/launch/launch_service.py:LaunchService.run_async", "launch/launch/launch_service.py:LaunchService._shutdown", "launch/launch/launch_service.py:LaunchService.shutdown", "launch/launch/launch_service.py:LaunchService.emit_event"]}
{"id": "C81", "title": "Events for processes reach exactly the processes they name", "statement": "A SignalProcess or ShutdownProcess event names processes by action, pid, process name, the end of the first word of the command, or a function. A process action that is not named does nothing at all. One that is named and runs gets the signal, or begins its shutdown with SIGINT and both timers; one that has ended ignores a signal; one that was not started raises an error. Findings: while a process is prepared but not started, any event that names a pid raises KeyError and fails the run.", "quantifier": "all matchers, process actions, states and signals", "why_tests_cant": "tests signal one running process by action; the interplay of matchers with processes in every phase of their life is unbounded", "anchors": ["launch/launch/actions/execute_local.py:ExecuteLocal.__on_signal_process_event", "launch/launch/actions/execute_local.py:ExecuteLocal.__on_shutdown_process_event", "launch/launch/events/process/process_targeted_event.py:ProcessTargetedEvent", "launch/launch/events/process/process_matchers.py:matches_pid"]}
{"id": "C82", "title": "A run waits only for what can still end", "statement": "Whatever a run waits for is a future of the user, or the completion of a process action that is at work on its process, or of a timer that counts. So once nobody is at work, the user's futures have ended and no event is left, the run shuts down, or returns if it is shutting down, by itself. Exceptions (findings): if the coroutine of a process action or timer ends with an exception, for example because the launch configuration emulate_tty is not a boolean or a period is not a number, or if a timer is executed more than once, the run waits for it for ever, also after a shutdown, and ends only if it is cancelled.", "quantifier": "all histories of a launch service and everything it may wait for", "why_tests_cant": "a future that nobody will ever set can only be seen as a hang; that none exists ranges over all histories", "anchors": ["launch/launch/launch_service.py:LaunchService.run_async", "launch/launch/actions/execute_local.py:ExecuteLocal.__execute_process", "launch/launch/actions/execute_local.py:ExecuteLocal.__cleanup", "launch/launch/actions/timer_action.py:TimerAction.execute", "launch/launch/actions/timer_action.py:TimerAction._wait_to_fire_event"]}
{"id": "C83", "title": "The text shown for a launch description has every entity at its place", "statement": "Formatting a launch description for display gives, after the line for the description itself, exactly one line for every entity and every registered event handler, each before what belongs to it and in the order of the description; a line is four tree characters for each level above it, four for its branch, and then the full text for the entity (log messages, events, commands with directory, environment and shell flag, registrations, other actions, anything else), so nothing is left out, repeated or cut short, provided the handlers' own descriptions begin with a visible character", "quantifier": "all launch descriptions of any nesting depth and all descriptions of substitutions, events and handlers", "why_tests_cant": "tests compare one formatted sample; that no entity of any tree is dropped or attached to the wrong parent ranges over all trees", "anchors": ["launch/launch/launch_introspector.py:tree_like_indent", "launch/launch/launch_introspector.py:format_entities", "launch/launch/launch_introspector.py:format_event_handler", "launch/launch/launch_introspector.py:format_action", "launch/launch/launch_introspector.py:LaunchIntrospector.format_launch_description"]}
{"id": "C84", "title": "Under pytest, launch tests are found, judged and blamed as by the launch_test command", "statement": "With the pytest plugin, a python file becomes a launch test, with all marks of its entry point, exactly when its generate_test_description is marked launch_test and no other plugin takes the file first; every other file is collected as without the plugin; a launch test passes exactly when its configuration is valid and every run was skipped or successful, which is when the launch_test command exits with 0 for the same runs; a failure names exactly the tests that failed or raised in unsuccessful runs (all tests of a run that died); and the uses of --launch-args add up, a name having the value it was last given", "quantifier": "all files (by what importing them does), marks, other plugins, sequences of runs and results, and uses of the option", "why_tests_cant": "tests look at a few sample files; that no unsuccessful run of any sequence can pass and no failing test goes unnamed ranges over all results", "anchors": ["launch_testing/launch_testing/pytest/hooks.py:pytest_pycollect_makemodule", "launch_testing/launch_testing/pytest/hooks.py:pytest_launch_collect_makemodule", "launch_testing/launch_testing/pytest/hooks.py:LaunchTestItem.runtest", "launch_testing/launch_testing/pytest/hooks.py:LaunchTestItem.repr_failure", "launch_testing/launch_testing/pytest/hooks.py:find_launch_test_entrypoint"]}
{"id": "C85", "title": "A name in a launch file stands for the first parser exposed under it", "statement": "Whatever classes and functions have been exposed, in any order and with or without success, the name of an action or of a substitution stands for the first usable one exposed under it (a class with a class method parse, or a function), names never exposed raise RuntimeError, and later exposures raise and change nothing unless it is the same substitution again; the first parser to load the extensions makes all names of every sound extension whose names are free available, whatever other extensions do, warns about each one that fails, and loading again through other parsers changes the meaning of no name", "quantifier": "all histories of exposures, all sets of extensions and all orders of parsers that load them", "why_tests_cant": "tests expose one or two objects; that no sequence of exposures or failed imports can change what a name means ranges over all histories", "anchors": ["launch/launch/frontend/expose.py:__expose_impl", "launch/launch/frontend/expose.py:instantiate_action", "launch/launch/frontend/expose.py:instantiate_substitution", "launch/launch/frontend/parser.py:Parser.load_launch_extensions"]}
{"id": "C86", "title": "Markup files are read whole, closed again, and given to the first parser that accepts them", "statement": "Loading a markup launch file by name opens it once, lets each parser that is tried read it from its start, and closes it at the end whether or not it could be parsed; the result is that of the first parser, in the order by file extension and then by name, that accepts the whole file; a file object handed in is neither opened nor closed; and the sources for particular formats give for every file what the source for any markup gives", "quantifier": "all sets of parsers (with any behaviour on the file), file names and file objects", "why_tests_cant": "tests load files of the two known formats; that no parser ever sees the rest another one left, and that every outcome closes the file, ranges over all parsers and outcomes", "anchors": ["launch/launch/frontend/parser.py:Parser.load", "launch_yaml/launch_yaml/parser.py:Parser.load", "launch/launch/launch_description_sources/frontend_launch_description_source.py:FrontendLaunchDescriptionSource", "launch/launch/launch_description_sources/frontend_launch_file_utilities.py:get_launch_description_from_frontend_launch_file", "launch_xml/launch_xml/launch_description_sources/xml_launch_description_source.py:XMLLaunchDescriptionSource", "launch_yaml/launch_yaml/launch_description_sources/yaml_launch_description_source.py:YAMLLaunchDescriptionSource"]}
{"id": "C87", "title": "Output is read as the text and the lines that were printed", "statement": "Output of a process that is the encoding of a text in UTF-8 is logged as that text, and for any bytes at all the lines logged are the lines printed, each decoded by itself: no newline is lost or made up and a broken line does not affect any other, however the bytes are cut into chunks. If no chunk ends inside a character the text does not depend on the chunks at all. The output that assertions look at is there exactly when every chunk is a text, and then is the whole text; a listener for a ready text acts exactly on events from stdout that hold it. Exceptions (findings): a character that is cut in two by a chunk is logged as replacement characters and makes assertions and ready listeners raise UnicodeDecodeError, and a ready text that is cut in two is not heard.", "quantifier": "all byte sequences a process can print and all ways to cut them into chunks", "why_tests_cant": "where a pipe cuts the output depends on the system and on timing; tests see short ASCII output in one chunk", "anchors": ["launch/launch/actions/execute_local.py:ExecuteLocal.__on_process_output", "launch/launch/actions/execute_local.py:ExecuteLocal.__on_process_output_cached", "launch_testing/launch_testing/asserts/assert_output.py:assertInOutput", "launch_testing/launch_testing/event_handlers/stdout_ready_listener.py:StdoutReadyListener", "launch_testing/launch_testing/tools/process.py:ProcessProxy"]}
{"id": "C88", "title": "Every element of a markup file becomes the action it stands for, or is refused", "statement": "An element of an XML or YAML launch file becomes an action exactly when it stands for it: its tag is one of the built-in ones, each required attribute is there, every attribute is read in the way the table of elements says (text with substitutions, number, truth value, command line, number of seconds), at most one of if and unless is there, nested elements have their name and value, children stand for the nested actions, and nothing else is there. A launch file is the list of the actions its elements stand for, in order. An element stands for at most one action. Exception (finding): a YAML group silently drops children called keep, whatever is in them.", "quantifier": "all elements of XML and YAML, of any size and depth, all YAML readers and parsers of substitutions, all constructors", "why_tests_cant": "the tests of the frontends read a handful of files, mostly correct ones; which combinations of attributes, values and children are accepted is not bounded", "anchors": ["launch/launch/frontend/parser.py:Parser.parse_action", "launch/launch/frontend/parser.py:Parser.parse_description", "launch/launch/action.py:Action.parse", "launch/launch/actions/execute_process.py:ExecuteProcess.parse", "launch/launch/actions/group_action.py:GroupAction.parse", "launch/launch/actions/timer_action.py:TimerAction.parse", "launch_xml/launch_xml/entity.py:Entity", "launch_yaml/launch_yaml/entity.py:Entity"]}
{"id": "C89", "title": "A launch file in YAML that says the same as one in XML gives the same actions", "statement": "If a YAML mapping has the attributes of an XML element as values of the types they are expected to have, its nested elements as lists under their name and its actions as list of children, at every level, then both become the same action, or are both refused; and so for whole files. Exceptions (findings): a whole number is refused in YAML as the period of a timer but accepted in XML, and a quoted truth value stays a text in YAML, so that a shell of 'false' is true.", "quantifier": "all XML elements and all YAML values that say the same, of any size and depth", "why_tests_cant": "that the two frontends agree is not bounded by any set of files", "anchors": ["launch/launch/frontend/parser.py:Parser.parse_action", "launch_xml/launch_xml/entity.py:Entity.get_attr", "launch_yaml/launch_yaml/entity.py:Entity.get_attr", "launch_yaml/launch_yaml/entity.py:Entity.children"]}
{"id": "C90", "title": "A process action runs the prefix and the command it was given, under the name and in the directory it was given", "statement": "Executing a process action fixes what is run: the words of the prefix, if one applies, followed by one word for each text of the command. A prefix given to the action always applies; otherwise the words of the launch configuration launch-prefix apply if the name of the program matches the configuration launch-prefix-filter (both empty if not set). The name is the given one, or the last path component of the first word, followed by a dash and the next number; the working directory is the given one, if any. The events of the process say so. It is refused only if one of the texts raises, or the command is empty. Exception (finding): with a prefix and without a name the process is named after the prefix and not, as documented, after the executable.", "quantifier": "all options of process actions, all contexts, all substitutions, all ways of splitting and matching text, all reachable states", "why_tests_cant": "tests run a few commands; that the order of the words, the filter and the names are right for every command, prefix, filter and configuration is not settled by them", "anchors": ["launch/launch/descriptions/executable.py:Executable.prepare", "launch/launch/descriptions/executable.py:Executable", "launch/launch/actions/execute_local.py:ExecuteLocal.prepare"]}
{"id": "C91", "title": "A Test that takes longer than its timeout is stopped, and one that exits in time is not", "statement": "The action Test of launch_testing runs a process like ExecuteProcess. Without a timeout (none, zero or empty) it does nothing else. With a timeout, executing it also executes a timer: when the timer fires the process is stopped by SIGINT, SIGTERM and SIGKILL with the timeouts of the process, or, if it has not started yet, when it starts; when the process exits before, the timer is cancelled and never fires. Exception (finding): the exit of the first process cancels the timer for good, so that a respawned process is never stopped by the timeout.", "quantifier": "all options, all timeouts, all reachable states and all schedules of events, timers and processes", "why_tests_cant": "the tests run one program that sleeps; races of the timeout with start, exit and respawn of the process are not settled by them", "anchors": ["launch_testing/launch_testing/actions/test.py:Test", "launch/launch/actions/execute_local.py:ExecuteLocal._shutdown_process", "launch/launch/actions/timer_action.py:TimerAction.cancel"]}
{"id": "C92", "title": "Scopes and launch services of launch_pytest fixtures", "statement": "In a test module that does not define launch_service, event_loop or launch_context itself, each of them gets the greatest scope of the launch fixtures declared there, in whatever order, so that pytest accepts all of them; a fixture the user defines under such a name is never replaced. Tests that share a launch fixture share its launch service. Findings: instances of launch fixtures need not have a launch service of their own (a parametrized fixture, two fixtures of a module, or a fixture of scope function beside one of scope module share one), and of the launches that share a service only the first one starts processes: a second one set up while the first runs blocks the test run for ever, one set up later runs its tests without its processes. A launch that ends before its ReadyToTest action is executed blocks the set-up for ever.", "quantifier": "all modules and orders of declarations, all scopes, all sequences of set-ups, tests and tear-downs on a service, all schedules of the loop", "why_tests_cant": "the example tests have one launch fixture per module and do not look at the processes of its second parameter", "anchors": ["launch_pytest/launch_pytest/fixture.py:fixture", "launch_pytest/launch_pytest/fixture.py:finalize_launch_service", "launch_pytest/launch_pytest/plugin.py:pytest_fixture_setup", "launch_testing/launch_testing/actions/ready.py:ReadyToTest.execute"]}
{"id": "C93", "title": "Entities handed over in a list are there at every use", "statement": "Launch descriptions, groups, timers and event handlers that are built from a list of entities give all of them, in order, every time they are described and every time they are executed, fire or handle an event. The signatures also allow generators: launch descriptions and groups make a list of them, so nothing changes. Findings: a timer, an EventHandler or an OnShutdown built from a generator gives its entities to the first use only (a timer whose launch description was described, for example to list its arguments, does nothing); OnProcessExit, OnProcessStart and OnExecutionComplete use a generator up when they check it, and fail at every event. Iterables that have something else than entities are refused by the latter.", "quantifier": "all lists and generators of entities, all kinds, all sequences of uses", "why_tests_cant": "the tests use lists and use them once", "anchors": ["launch/launch/launch_description.py:LaunchDescription.__init__", "launch/launch/actions/group_action.py:GroupAction.get_sub_entities", "launch/launch/actions/timer_action.py:TimerAction.handle", "launch/launch/event_handler.py:EventHandler.handle", "launch/launch/event_handlers/on_shutdown.py:OnShutdown", "launch/launch/event_handlers/on_action_event_base.py:OnActionEventBase"]}
{"id": "C94", "title": "What DeclareLaunchArgument accepts", "statement": "The constructor of DeclareLaunchArgument refuses exactly: an empty list of choices, a text as default that is not one of the choices, with choices any iterable that is not a list, and iterables with other things than texts and substitutions. An accepted argument with a text as default never fails for lack of a value: if no value is given it is executed with success in every context and has the default as value. The description is that of the user followed by the choices. Findings: a default in a list (as from XML and YAML) is not checked and fails when the argument is executed; a default in a tuple is refused even if it is one of the choices.", "quantifier": "all names, defaults, descriptions and choices, all contexts", "why_tests_cant": "the tests try a few combinations", "anchors": ["launch/launch/actions/declare_launch_argument.py:DeclareLaunchArgument.__init__", "launch/launch/actions/declare_launch_argument.py:DeclareLaunchArgument.execute"]}
{"id": "C95", "title": "An OpaqueCoroutine is cancelled by a shutdown, and a cancelled coroutine ends the run", "statement": "Visiting an OpaqueCoroutine starts its coroutine, makes the run wait for its task and registers a handler for Shutdown. Every Shutdown event that is processed while the coroutine has not ended asks the task to cancel itself; the handler does nothing else. Findings: when the run notices that a task it waits for was cancelled it leaves its loop at once: no further event is processed, nothing is shut down, and the return code is 1. So a launch service that is asked to shut down while a process and a coroutine run returns 1 although nothing failed, leaves the process running and never delivers the SIGINT it has queued. An action that was executed twice runs two coroutines, and a shutdown asks only the second one.", "quantifier": "every world, every state and history of the service, every action, every further sequence of steps of the run", "why_tests_cant": "The order in which a coroutine obeys, an event is processed and the run wakes up depends on the schedule; the repository has no test of OpaqueCoroutine.", "anchors": ["launch/launch/actions/opaque_coroutine.py:OpaqueCoroutine", "launch/launch/launch_service.py:LaunchService.run_async"]}
{"id": "C96", "title": "What the arguments listed for a launch description mean for running it", "statement": "An argument that get_launch_arguments lists without a default value has to be given: if nothing but declarations under no condition gives it a value, the description cannot be visited to the end without it. Giving every listed argument is enough, as long as the description has nothing that takes launch configurations away: no declaration then raises for want of a value. An argument marked as conditional is declared in some cases only. The converse is false: the mark is lost in a group within a conditional group, so a description that runs without such an argument cannot be included without it; and an argument that is listed with a default value may still have to be given, because only the first declaration is listed.", "quantifier": "all worlds, descriptions of the stated kinds of any size and depth, with any conditions and groups, all contexts, all states and values of the launch configurations", "why_tests_cant": "a test lists and runs one description; whether the listing agrees with the run depends on how declarations, conditions, scopes and assignments are nested, to any depth", "anchors": ["launch/launch/launch_description.py:LaunchDescription.get_launch_arguments_with_include_launch_description_actions", "launch/launch/actions/declare_launch_argument.py:DeclareLaunchArgument.execute", "launch/launch/actions/group_action.py:GroupAction.get_sub_entities", "launch/launch/actions/include_launch_description.py:IncludeLaunchDescription.execute"]}
{"id": "C97", "title": "What is printed for the launch arguments of a description can be read back", "statement": "The text that launch_test --show-args prints names every argument that is found in the description, once, in the order of the first declarations, with its description, with its default value exactly if it has one, and with a star exactly if it is conditional; the star is explained exactly if there is one, and it is said if there are no arguments. If no name, description or default value has a line break, the text can be read in no other way. With line breaks it can: a description of several lines can look like another argument. If the arguments cannot be listed, only the heading is printed.", "quantifier": "all descriptions and worlds, all names, descriptions and default values (without line breaks, for reading back), all texts", "why_tests_cant": "a test compares the output for one description; that no two listings give the same text is a claim about all pairs of them", "anchors": ["launch_testing/launch_testing/print_arguments.py:print_arguments_of_launch_description", "launch/launch/launch_description.py:LaunchDescription.get_launch_arguments"]}
{"id": "C98", "title": "What timers, opaque functions and substitutions accept, and what becomes of it", "statement": "TimerAction accepts as its period exactly a float, a text that reads as a number, a substitution, or a sequence of texts and substitutions with at least one substitution (no int, no sequence of texts alone); it refuses anything else with a TypeError, or a ValueError for a text that is no number, and what it waits for later is always a float. OpaqueFunction accepts exactly a callable, an iterable or None, and a dictionary or None; OpaqueCoroutine the same with a coroutine function. At every execution the function gets the context (unless it is ignored) and all the arguments that were given, if these can be iterated again; of an iterator only the first execution gets them. Where substitutions are wanted, exactly texts, substitutions and iterables of them are accepted and kept in order, and, by mistake, a class of substitutions.", "quantifier": "all python values of the modelled kinds, nested to any depth, all ways to perform substitutions, any number of executions", "why_tests_cant": "the accepted values are an infinite set; tests try one good and one bad value", "anchors": ["launch/launch/actions/timer_action.py:TimerAction.__init__", "launch/launch/actions/opaque_function.py:OpaqueFunction", "launch/launch/actions/opaque_coroutine.py:OpaqueCoroutine", "launch/launch/utilities/ensure_argument_type_impl.py:ensure_argument_type", "launch/launch/utilities/normalize_to_list_of_substitutions_impl.py:normalize_to_list_of_substitutions"]}
{"id": "C99", "title": "Entities added to a launch description while it is visited are visited", "statement": "A visit of a LaunchDescription that ends has visited every entity the description has at its end exactly once and in order, including those that functions called on the way added to it with add_action or add_entity; the same holds for every description that is visited within it, up to what is added to that one after its own visit. Nothing is lost or moved, and the visit is depth-first. A function that adds its own action to the description it is in makes the visit go on forever.", "quantifier": "all nestings of descriptions and functions, all functions, whatever they add and return depending on everything visited before, visits of any length", "why_tests_cant": "which entities are met depends on the order in which functions add them and on the nesting, without bound; a test adds one entity at one place", "anchors": ["launch/launch/launch_description.py:LaunchDescription.visit", "launch/launch/launch_description.py:LaunchDescription.add_entity", "launch/launch/launch_description.py:LaunchDescription.add_action", "launch/launch/utilities/visit_all_entities_and_collect_futures_impl.py:visit_all_entities_and_collect_futures"]}
{"id": "C100", "title": "Which messages are logged after anything done about levels", "statement": "After any history of getting loggers, setting their levels, setting launch_config.level, resetting launch.logging and making launch services, a logger passes on exactly the messages at one level and above: the level last set for the nearest logger above it (by dotted name, itself included) that has one, and otherwise the level last set in general, where making a LaunchService counts as setting DEBUG or INFO for the whole process. A reset forgets the levels of all loggers made since launch.logging was imported. What a process prints, to either stream, is logged exactly if that level is not above INFO, so asking for warnings and worse also silences what processes print to standard error.", "quantifier": "all histories of any length, all logger names and levels, all loggers that existed before the import", "why_tests_cant": "the level depends on the order of everything done in the process and on the dotted names of all loggers; tests set one level and look at one logger", "anchors": ["launch/launch/logging/__init__.py:LaunchConfig.level", "launch/launch/logging/__init__.py:reset", "launch/launch/logging/__init__.py:LaunchLogger", "launch/launch/logging/__init__.py:get_output_loggers", "launch/launch/launch_service.py:LaunchService.__init__", "launch/launch/actions/execute_local.py:ExecuteLocal"]}
{"id": "C101", "title": "What ThisLaunchFile and ThisLaunchFileDir give", "statement": "Wherever the visit of a launch description has got to, ThisLaunchFile and ThisLaunchFileDir give the file, and its directory, of the include that was begun last, wherever in the visit that was and whether or not it has ended; before any, they give what they gave at the beginning. So the entities of an included file see that file until an include of its own begins, and never again afterwards; the values of the arguments of an include, although written in the including file, are evaluated as in the included one. The entities of an event handler know no launch file, and either substitution raises there, until an include among them begins. The entities of a timer see the file that was given when the timer was executed.", "quantifier": "all launch descriptions and files, nested to any depth, with conditions, groups and scopes; all points of a visit; all event handlers and events", "why_tests_cant": "what is given depends on everything visited before, across files; tests include one file that uses the substitution at its beginning", "anchors": ["launch/launch/substitutions/this_launch_file.py:ThisLaunchFile", "launch/launch/substitutions/this_launch_file_dir.py:ThisLaunchFileDir", "launch/launch/actions/include_launch_description.py:IncludeLaunchDescription.execute", "launch/launch/launch_context.py:LaunchContext.extend_locals", "launch/launch/actions/timer_action.py:TimerAction.execute", "launch/launch/event_handler.py:BaseEventHandler.handle"]}
{"id": "C102", "title": "When the visit of a launch description ends", "statement": "The visit of an entity has one outcome, and so has the processing of an event, however far it has to be followed. A visit ends unless what it visits is nested without end: if it has not ended after following n levels, there is an entity that is visited n levels below the first one, or an include, at some level, of a file whose entities say that they contain entities to the depth that is left. So a visit ends whenever both depths are bounded, and a launch description without includes, functions and tests always comes to its end, in every context. It is not enough that a condition puts an end to a launch file that includes itself: the search for the arguments of a file follows its includes whatever their conditions say, and never ends.", "quantifier": "all entities, nested to any depth; all contexts, files, functions and conditions; all events and registered handlers", "why_tests_cant": "that a visit ends, and for what reason it may not, is about arbitrarily deep nesting; tests visit a few small descriptions", "anchors": ["launch/launch/utilities/visit_all_entities_and_collect_futures_impl.py:visit_all_entities_and_collect_futures", "launch/launch/launch_service.py:LaunchService._process_one_event", "launch/launch/actions/include_launch_description.py:IncludeLaunchDescription.execute", "launch/launch/launch_description.py:LaunchDescription.get_launch_arguments_with_include_launch_description_actions"]}
{"id": "C103", "title": "How a launch description is cut into launch descriptions makes no difference", "statement": "If two launch descriptions have the same actions in the same order, however these are put into launch descriptions within launch descriptions, then visiting one returns or raises what visiting the other does, with the same futures in the same order; all effects are the same and come in the same order, and everything (context, queue, handlers, timers, processes, futures) is the same afterwards. The same holds of a group without a scope and configurations and its entities in its place, as long as nobody waits for the group to be executed. What was observed before a visit has no influence on it.", "quantifier": "all entities, nested to any depth, all states of the context and the service, all actions, functions, files and conditions", "why_tests_cant": "an equality of the effects of any two descriptions with the same actions, in any state; tests compare no two descriptions", "anchors": ["launch/launch/launch_description.py:LaunchDescription.visit", "launch/launch/utilities/visit_all_entities_and_collect_futures_impl.py:visit_all_entities_and_collect_futures", "launch/launch/actions/group_action.py:GroupAction.get_sub_entities", "launch/launch/action.py:Action.visit"]}
{"id": "C104", "title": "The scopes that are open when an exception is raised stay open", "statement": "When the visit of a launch description raises, nothing is restored: the launch configurations and the environment are those in which the entity raised, and every group with a scope around that entity leaves on the stacks what it saved when it was begun, innermost first, in front of what was there before. So an event that is processed to the end leaves no scope open, and one whose processing raises leaves open just those around the entity that raised. What is set within a group with a scope is seen outside of it, by the handlers called at shutdown, if the group raises.", "quantifier": "all launch descriptions without Push and Pop actions of their own, nested to any depth; all entities that may raise, and all exceptions; all contexts; events: all histories, for events whose handlers bring such descriptions (for events of timers, if the timer is asked first)", "why_tests_cant": "where an exception is raised, and within how many groups, is arbitrary; tests look at groups that return", "anchors": ["launch/launch/actions/group_action.py:GroupAction.get_sub_entities", "launch/launch/utilities/visit_all_entities_and_collect_futures_impl.py:visit_all_entities_and_collect_futures", "launch/launch/launch_context.py:LaunchContext._push_launch_configurations", "launch/launch/launch_context.py:LaunchContext._pop_launch_configurations", "launch/launch/actions/push_launch_configurations.py:PushLaunchConfigurations"]}
{"id": "C105", "title": "Between events nothing a launch file can ask for changes, and scopes are balanced over whole histories", "statement": "Launch configurations, the environment, globals and locals, and what groups have saved of them, change only while an event is processed or user code runs: not when signals arrive, when processes start, print or exit, when timers run, or when runs and shutdowns begin and end. (AnonName in the period of a timer may add a name.) If the launch descriptions that handlers bring have no Push and Pop actions of their own, then over a history of any length no scope is closed that was open before, the stacks of configurations and environment grow together, and if no event raises they are as before. Without code of the user between the events, locals are as before then, too. ResetEnvironment always brings back the environment with which the service was created.", "quantifier": "all steps of the service other than events and user code; all histories of any length, with all other steps in between, whose events bring descriptions without Push and Pop actions of their own", "why_tests_cant": "what happens between events, and in which order, is arbitrary; a leak shows only after a long history", "anchors": ["launch/launch/launch_service.py:LaunchService._process_one_event", "launch/launch/launch_context.py:LaunchContext", "launch/launch/actions/group_action.py:GroupAction.get_sub_entities", "launch/launch/actions/timer_action.py:TimerAction._wait_to_fire_event"]}

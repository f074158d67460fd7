# Formal model of ros2/launch in Rocq (Coq 8.16.1)

Source: `/repo` (python, pinned commit), read as text only; nothing of it is built or run.
Everything formal is in `rocq/theories/`, logical name `Verif`. The properties are listed in
`properties.jsonl`, the theorems that state them in `MANIFEST.json`, the attempts to break
them with wrong programs in `seeded/LOG.jsonl`.

## How to read the development

| role | files | content |
|---|---|---|
| models | `Base … Service`, `Cmdline`, `Frontend`, `ParseMethods`, `Logging`, `Signals`, `Testing`, `Waiting`, … | the python code, function by function; every definition cites the file and lines it models |
| specifications | `Spec*.v` | the vocabulary of the theorems, independent of how the model computes |
| lemmas | `*Facts.v`, `*Laws.v`, `*Steps.v` | proofs |
| properties | `Props*.v` | only the theorems `Cxx_…` (each closed by one lemma), `Print Assumptions` under each, and `Example`s showing that a concrete, non-trivial case meets the hypotheses |

A theorem named `Cxx_…_refuted` has the form `exists …, ¬ …`: a concrete execution of the
model in which a natural stronger form of the property fails. These are findings about the
code; the statement of the property says so in words.

## The core model: one state machine

The core of `launch` is written as total Gallina functions that follow the python branch by
branch. Exceptions are values (`Exn`). Recursion that python does not bound carries fuel, with
a separate outcome `OutOfFuel` that no theorem accepts as a result of the program.

| layer | file | models |
|---|---|---|
| texts, exceptions | `Base.v` | the python string functions used |
| numbers | `PyNum.v` | `int()`, `float()`, `math.isclose` on text |
| typed values | `TypeUtils.v` | `utilities/type_utils.py` |
| syntax | `Syntax.v` | substitutions, conditions, actions, handlers, events as data |
| state | `State.v` | `LaunchContext`, asyncio futures and tasks, timers, process actions, the service; the oracle record `world`; the ghost log of observations |
| context | `Context.v` | the methods of `LaunchContext` |
| substitutions | `Subst.v` | `substitutions/*`, `conditions/*` |
| arguments | `LaunchArgs.v` | `LaunchDescription.get_launch_arguments`, the check of `IncludeLaunchDescription` |
| execution | `Exec.v` | every `execute`, `Action.visit`, `visit_all_entities_and_collect_futures`, event handlers, `__process_event`; `ExecuteLocal` except its coroutine |
| service | `Service.v` | `LaunchService.run_async`, `shutdown`, the coroutines of timers and processes: a labelled transition system |
| process API | `ProcApi.v` | `get_stdout`, `get_stderr` |

User code (opaque functions, matchers, predicates, condition functions, substitutions of other
packages, loading a launch file) is the record `world`; theorems quantify over every world. A
user function sees the whole context and returns a list of operations of the public API to
apply, followed by entities or an exception. It may answer differently every time (`nonce`).
Matchers of event handlers and of actions are functions of their argument only.

A schedule is a list of labels: the event task runs, run_async wakes up, a task or callback
runs to its next suspension point, time passes, a process starts, fails to start, prints or
exits, a signal arrives, another thread is inside `shutdown()`, user code acts. "In every
execution" is a quantifier over all lists of labels that the step function accepts, from a new
`LaunchService`; `reachable` says that some list leads to the state.

The ghost log (`log`, type `obs`) records what an observer of the API sees: visits,
executions, emitted and processed events, handlers called, processes started, signalled and
ended, lines logged, timers armed and fired, runs started and returned. The program never
reads it.

### Proof method

* C01–C03, C07–C09: induction on the run of `visit` (one case per action), with a relation
  `visit_run` that also yields the tree visited.
* C04, C14: refinement to a specification without cache, over all operation lists.
* C05, C06, C10–C13, C15: invariants of `process_event`, then of every label.
* C16–C22: invariants over all label lists (`ServiceFacts.v`).
* C23–C30: every step of the service is a sequence of elementary changes (`MicroSteps.v`);
  along these each process action follows a small automaton (`ProcFacts.v`), and the history
  of the action is read off the automaton (`LifeFacts.v`).
* C28, C30: handlers once registered stay (`StayFacts.v`, `InstallFacts.v`), the automaton and
  the timers of the escalation (`EscalateFacts.v`, `StopFacts.v`).
* C31, C32: simulation of the buffers by the concatenation of all chunks.
* C33, C34: laws of `Executable.prepare` and an invariant of the counter.
* C35, C36: the same elementary-change technique for timers (`TimerSteps.v`).
* C37–C42: laws proved by induction on substitutions; C43–C46: one law per action.
* C47: induction on the fuel of the traversal against an inductive specification.
* C48: case analysis and induction on lists, for every YAML parser; the readers of numbers
  agree with a grammar of literals (`SpecNum.v`).
* C63, C64: laws of conditions on launch configurations and of `PathJoinSubstitution`
  (`PathFacts.v`).

## Leaf models

Each has its own small state machine or function and its own `Spec*`, `*Facts`, `Props*`.

| property | model | code |
|---|---|---|
| C49, C50 | `Frontend.v`, `ParseMethods.v` | `launch_xml`/`launch_yaml` entities, `frontend/expose.py`, `frontend/parser.py`, the `parse` methods of the built-in actions |
| C51, C52 | `Cmdline.v` | escapes in `frontend/parse_substitution.py`, `ExecuteProcess._parse_cmdline`; the algorithm of `shlex.split` |
| C53, C54 | `Logging.v` | `logging/__init__.py`, `logging/handlers.py` |
| C55 | `Signals.v` | `utilities/signal_management.py` |
| C56–C59, C61 | `Testing.v` | `ready_aggregator`, `io_handler`, `proc_info_handler`, `asserts/*`, `util/proc_lookup` of launch_testing |
| C62 | `TextMatch.v` | `tools/text.py`, `tools/output.py`, `asserts/assert_output.py` of launch_testing |
| C65 | `CondWait.v` | `io_handler.py` (84-206), `proc_info_handler.py` (70-168), `tools/process.py` (52-153) of launch_testing, on python's `threading.Condition` |
| C66, C67 | `TestRun.v` | `test_runner.py` (77-275), `test_result.py`, `junitxml.py`, `launch_test.py` (111-142), `parse_arguments.py` of launch_testing, on what python's `unittest` reports |
| C68 | `SubstText.v` | `grammar.lark`, `parse_substitution.py` (38-151), `expose.py` (36-51) |
| C69, C70 | `LaunchPytest.v` | `launch_pytest/plugin.py` (64-94, 137-309, 312-363, 376-507), `launch_pytest/fixture.py` (30-36) |
| C71, C72 | `Legacy.v` | `launch_testing/legacy/__init__.py` (34-261), `launch_testing/legacy/output.py` (49-114; not the expected-file reader) |
| C73, C74 | `Sources.v` | `launch_description_source.py` (30-113), `launch_description_sources/any_launch_file_utilities.py` (29-61), `invalid_launch_file_error.py` (21-40), `frontend/parser.py` (85-102) |
| C75–C77 | `Exposed.v` | the `parse` methods of `substitutions/*.py`, `command.py` (93-140), `find_executable.py` (60-67), `file_content.py` (60-69), `python_expression.py` (61-118) |
| C78 | `TestLoad.v` | `parametrize.py`, `loader.py` (33-308), `markers.py:keep_alive`, `ready_to_test_action_timeout.py`, `decorator.py`, `test_runner.py` (72-127, 276-310) |
| C79 | `Retry.v` | `markers.py:retry_on_failure` (30-63), with the parts of unittest it uses |
| C80 | `Service.v` (with `SpecProgress.v`) | `launch_service.py` (98-118, 212-226, 267-375, 392-432): the steps a run can always make by itself |
| C81 | `Exec.v` (with `SpecEscalate.v`) | `execute_local.py` (263-352), `events/process/process_matchers.py`: which processes an event is for |
| C82 | `Service.v`, `Exec.v` (with `SpecAlive.v`) | `launch_service.py` (303-360), `execute_local.py` (354-372, 549-668), `timer_action.py` (134-202): who will set the futures a run waits for; the owner kept by a dead task and `x_begun` are ghosts that record which action a failed coroutine belonged to and whether the coroutine of a process action was ever created |
| C83 | `Introspect.v` (with `SpecIntrospect.v`) | `launch_introspector.py` (whole file); text is a list of code points; what str() and describe() give for objects is a parameter |
| C84 | `PytestHooks.v` (with `SpecPytestHooks.v`) | `launch_testing/pytest/hooks.py` (98-127, 176-231): collecting, verdict, names in the report, arguments; not the layout of the report nor the differences between versions of pytest |
| C85 | `Registry.v` (with `SpecRegistry.v`) | `frontend/expose.py` (33-132), `frontend/parser.py` (72-91): the registries as finite maps, identity of methods by the object they belong to, modules as lists of exposures |
| C86 | `MarkupFiles.v` (with `SpecMarkupFiles.v`) | `frontend/parser.py` (217-263), `launch_yaml/parser.py` (33-55), `frontend_launch_description_source.py`, `frontend_launch_file_utilities.py`, the sources of `launch_xml` and `launch_yaml`; a parser is a function of the position at which it begins to read |
| C87 | `Utf8.v` (with `SpecUtf8.v`) | the `decode()` calls on output in `execute_local.py` (367, 418), `asserts/assert_output.py`, `assert_sequential_output.py`, `stdout_ready_listener.py`, `tools/process.py`; the UTF-8 decoder is that of CPython, as an automaton |
| C88 | `ParseMethods.v`, `Frontend.v` (with `SpecMarkup.v`) | the `parse` methods of the 13 built-in elements (among them `executable`, `group`, `timer`, `let`, `include`) on XML and YAML entities, against a table of their attributes, nested elements and children |
| C89 | `ParseMethods.v`, `Frontend.v` (with `SpecMarkup.v`) | the XML and YAML `Entity` classes side by side under the same `parse` methods |
| C90 | `Exec.v` (with `SpecCommand.v`) | `Executable.prepare`: prefix, filter, command, name and working directory, from the context of the execution; the cases in which it raises |
| C91 | `Exec.v` (with `SpecTimedTest.v`) | `Test.execute` of launch_testing: the timer, the handler that cancels it and the call of `_shutdown_process` |
| C92 | `LaunchFixtures.v` (with `SpecLaunchFixtures.v`) | `launch_pytest/fixture.py` (22-147), `plugin.py` (97-131), `launch_testing/actions/ready.py`, on the scopes of pytest; of the launch service only what the fixtures use |
| C93 | `Iterables.v` (with `SpecIterables.v`) | how `LaunchDescription`, `GroupAction`, `TimerAction`, `EventHandler`, `OnShutdown` and `OnActionEventBase` keep and use the iterable they are given |
| C94 | `DeclareArg.v` (with `SpecDeclareArg.v`) | `DeclareLaunchArgument.__init__`, executed in the model of `Exec.v` |
| C95 | `Exec.v`, `Service.v` (with `SpecCoro.v`) | `OpaqueCoroutine` (`exec_coro`, `HCoroCancel`) and how `run_async` ends when a task was cancelled; the coroutine of an action is traced backwards through the micro steps (`AliveFacts.lent`), the end of the run by an invariant over all later steps |
| C96 | `PropsNeeded.v` (with `SpecNeeded.v`, `NeededFacts.v`) | the listing of `LaunchArgs.v` against visits of `Exec.v`: an induction over visits with a stack of scopes, for any preorder on launch configurations that actions respect, used once for growing and once for one name staying unset; the marks against a walk that keeps them |
| C97 | `PropsShowArgs.v` (with `ShowArgs.v`, `SpecShowArgs.v`, `ShowArgsFacts.v`) | `print_arguments.py` line by line; the specification is a reader of lines that knows nothing of the printing; induction on the arguments |
| C98 | `PropsChecked.v` (with `Checked.v`, `SpecChecked.v`, `CheckedFacts.v`) | `ensure_argument_type` over a universe of python values and classes, the constructors of `TimerAction`, `OpaqueFunction`, `OpaqueCoroutine`, and the calls; on top of `TypeUtils.v`; cases and inductions over the iterables |
| C99 | `PropsGrowing.v` (with `Growing.v`, `SpecGrowing.v`, `GrowingFacts.v`) | a visit over descriptions with mutable lists, iterated by position; functions are arbitrary oracles over the history; induction on the fuel with an invariant about growth |
| C100 | `PropsLevels.v` (with `Levels.v`, `SpecLevels.v`, `LevelFacts.v`) | levels of loggers by dotted name, as operations on a state; the level that counts is specified over the history, and an invariant relates the two by induction on it |
| C101 | `PropsThisFile.v` (with `SpecThisFile.v`, `ThisFileFacts.v`) | the visit of the existing model, cut off at any entity; every action is shown to keep the two context variables except the include, by cases over all actions and induction on the visit |
| C102 | `PropsNesting.v` (with `SpecNesting.v`, `NestingFacts.v`, `NestingEnds.v`) | the visit and the search for arguments of the existing model; monotonicity in the fuel by induction, and every cause of OutOfFuel traced to an entity below the first |
| C103 | `PropsInline.v` (with `SpecInline.v`, `InlineFacts.v`, `InlineLaws.v`) | the visit of the existing model; every action is shown not to look at what was observed, by cases over all actions, then induction on the nesting in both directions |
| C104 | `PropsOpen.v` (with `SpecOpen.v`, `OpenFacts.v`, `OpenEvents.v`) | the visit of the existing model, cut off by an exception; induction on the way to the entity that raised |
| C105 | `PropsBalance.v` (with `SpecBalance.v`, `BalanceFacts.v`) | every step of the existing model; induction on the history, with C104 for the events |
| C60 | `Waiting.v` | `launch_pytest/tools/process.py` |

For C49 a parse method is an arbitrary program over an entity (reads of attributes and
children, exceptions), so the theorems cover parse methods of other packages;
`ParseMethods.v` gives those of the built-in actions.

## Trusted base

* Coq's kernel. No axioms are added, no kernel check is switched off.
* `Print Assumptions` of every property theorem, see "Axioms".
* The reading of the python code recorded in the comment of each definition.
* stdpp (finite maps, lists, strings, pretty-printing of integers) and coq-record-update are
  used as libraries; they contribute no axioms.

### Axioms

`Print Assumptions` prints "Closed under the global context" for every property theorem: no
functional extensionality, no classical axiom, no axiom of another library is used.

`coqchk -o`, which looks at whole libraries, also lists the seven parameters
`Coq.ssr.ssrunder.Under_rel.Under_rel`, `.Under_relE`, `.under_rel_done`, `.Over_rel`,
`.over_rel`, `.over_rel_done`, `.Under_rel_from_rel`. They are components of a sealed module of
the standard library (`Module Under_rel : UNDER_REL`), loaded with ssreflect; no theorem
depends on them.

## What is simplified or left out

Core:

* Text is a sequence of 8-bit characters; the string functions agree with python on ASCII.
  Process output is decoded text: how bytes become text, and what a cut inside a character does, is modelled apart from it (C87).
* Floats are exact rationals plus infinities and NaN; rounding and overflow are not modelled.
  Time is a rational that only the label `LTick` advances.
* asyncio, threads, OS processes, pipes and signals appear as labels whose enabling conditions
  are in `Service.v`. Each asyncio callback runs to its next suspension point without
  interruption. Another thread inside `shutdown()` is split at the points where it matters
  (`LShutThread … LShutEnd`); at most one thread is inside (the code's lock). `emit_event`
  from another thread is one step.
* A run started after a rejected concurrent run, while the first one is still active, is not
  modelled.
* `LaunchDescriptionSource` loading, `yaml.safe_load`, `shlex.split`, `re.match`,
  `os.path.abspath`, output configuration checks are arbitrary functions in the core.
  (`shlex.split` has a model of its own in `Cmdline.v`, output configuration in `Logging.v`.)
* Substitutions modelled one by one: text, launch configuration, environment variable,
  boolean, equality, if/else, anonymous name, path join, this launch file (directory), local.
  Others (`Command`, `PythonExpression`, `FileContent`, `FindExecutable`, …) are the
  constructor `SFun`: an arbitrary function of the context and of its performed arguments.
  (These four have models of their own in `Exposed.v`; description sources in `Sources.v`.)
* Deprecation warnings, `describe()` texts, the text of log messages of the service itself,
  Windows branches.
* A user operation `OpUnregister` may name any handler, also one created by launch.
* C31 starts from the ProcessIO events the action handles; that each piece read from a pipe
  becomes one event is the label `LOutput`.

Frontends: a file is given as the tree its library parser returns; YAML keys are strings; the
parser of substitutions in text is an arbitrary function from texts to lists of
substitutions or an error, except in C68: there it is the grammar, read by recursive descent
(terminals match greedily, as with lark's dynamic lexer, and the grammar is then unambiguous),
and the substitutions that are made are an arbitrary type with an arbitrary registry.

Logging: levels have a model of their own (`Levels.v`, C100) and are otherwise left out;
custom handler factories are not modelled. The file system in C54 is a
map from paths to entries with atomic operations.

Signals: POSIX, main thread; the pipe is a list of signal numbers.

Testing: the texts of failure messages are not modelled. `Waiting.v` has one integer clock for
all clocks.

Not modelled at all: `launch_testing_ament_cmake`,
documentation and examples.

## Testing the theorems

`seeded/LOG.jsonl` has one line per wrong program tried: the definition edited, the edit, the
claim it breaks, the theorems that no longer prove (also indirectly: through a lemma that
fails), and the theorems tightened as a consequence. Each edit is made in a scratch copy;
lemmas that fail there are admitted so that the build reaches the property files, and a
theorem counts as failed if it, or anything it depends on, did not prove.

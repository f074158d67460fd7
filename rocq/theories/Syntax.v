(** Syntax of launch descriptions: substitutions, conditions, entities, actions,
    events and event handlers, as built by the constructors of the python
    classes.  A python object whose identity matters is represented by a number:
    [aid] for actions, handler ids, source ids.  The text
    [normalize_to_list_of_substitutions] of every constructor argument is a
    [list subst]. *)
From Verif Require Export TypeUtils.

(** Identity of a python object: built by the user or created by launch itself.
    [Gen 0] is used for actions created internally whose identity is never used. *)
Inductive oid := User (n : nat) | Gen (n : nat).
#[global] Instance oid_eq_dec : EqDecision oid.
Proof. solve_decision. Defined.
#[global] Instance oid_countable : Countable oid.
Proof.
  refine (inj_countable' (fun o => match o with User n => inl n | Gen n => inr n end)
                         (fun x => match x with inl n => User n | inr n => Gen n end) _).
  by intros [].
Defined.
(** Identity of an action, of an event handler. *)
Notation aid := oid (only parsing).
Notation hid := oid (only parsing).

(** Substitutions (launch/launch/substitutions/). *)
Inductive subst :=
| SText (s : string)                                            (* text_substitution.py *)
| SLaunchConfig (name : list subst) (default : option (list subst))  (* launch_configuration.py:37-65 *)
| SEnvVar (name : list subst) (default : option (list subst))   (* environment_variable.py:41-62 *)
| SNot (v : list subst)                                         (* boolean_substitution.py:29-64 *)
| SAnd (l r : list subst)                                       (* boolean_substitution.py:67-110 *)
| SOr (l r : list subst)                                        (* boolean_substitution.py:113-156 *)
| SAny (args : list (list subst))                               (* boolean_substitution.py:159-201 *)
| SAll (args : list (list subst))                               (* boolean_substitution.py:204-247 *)
| SEquals (l r : list subst)                                    (* equals_substitution.py:61-94 *)
| SNotEquals (l r : list subst)                                 (* not_equals_substitution.py:26-50 *)
| SIfElse (c i e : list subst)                                  (* if_else_substitution.py:67-76 *)
| SAnonName (name : list subst)                                 (* anon_name.py:36-41 *)
| SPathJoin (l : list subst)                                    (* path_join_substitution.py:29-32 *)
| SThisFile                                                     (* this_launch_file.py *)
| SThisDir                                                      (* this_launch_file_dir.py *)
| SLocal (key : string)                                         (* local_substitution.py; only a plain name *)
| SFun (fid : nat) (args : list (list subst)).                  (* any other Substitution subclass *)

(** A value normalised with normalize_typed_substitution(_, bool). *)
Inductive bval := BV (b : bool) | BS (l : list subst).
(** A value normalised with normalize_typed_substitution(_, float); [FSum a b] is
    PythonExpression('float(' a ') + float(' b ')') of execute_local.py:462-464. *)
Inductive fval := FV (f : pyfloat) | FS (l : list subst) | FSum (a b : list subst).

(** Conditions (launch/launch/conditions/). *)
Inductive cond :=
| CIf (l : list subst)                                   (* if_condition.py *)
| CUnless (l : list subst)                               (* unless_condition.py *)
| CLCEquals (n : string) (e : option (list subst))       (* launch_configuration_equals.py *)
| CLCNotEquals (n : string) (e : option (list subst))    (* launch_configuration_not_equals.py *)
| CFun (n : nat).                                        (* Condition(predicate=...), condition.py *)

(** A process matcher, events/process/ and events/process_matchers.py:25-61. *)
Inductive pmatch :=
| PMAction (a : aid)
| PMPid (p : Z)
| PMName (s : string)
| PMExecutable (s : string)
| PMFun (n : nat).

Inductive sig := SIGINT | SIGTERM | SIGKILL | SIGOther (n : nat).
Inductive stream := Stdout | Stderr.

(** The keyword arguments carried by process events, execute_local.py:629-636. *)
Record pdet := mkPdet {
  d_name : string; d_cmd : list string; d_cwd : option string;
  d_env : dict string; d_pid : option Z }.

(** Description of an executable and options of ExecuteLocal,
    descriptions/executable.py:45-106, actions/execute_local.py:80-225. *)
Record pcfg := mkPcfg {
  p_cmd : list (list subst);
  p_prefix : option (list subst);
  p_name : option (list subst);
  p_cwd : option (list subst);
  p_env : option (list (list subst * list subst));
  p_addenv : option (list (list subst * list subst));
  p_respawn : bval;
  p_delay : option Q;           (* respawn_delay, a float *)
  p_max : Z;                    (* respawn_max_retries *)
  p_cached : bool;
  p_output : list subst;
  p_sigterm : list subst;
  p_sigkill : list subst;
  p_emulate : bool }.

(** Classes of events that carry an action (events/execution_complete.py,
    events/process/running_process_event.py). *)
Inductive ecls := CComplete | CStart | CExit | CIO.
(** action_matcher of OnActionEventBase, on_action_event_base.py:43 *)
Inductive tgt := TgtAny | TgtAct (a : aid) | TgtFun (n : nat).

(** Matchers of event handlers. *)
Inductive matcher :=
| MInclude | MShutdown | MTimer | MShutdownProc | MSignalProc
| MAct (c : ecls) (t : tgt)
| MFun (n : nat).

Inductive event :=
| EvInclude (ld : list entity)                       (* events/include_launch_description.py *)
| EvShutdown (reason : string) (due_to_sigint : bool)   (* events/shutdown.py *)
| EvComplete (a : aid)                               (* events/execution_complete.py *)
| EvTimer (a : aid)                                  (* events/timer_event.py *)
| EvStarted (a : aid) (d : pdet)                     (* events/process/process_started.py *)
| EvExited (a : aid) (d : pdet) (rc : Z)             (* events/process/process_exited.py *)
| EvIO (a : aid) (d : pdet) (fd : stream) (text : string)  (* process_stdout.py, process_stderr.py *)
| EvStdin (a : aid) (text : string)                  (* process_stdin.py *)
| EvSignalProcess (s : sig) (m : pmatch)             (* signal_process.py *)
| EvShutdownProcess (m : pmatch)                     (* shutdown_process.py *)
| EvUser (n : nat)                                   (* any user-defined event *)
(** LaunchDescription / Action objects *)
with entity :=
| ELaunch (l : list entity)                          (* launch_description.py:53-74 *)
| EAct (a : aid) (c : option cond) (k : action)      (* action.py:41-51 *)
(** Actions (launch/launch/actions/). *)
with action :=
| ASetLC (n v : list subst)
| AUnsetLC (n : list subst)
| AResetLC (cfgs : option (list (list subst * list subst)))
| APushLC | APopLC | APushEnv | APopEnv | AResetEnv
| ASetEnv (n v : list subst)
| AUnsetEnv (n : list subst)
| AAppendEnv (n v : list subst) (prepend : bval) (sep : list subst)
| ADeclare (n : string) (default : option (list subst)) (choices : option (list string))
| AGroup (scoped forwarding : bool) (cfgs : list (list subst * list subst)) (body : list entity)
| AInclude (src : nat) (args : list (list subst * list subst))
| AOpaque (fid : nat)
| AEmit (e : event)
| AShutdown (reason : string)
| ARegister (h : handler)
| AUnregister (h : handler)
| ALog (msg : list subst)
| ATimer (period : fval) (body : list entity) (cancel_on_shutdown : bval)
| AExec (c : pcfg) (on_exit : hbody)
| ACoro (n : nat)
| ATest (c : pcfg) (on_exit : hbody) (timeout : option fval)   (* launch_testing/launch_testing/actions/test.py:32-52 *)
(* OpaqueFunction actions whose function is part of launch itself: *)
| IInclude                  (* on_include_launch_description.py:31-36 *)
| ITimerHandle              (* timer_action.py:182-189 *)
| ITimerCancel (a : aid)    (* timer_action.py:202 *)
| IProcShutdown (a : aid)   (* execute_local.py:672-675 *)
| IProcSignal (a : aid)     (* execute_local.py:676-679 *)
| IEscalate (t : fval)      (* printer, execute_local.py:455-459 *)
| ITestStop (a : aid)       (* launch_testing/launch_testing/actions/test.py:77-79 *)
(** Event handler objects: identity, matcher, handle_once, behaviour. *)
with handler := MkH (id : hid) (m : matcher) (once : bool) (b : hbody)
with hbody :=
| HEntities (l : list entity)    (* EventHandler(entities=iterable) *)
| HEntity (e : entity)           (* EventHandler(entities=one entity) *)
| HShut (l : list entity)        (* OnShutdown(on_shutdown=entities) *)
| HFun (fid : nat)               (* a callable (event, context) *)
| HList (l : list entity)        (* OnActionEventBase(on_event=iterable) *)
| HNone                          (* OnActionEventBase(on_event=None) *)
| HIO (fo fe fi : option nat)    (* OnProcessIO(on_stdout, on_stderr, on_stdin) *)
| HSvcShutdown                   (* launch_service.py:79,387-390 *)
| HProcIO (a : aid)              (* execute_local.py:680-687 *)
| HProcShutdown (a : aid)        (* execute_local.py:688-690 *)
| HProcFlush (a : aid)           (* execute_local.py:697-700 *)
| HProcDeferred (a : aid) (send_sigint : bool)   (* execute_local.py:285-288 *)
| HCoroCancel (a : aid)          (* opaque_coroutine.py:96-100,110-112 *)
| HTestExit (t : aid).           (* launch_testing/launch_testing/actions/test.py:59-64, for the timer [t] *)

(** Values stored in context locals and globals. *)
Inductive lval := LEv (e : event) | LStr (s : string) | LOther (n : nat).

Definition h_id (h : handler) : hid := match h with MkH i _ _ _ => i end.
Definition h_match (h : handler) : matcher := match h with MkH _ m _ _ => m end.
Definition h_once (h : handler) : bool := match h with MkH _ _ o _ => o end.
Definition h_body (h : handler) : hbody := match h with MkH _ _ _ b => b end.

#[global] Instance sig_eq_dec : EqDecision sig.
Proof. solve_decision. Defined.
#[global] Instance stream_eq_dec : EqDecision stream.
Proof. solve_decision. Defined.

(** An action object created internally (no condition, no name). *)
Definition anon (k : action) : entity := EAct (Gen 0) None k.

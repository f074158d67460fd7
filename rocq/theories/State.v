(** State of a launch run: the LaunchContext, the LaunchService, the asyncio
    futures and tasks, and the state of timer, process and coroutine actions;
    plus the oracles that stand for user code and the operating system. *)
From Verif Require Export Syntax.
From RecordUpdate Require Export RecordSet.
Export RecordSetNotations.

(** ** LaunchContext, launch/launch/launch_context.py:39-74.
    [env] is os.environ, which the context reads and writes directly. [queue] is the
    content of the asyncio queue, head first; [handlers] the deque, left first;
    [cfuts] the completion futures.  [timer_installed] is the attribute set at
    timer_action.py:190.  [nonce] is not in the code: it counts the calls made
    to user code so that user code may answer differently every time. *)
Record ctx := mkCtx {
  lc : dict string; lc_stack : list (dict string);
  env : dict string; env_stack : list (dict string); env_reset : dict string;
  globals : dict lval; locals : dict lval; locals_stack : list (dict lval);
  cache : option (dict lval);
  handlers : list handler; queue : list event; cfuts : list nat;
  is_shutdown : bool; timer_installed : bool; loop_set : bool;
  noninteractive : bool; nonce : nat }.

#[export] Instance eta_ctx : Settable _ := settable! mkCtx
  <lc; lc_stack; env; env_stack; env_reset; globals; locals; locals_stack; cache;
   handlers; queue; cfuts; is_shutdown; timer_installed; loop_set; noninteractive; nonce>.

(** What user code can do to the context through its public API. *)
Inductive apiop :=
| OpSetLC (k v : string) | OpDelLC (k : string)
| OpSetEnv (k v : string) | OpDelEnv (k : string)
| OpLocal (k : string) (v : lval) | OpGlobal (k : string) (v : lval)
| OpEmit (e : event)
| OpRegister (h : handler) (append : bool) | OpUnregister (id : hid)
| OpAddFuture                 (* create a future and add_completion_future it *)
| OpCancelTimer (a : aid).    (* TimerAction.cancel() *)

(** User code and operating system.  The theorems quantify over all worlds.
    Matchers and predicates on actions are functions of their argument. *)
Record world := mkWorld {
  w_yaml : string -> option (pv subst);                 (* yaml.safe_load *)
  w_sfun : nat -> list string -> ctx -> res string;     (* other Substitution.perform *)
  w_rand : string -> nat -> string;                     (* AnonName.compute_name *)
  w_cond : nat -> ctx -> bool;                          (* Condition(predicate=...) *)
  w_match : nat -> event -> bool;                       (* event handler matchers *)
  w_tgt : nat -> aid -> bool;                           (* action matchers *)
  w_pmatch : nat -> aid -> bool;                        (* process matchers *)
  w_fun : nat -> ctx -> list apiop * res (list entity); (* OpaqueFunction and handler callables *)
  w_load : nat -> string -> nat -> res (list entity);   (* LaunchDescriptionSource loading *)
  w_loc : nat -> list subst;                            (* location given to a source *)
  w_abspath : string -> string;                         (* os.path.abspath *)
  w_launchdir : string -> string;     (* include_launch_description.py:116-124 *)
  w_shlex : string -> list string;                      (* shlex.split *)
  w_rematch : string -> string -> bool;                 (* re.match(...) is not None *)
  w_output_ok : string -> bool }.                       (* get_output_loggers accepts *)

(** ** asyncio futures *)
Inductive fstate := FPending | FOk | FExn (e : exn) | FCancelled.
Definition f_done (f : fstate) : bool := match f with FPending => false | _ => true end.

(** A TimerAction object that has been executed or cancelled,
    timer_action.py:84-91.  [t_gen] is not in the code; it counts executions. *)
Record tobj := mkTobj {
  t_body : list entity; t_period : fval; t_locals : dict lval;
  t_completed : option nat; t_canceled_fut : option nat; t_canceled : bool; t_gen : nat }.
#[export] Instance eta_tobj : Settable _ := settable! mkTobj
  <t_body; t_period; t_locals; t_completed; t_canceled_fut; t_canceled; t_gen>.

(** io.StringIO: text, cursor (used by cached output only), closed. *)
Record buf := mkBuf { b_text : string; b_cur : nat; b_closed : bool }.
#[export] Instance eta_buf : Settable _ := settable! mkBuf <b_text; b_cur; b_closed>.

(** An ExecuteLocal object, execute_local.py:188-225.  [x_transport] stands for both
    _subprocess_transport and _subprocess_protocol (assigned together at 569,588):
    the future [protocol.complete].  [x_begun] is not in the code; it says that the task
    of line 721 was created. *)
Record pobj := mkPobj {
  x_cfg : pcfg; x_onexit : hbody; x_respawn : bval;
  x_executed : bool; x_retries : Z; x_det : option pdet;
  x_transport : option nat; x_completed : option nat; x_shutdown : option nat;
  x_sigterm : option aid; x_sigkill : option aid;
  x_out : buf; x_err : buf; x_begun : bool }.
#[export] Instance eta_pobj : Settable _ := settable! mkPobj
  <x_cfg; x_onexit; x_respawn; x_executed; x_retries; x_det; x_transport; x_completed;
   x_shutdown; x_sigterm; x_sigkill; x_out; x_err; x_begun>.

(** The action whose coroutine a task runs. *)
Inductive owner := ByTimer (a : aid) | ByProcess (a : aid).
(** Suspended coroutines created with create_task.  [complete] is the future of the
    process protocol, done when the process has exited; [rc] is then the return code. *)
Inductive task :=
| TTimerInit (a : aid)                          (* timer_action.py:94, not yet run *)
| TTimerWait (a : aid) (waited : nat) (deadline : option Q) (* at 95-98; None = never *)
| TProcInit (a : aid)                           (* execute_local.py:544, not yet run *)
| TProcSpawn (a : aid) (d : pdet)               (* awaiting 569-579, no connection yet *)
| TProcConn (a : aid) (complete : nat) (d : pdet) (rc : option Z) (* connected, 569 not resumed *)
| TProcRun (a : aid) (complete : nat) (d : pdet) (rc : option Z)  (* awaiting 592 *)
| TProcDelay (a : aid) (deadline : Q)           (* awaiting 615-618 *)
| TDead (o : owner) (e : exn).                  (* ended with an exception nobody looks at *)

Definition owner_of (t : task) : owner :=
  match t with
  | TTimerInit a | TTimerWait a _ _ => ByTimer a
  | TProcInit a | TProcSpawn a _ | TProcConn a _ _ _ | TProcRun a _ _ _ | TProcDelay a _ => ByProcess a
  | TDead o _ => o
  end.

(** ** Observations (ghost history, newest first) *)
Inductive obs :=
| OVisit (e : entity)              (* visit() of an entity began *)
| OExecuted (a : aid)              (* Action.execute was called *)
| OExecDone (a : aid)              (* ... and returned or raised *)
| OEmit (e : event)                (* event put on the queue *)
| OProcess (e : event)             (* event taken from the queue *)
| OHandle (h : hid) (e : event)    (* handler h handles e *)
| OBody (h : hid) (locals : dict lval) (ev : res lval)
                                   (* the handler's own code starts; ev is context.locals.event *)
| OReg (h : handler)               (* user code, RegisterEventHandler or a timer or process action registers h *)
| OUnreg (h : hid)                 (* a handler is unregistered, or handled its only event *)
| OSpawn (a : aid) (pid : Z)       (* the OS started a process *)
| OReap (a : aid) (rc : Z)         (* the OS reported its exit *)
| OSignal (a : aid) (s : sig)      (* signal sent to the process *)
| OLine (a : aid) (fd : stream) (l : string)   (* one line given to the output logger *)
| OLog (s : string)                (* LogInfo message *)
| OCancel (f : nat)                (* Future.cancel() on a user task *)
| OChunk (a : aid) (fd : stream) (t : string)  (* a process action receives a piece of output *)
| OFlush (a : aid) (closing : bool)            (* ... flushes its buffers, perhaps for good *)
| OLife (e : event)                (* a process action announces a start or an exit *)
| OAsked (a : aid)                 (* a process action is asked to shut down *)
| OEscalate (a t1 t2 : aid) (t : Q)   (* ... and begins to, with two timers, at time t *)
| OTimer (a : aid)                 (* a timer begins to wait *)
| OArmed (a : aid) (q : pyfloat) (t : Q)   (* ... its period was evaluated at time t *)
| OFire (a : aid) (t : Q)          (* ... and fired at time t *)
| ORun | OReturn (rc : Z)          (* run started / returned rc *)
| ORejected.                       (* a concurrent run raised RuntimeError *)

(** ** LaunchService, launch_service.py:53-96, and locals of run_async *)
(** State of process_one_event_task, launch_service.py:287,319. *)
Inductive etask := ETNone | ETPending | ETDone (r : res unit).
(** Where run_async is: not running, at the top of the loop (290), suspended
    in asyncio.wait (325) on a set of futures and the event task, or out of the
    loop and about to take the lock at 223. *)
Inductive pc := Idle | AtLoop | Waiting (w : list nat) | Leaving.
(** A thread inside LaunchService.shutdown() holding the lock (428-433):
    after reading shutting_down=False (395), after scheduling the emission (411). *)
Inductive sdthread := SdNone | SdDecided | SdPosted | SdPut.

Record st := mkSt {
  cx : ctx;
  futs : gmap nat fstate; next : nat;
  ufuts : list nat;                 (* futures owned by user coroutines / user code *)
  cbs : list (nat * event);         (* done-callbacks that emit an event, action.py:116-118 *)
  timers : gmap aid tobj; procs : gmap aid pobj; coros : gmap aid nat;
  srcs : gmap nat (option string * option (list entity)); (* expanded location, description *)
  tasks : list task;
  pipes : list (nat * aid * pdet);  (* connected process protocols not yet closed *)
  pcount : Z;                       (* _executable_process_counter *)
  now : Q;
  (* LaunchService *)
  shutting_down : bool; efuts : list nat; loop_thread : bool;
  rpc : pc; evt : etask; rcode : Z; when_idle : bool; sigint_seen : bool; sdt : sdthread;
  log : list obs }.
#[export] Instance eta_st : Settable _ := settable! mkSt
  <cx; futs; next; ufuts; cbs; timers; procs; coros; srcs; tasks; pipes; pcount; now;
   shutting_down; efuts; loop_thread; rpc; evt; rcode; when_idle; sigint_seen; sdt; log>.

(** Record an observation. *)
Definition obs1 (o : obs) (s : st) : st := s <| log ::= cons o |>.

(** Specifications for the theorems about stopping processes (C28, C30). *)
From Verif Require Export SpecProc.

(** A process of the action has been connected to its transport. *)
Definition has_started (a : aid) (s : st) : Prop :=
  exists p f, procs s !! a = Some p /\ x_transport p = Some f.
(** The handlers a process action registers when it is executed. *)
Definition on_shutdown_of (a : aid) (h : handler) : Prop := exists i, h = MkH i MShutdown false (HProcShutdown a).
Definition on_shutdown_process_of (a : aid) (h : handler) : Prop :=
  exists i, h = MkH i MShutdownProc false (HEntity (anon (IProcShutdown a))).
Definition on_signal_of (a : aid) (h : handler) : Prop :=
  exists i, h = MkH i MSignalProc false (HEntity (anon (IProcSignal a))).
Definition on_output_of (a : aid) (h : handler) : Prop :=
  exists i, h = MkH i (MAct CIO (TgtAct a)) false (HProcIO a).
Definition on_exit_of (a : aid) (b : hbody) (h : handler) : Prop :=
  exists i, h = MkH i (MAct CExit (TgtAct a)) false b.
(** The handler a process action registers when it is asked to shut down before it has
    started: it waits for the start of any process. *)
Definition deferred (a : aid) (sg : bool) (h : handler) : Prop :=
  exists i, h = MkH i (MAct CStart TgtAny) false (HProcDeferred a sg).
Definition is_deferred (a : aid) (h : handler) : bool :=
  match h with MkH _ (MAct CStart TgtAny) false (HProcDeferred b _) => bool_decide (b = a) | _ => false end.
(** How many of them are registered, and have been registered. *)
Definition deferred_now (a : aid) (s : st) : nat := length (List.filter (is_deferred a) (handlers (cx s))).
Definition deferred_ever (a : aid) (s : st) : nat :=
  length (List.filter (fun o => match o with OReg h => is_deferred a h | _ => false end) (hist s)).
(** A handler that was registered and was not unregistered. *)
Definition still_registered (h : handler) (s : st) : Prop := In (OReg h) (hist s) /\ ~ In (OUnreg (h_id h)) (hist s).
(** A request to shut down [a] waits for its start. *)
Definition request_waits (a : aid) (s : st) : Prop :=
  exists h sg, deferred a sg h /\ In (OReg h) (hist s).
(** What an action that stops its process does: a timer for SIGTERM, a timer for SIGKILL and,
    unless the terminal has sent it, SIGINT at once. *)
Definition stop_actions (a : aid) (c : pcfg) (t1 t2 : aid) (sigint : bool) : list entity :=
  let wait p := IEscalate p in
  let send sg := anon (AEmit (EvSignalProcess sg (PMAction a))) in
  [ EAct t1 None (ATimer (FS (p_sigterm c)) [anon (wait (FS (p_sigterm c))); send SIGTERM] (BV false));
    EAct t2 None (ATimer (FSum (p_sigterm c) (p_sigkill c))
      [anon (wait (FSum (p_sigterm c) (p_sigkill c))); send SIGKILL] (BV false)) ] ++
  if sigint then [send SIGINT] else [].
(** The SignalProcess events that are emitted. *)
Definition signals_emitted (l : list obs) : list (sig * pmatch) :=
  omap (fun o => match o with OEmit (EvSignalProcess sg m) => Some (sg, m) | _ => None end) l.
(** The process of [a] runs and can be stopped: the action has not completed, and nobody has
    asked it to shut down since it has started. *)
Definition stoppable (a : aid) (c : pcfg) (s : st) : Prop :=
  exists p sf cf d f, procs s !! a = Some p /\ x_cfg p = c /\ x_shutdown p = Some sf /\ futs s !! sf = Some FPending /\
    x_completed p = Some cf /\ f_is_done cf s = false /\ x_det p = Some d /\ x_transport p = Some f.
(** A handler that asks [a] to shut down when it handles [e], and whether SIGINT is to be sent:
    not if a Shutdown event is due to SIGINT and the terminal has sent it to the process, too. *)
Inductive asks (a : aid) (s : st) : hbody -> event -> bool -> Prop :=
| asks_shutdown r : asks a s (HProcShutdown a) (EvShutdown r false) true
| asks_sigint r : asks a s (HProcShutdown a) (EvShutdown r true) (noninteractive (cx s))
| asks_deferred b d sg : asks a s (HProcDeferred a sg) (EvStarted b d) sg.
(** The operating system has not reported the end of the last process of [a]. *)
Definition running (a : aid) (s : st) : bool :=
  match procs s !! a with
  | Some p => match x_transport p with Some f => negb (f_is_done f s) | None => false end
  | None => false
  end.

(** ** Which process an event is for *)
(** What is known about the process of [a], from the moment it is prepared. *)
Definition details (a : aid) (s : st) : option pdet := match procs s !! a with Some p => x_det p | None => None end.
(** The matcher of an event picks [a]: it names the action itself, the pid of its process, the name
    of its process, how the first word of its command ends, or it is a function that says so. *)
Inductive addressed (w : world) (a : aid) (s : st) : pmatch -> Prop :=
| by_action : addressed w a s (PMAction a)
| by_pid d z : details a s = Some d -> d_pid d = Some z -> addressed w a s (PMPid z)
| by_name d : details a s = Some d -> addressed w a s (PMName (d_name d))
| by_executable d pre x rest : details a s = Some d -> d_cmd d = (pre ++ x)%string :: rest -> addressed w a s (PMExecutable x)
| by_function n : w_pmatch w n a = true -> addressed w a s (PMFun n).
(** The matcher cannot tell, and raises: it asks for the pid of a process that is prepared but not
    started, or for the first word of an empty command. *)
Inductive cannot_tell (a : aid) (s : st) : pmatch -> exn -> Prop :=
| no_pid d z : details a s = Some d -> d_pid d = None -> cannot_tell a s (PMPid z) XKey
| no_command d x : details a s = Some d -> d_cmd d = [] -> cannot_tell a s (PMExecutable x) XIndex.

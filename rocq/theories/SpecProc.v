(** Specifications used by the theorems about process actions (C22-C30). *)
From Verif Require Export SpecEvents.

(** ** What happens to the processes of action [a] *)
(** The operating system starts a process, the process gets a signal, it ends; the action
    announces that the process has started or exited. *)
Definition of_process (a : aid) (o : obs) : bool :=
  match o with
  | OSpawn b _ | OReap b _ | OSignal b _ | OLife (EvStarted b _) | OLife (EvExited b _ _) => bool_decide (b = a)
  | _ => false
  end.
Definition process_history (a : aid) (l : list obs) : list obs := List.filter (of_process a) l.
Definition is_signal (a : aid) (o : obs) : Prop := exists sg, o = OSignal a sg.
(** The whole life of one process.  Signals reach it only after its start was announced and
    before it ended; ProcessExited has the pid of ProcessStarted, which is the real one, and
    the real return code.  The process may end before its start is announced. *)
Inductive session (a : aid) : list obs -> Prop :=
| session_usual pid d rc sigs : d_pid d = Some pid -> Forall (is_signal a) sigs ->
    session a (OSpawn a pid :: OLife (EvStarted a d) :: sigs ++ [OReap a rc; OLife (EvExited a d rc)])
| session_short pid d rc : d_pid d = Some pid ->
    session a [OSpawn a pid; OReap a rc; OLife (EvStarted a d); OLife (EvExited a d rc)].
(** Whole lives one after the other, the last one perhaps not finished. *)
Definition life_cycles (a : aid) (l : list obs) : Prop :=
  exists lives rest more, l = concat lives ++ rest /\ Forall (session a) lives /\ session a (rest ++ more).

(** How often the operating system started, and reported the end of, a process of [a]. *)
Definition spawned (a : aid) (l : list obs) : nat :=
  length (List.filter (fun o => match o with OSpawn b _ => bool_decide (b = a) | _ => false end) l).
Definition reaped (a : aid) (l : list obs) : nat :=
  length (List.filter (fun o => match o with OReap b _ => bool_decide (b = a) | _ => false end) l).
(** How often [a] began the sequence of signals that ends its process. *)
Definition escalations (a : aid) (l : list obs) : nat :=
  length (List.filter (fun o => match o with OEscalate b _ _ _ => bool_decide (b = a) | _ => false end) l).

(** ** The state of a process action, by its public attributes *)
(** It was told to shut down and has taken it into account. *)
Definition shut_requested (a : aid) (s : st) : Prop :=
  exists p f, procs s !! a = Some p /\ x_shutdown p = Some f /\ f_is_done f s = true.
(** Its completion future exists, and is done or not. *)
Definition completion (a : aid) (s : st) : option bool :=
  match procs s !! a with
  | Some p => match x_completed p with Some f => Some (f_is_done f s) | None => None end
  | None => None
  end.
(** It was executed (or an execution was attempted). *)
Definition was_executed (a : aid) (s : st) : Prop := exists p, procs s !! a = Some p /\ x_executed p = true.
(** Its coroutine is about to start a process, or the operating system is starting it. *)
Definition starting (a : aid) (s : st) : Prop :=
  exists t, In t (tasks s) /\ (t = TProcInit a \/ exists d, t = TProcSpawn a d).
(** Its process runs: started, not ended. *)
Definition alive (a : aid) (s : st) : Prop :=
  exists f d, In (TProcConn a f d None) (tasks s) \/ In (TProcRun a f d None) (tasks s).
(** Its coroutine has something left to do. *)
Definition active (a : aid) (s : st) : Prop :=
  exists t, In t (tasks s) /\
    match t with
    | TProcInit b | TProcSpawn b _ | TProcConn b _ _ _ | TProcRun b _ _ _ | TProcDelay b _ => b = a
    | _ => False
    end.
(** Its options. *)
Definition config (a : aid) (s : st) : option pcfg := x_cfg <$> procs s !! a.
Definition tries (a : aid) (s : st) : Z := match procs s !! a with Some p => x_retries p | None => 0%Z end.
(** The options and the state of the action ask for another process after the current one. *)
Definition may_respawn (a : aid) (s : st) : Prop :=
  is_shutdown (cx s) = false /\ ~ shut_requested a s /\
  exists p, procs s !! a = Some p /\ x_respawn p = BV true /\
    (p_max (x_cfg p) < 0 \/ x_retries p < p_max (x_cfg p))%Z.
(** The coroutine of [a] is about to start a process. *)
Definition about_to_start (a : aid) (s : st) : Prop := In (TProcInit a) (tasks s).

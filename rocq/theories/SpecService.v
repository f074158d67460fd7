(** Specifications for the theorems about running a launch service (C16-C22). *)
From Verif Require Export SpecProc.

(** ** Runs *)
(** A run is in progress. *)
Definition in_run (s : st) : bool := match rpc s with Idle => false | _ => true end.
(** The service waits for nothing any more. *)
Definition all_done (l : list nat) (s : st) : Prop := forall f, In f l -> f_is_done f s = true.
(** [f] was collected from a visited entity, or added as a completion future, and is not forgotten. *)
Definition awaited (f : nat) (s : st) : Prop := In f (efuts s) \/ In f (cfuts (cx s)).
(** The step that cancels a run: SIGTERM, or an awaited future that was cancelled. *)
Definition cancels (l : label) (s : st) : Prop :=
  l = LSigterm \/ (l = LWake /\ exists ws f, rpc s = Waiting ws /\ In f ws /\ f_get f s = FCancelled).
(** The current run was cancelled. *)
Inductive run_cancelled (w : world) : st -> Prop :=
| rc_now s l s' : reachable w s -> step w l s = Some s' -> cancels l s -> run_cancelled w s'
| rc_later s l s' : run_cancelled w s -> step w l s = Some s' -> (forall wi, l <> LRun wi) -> run_cancelled w s'.

(** ** What the service itself emits *)
(** The steps of the service, as opposed to those of users, actions and the operating system. *)
Definition own (l : label) : bool :=
  match l with LMain | LWake | LSigint | LShutThread | LShutPost | LShutPut | LShutEnd | LShutLoop _ => true | _ => false end.
Definition is_shut (o : obs) : bool := match o with OEmit (EvShutdown _ _) => true | _ => false end.
Definition shutdowns (s : st) : nat := length (List.filter is_shut (hist s)).
Fixpoint own_shutdowns (w : world) (ls : list label) (s : st) : nat :=
  match ls with
  | [] => O
  | l :: ls' =>
      match step w l s with
      | Some s1 => ((if own l then shutdowns s1 - shutdowns s else O) + own_shutdowns w ls' s1)%nat
      | None => O
      end
  end.
Definition is_run (l : label) : bool := match l with LRun _ => true | _ => false end.
Definition is_thread (l : label) : bool := match l with LShutThread => true | _ => false end.

(** ** Failures *)
(** The steps in which the service learns of a failure: an exception of the event it processed
    or of a future it waits for, a cancellation, SIGTERM, or an exception that asyncio reports. *)
Definition failure (l : label) (s : st) : bool :=
  match l with
  | LSigterm => true
  | LReport => true
  | LWake => match rpc s with
             | Waiting ws => match evt s with ETDone (Exn _) => true | _ => false end ||
                 existsb (fun f => match f_get f s with FExn _ | FCancelled => true | _ => false end) ws
             | _ => false
             end
  | _ => false
  end.
Fixpoint failed (w : world) (ls : list label) (s : st) : bool :=
  match ls with
  | [] => false
  | l :: ls' => match step w l s with Some s1 => failure l s || failed w ls' s1 | None => false end
  end.

(** ** Requests *)
(** Somebody asks the service to shut down: ctrl-c, shutdown() of another thread or in the loop. *)
Definition is_request (l : label) : bool := match l with LSigint | LShutThread | LShutLoop _ => true | _ => false end.
(** The handler with which the service itself notices Shutdown events (launch_service.py:77-80). *)
Definition svc_handler : handler := MkH (Gen 2) MShutdown false HSvcShutdown.
(** The service waits, and what it waits for has failed: the processing of an event, or a future. *)
Definition pending_exn (s : st) : Prop :=
  exists ws, rpc s = Waiting ws /\ ((exists e, evt s = ETDone (Exn e)) \/ exists f, In f ws /\ (f_get f s = FCancelled \/ exists e, f_get f s = FExn e)).
(** The service was never run, or a run that was not cancelled has just returned. *)
Definition not_running (w : world) (s : st) : Prop :=
  (exists n e, s = init n e) \/ exists sl, reachable w sl /\ ~ run_cancelled w sl /\ in_run sl = true /\ in_run s = false /\ exists l, step w l sl = Some s.

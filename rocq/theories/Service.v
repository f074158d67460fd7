(** LaunchService and the coroutines of timers and processes as a labelled
    transition system.  launch/launch/launch_service.py, the async parts of
    actions/timer_action.py and actions/execute_local.py.

    Every asyncio callback runs to its next suspension point without being
    interrupted, so one label is one such piece of code, or one step of another
    thread, of the operating system or of user code.  A label that is not enabled
    gives None.  Steps of the loop are possible while run_async is suspended in
    asyncio.wait ([Waiting]) or not running ([Idle]: with run_async the loop belongs
    to the user and goes on), never in the middle of run_async's own code. *)
From Verif Require Export Exec.

Inductive label :=
(* run_async *)
| LRun (when_idle : bool)      (* run_async is called *)
| LMain                        (* from the top of the loop to the next suspension *)
| LWake                        (* asyncio.wait returns *)
| LLeave                       (* the finally clause of _prepare_run_loop *)
| LEvent (fuel : nat)          (* process_one_event_task takes and processes an event *)
| LReport                      (* asyncio reports an exception nobody retrieved *)
(* signals *)
| LSigint | LSigterm
(* public API from outside the loop's callbacks *)
| LEmit (e : event)            (* emit_event / include_launch_description *)
| LShutThread                  (* another thread is in shutdown(), 395 evaluated *)
| LShutPost                    (* ... run_coroutine_threadsafe called, 108 *)
| LShutPut                     (* ... the loop puts the event *)
| LShutEnd                     (* ... flags set, lock released *)
| LShutLoop (awaited : bool)   (* a coroutine calls shutdown() (and awaits the result) *)
| LUser (ops : list apiop)     (* a user coroutine uses the context *)
| LUserFut (f : nat) (o : fstate)  (* a user future or coroutine ends *)
(* asyncio *)
| LTask (i : nat)              (* the i-th task runs to its next suspension *)
| LCallback (i : nat)          (* the i-th done-callback runs *)
| LTick (d : Q)                (* time passes *)
(* operating system *)
| LSpawnOk (i : nat) (pid : Z) | LSpawnFail (i : nat)
| LOutput (i : nat) (fd : stream) (text : string)
| LExit (i : nat) (rc : Z).

(** LaunchService(), launch_service.py:53-96.  [e] is os.environ. *)
Definition init_ctx (nonint : bool) (e : dict string) : ctx :=
  register_event_handler (MkH (Gen 2) MShutdown false HSvcShutdown) false
    (register_event_handler (MkH (Gen 1) MInclude false (HEntity (anon IInclude))) false
      (new_ctx nonint e)).
Definition init (nonint : bool) (e : dict string) : st :=
  mkSt (init_ctx nonint e) ∅ 3 [] [] ∅ ∅ ∅ ∅ [] [] 0 0%Q
       false [] false Idle ETNone 0 false false SdNone [].

Definition in_loop (s : st) : bool :=
  match rpc s with Waiting _ | Idle => true | _ => false end.
Definition loop_step {A} (m : st -> option A) (s : st) : option A :=
  if in_loop s then m s else None.

(** _shutdown, launch_service.py:392-414, when the event is emitted before any other
    code runs (force_sync, or called in the loop and awaited at once) *)
Definition set_flags (s : st) : st :=
  s <| shutting_down := true |> <| cx ::= (fun c => c <| is_shutdown := true |>) |>.
Definition svc_shutdown (reason : string) (sigint : bool) (s : st) : st :=
  set_flags (if shutting_down s then s else emit (EvShutdown reason sigint) s).

(** launch_service.py:128-146 *)
Definition prune (s : st) : st :=
  s <| efuts ::= List.filter (fun f => negb (f_is_done f s)) |>
    <| cx ::= (fun c => c <| cfuts ::= List.filter (fun f => negb (f_is_done f s)) |>) |>.
(** launch_service.py:148-151 after pruning *)
Definition is_idle (s : st) : bool :=
  match efuts s, cfuts (cx s), queue (cx s) with [], [], [] => true | _, _, _ => false end.

Definition queue_empty (s : st) : bool := match queue (cx s) with [] => true | _ => false end.

(** launch_service.py:289-325 *)
Definition main_step (s : st) : st :=
  let s := prune s in
  let idle := is_idle s in
  if negb (shutting_down s) && when_idle s && idle then svc_shutdown "idle" false s
  else if shutting_down s && idle then s <| evt := ETNone |> <| rpc := Leaving |>
  else
    let ws := if queue_empty s then efuts s ++ cfuts (cx s) else [] in
    s <| evt := ETPending |> <| rpc := Waiting ws |>.

Definition is_cancelled (f : nat) (s : st) : bool :=
  match f_get f s with FCancelled => true | _ => false end.
Definition has_exn (f : nat) (s : st) : bool :=
  match f_get f s with FExn _ => true | _ => false end.
(** launch_service.py:325-361: the outcome of asyncio.wait *)
Definition wake_step (ws : list nat) (s : st) : option st :=
  let evdone := match evt s with ETDone _ => true | _ => false end in
  let evexn := match evt s with ETDone (Exn _) => true | _ => false end in
  if evdone || existsb (fun f => f_is_done f s) ws then
    Some (if existsb (fun f => is_cancelled f s) ws
          then s <| rcode := 1%Z |> <| rpc := Leaving |>
          else if evexn || existsb (fun f => has_exn f s) ws
          then (svc_shutdown "exception" false s) <| rcode := 1%Z |> <| rpc := AtLoop |>
          else s <| rpc := AtLoop |>)
  else None.

(** launch_service.py:221-226 *)
Definition finally_run (s : st) : st :=
  s <| cx ::= (fun c => c <| loop_set := false |>) |>
    <| loop_thread := false |> <| shutting_down := false |>.

(** launch_service.py:169-176: the events are moved one by one to a new queue *)
Fixpoint move_events (old new : list event) : list event :=
  match old with [] => new | e :: old' => move_events old' (new ++ [e]) end.
(** launch_service.py:153-189, 275-287.  A second concurrent run raises, and its
    finally clause is executed too.  (A run started after such a rejected one while
    the first is still active is not modelled.) *)
Definition run_step (wi : bool) (s : st) : option st :=
  match sdt s with
  | SdNone =>
      if loop_thread s then if in_loop s then Some (obs1 ORejected (finally_run s)) else None
      else match rpc s with
           | Idle => Some (obs1 ORun (s <| cx ::= (fun c => c <| loop_set := true |> <| queue := move_events (queue c) [] |>) |>
                             <| loop_thread := true |> <| rpc := AtLoop |> <| evt := ETNone |>
                             <| rcode := 0%Z |> <| when_idle := wi |> <| sigint_seen := false |>))
           | _ => None
           end
  | _ => None
  end.

Fixpoint set_nth {A} (i : nat) (x : A) (l : list A) : list A :=
  match i, l with
  | _, [] => []
  | O, _ :: l' => x :: l'
  | S i', y :: l' => y :: set_nth i' x l'
  end.
Fixpoint del_nth {A} (i : nat) (l : list A) : list A :=
  match i, l with
  | _, [] => []
  | O, _ :: l' => l'
  | S i', y :: l' => y :: del_nth i' l'
  end.

(** ExecuteLocal.__cleanup, execute_local.py:506-516 *)
Definition cleanup (a : aid) (s : st) : st * res unit :=
  match procs s !! a with
  | None => (s, Exn XAttr)
  | Some p =>
      let s := match x_sigterm p with Some t => timer_cancel t s | None => s end in
      let s := match x_sigkill p with Some t => timer_cancel t s | None => s end in
      let s := match x_transport p with
               | Some f => s <| pipes ::= List.filter (fun x => negb (Nat.eqb x.1.1 f)) |>
               | None => s
               end in
      match x_completed p with
      | Some f => set_result f s
      | None => (s, Exn XAttr)
      end
  end.

(** The i-th task is replaced, ends, or ends with an exception. *)
Definition task_to (i : nat) (t : task) (s : st) : st := s <| tasks ::= set_nth i t |>.
Definition task_dies (i : nat) (e : exn) (s : st) : st :=
  s <| tasks ::= fun l => match l !! i with Some t => set_nth i (TDead (owner_of t) e) l | None => l end |>.
Definition task_end (i : nat) (s : st) : st := s <| tasks ::= del_nth i |>.
Definition task_res (i : nat) (r : st * res unit) : st :=
  match r with
  | (s, Exn e) => task_dies i e s
  | (s, _) => task_end i s
  end.

Section service.
Context (w : world).

(** TimerAction._wait_to_fire_event up to its await, timer_action.py:94-98.  The
    period is evaluated here.  An infinite or undefined timeout never ends. *)
Definition timer_init (i : nat) (a : aid) (s : st) : option st :=
  match timers s !! a with
  | Some t =>
      match t_canceled_fut t, on_ctx (perform_fval w (t_period t)) s with
      | Some f, (s, Ok p) =>
          let dl := match p with FFin q => Some (now s + q)%Q | FInf true => Some (now s) | _ => None end in
          Some (task_to i (TTimerWait a f dl) (obs1 (OArmed a p (now s)) s))
      | _, (s, Exn e) => Some (task_dies i e s)
      | _, _ => None
      end
  | None => None
  end.
(** ... after its await, timer_action.py:99-101 *)
Definition timer_wake (i : nat) (a : aid) (f : nat) (dl : option Q) (s : st) : option st :=
  let late := match dl with Some q => Qle_bool q (now s) | None => false end in
  if f_is_done f s || late then
    match timers s !! a with
    | Some t =>
        match t_canceled_fut t, t_completed t with
        | Some fx, Some fc =>
            let s := if f_is_done fx s then s else emit (EvTimer a) (obs1 (OFire a (now s)) s) in
            Some (task_res i (set_result fc s))
        | _, _ => None
        end
    | None => None
    end
  else None.

(** ExecuteLocal.__execute_process up to its first await, execute_local.py:544-579 *)
Definition proc_init (i : nat) (a : aid) (s : st) : option st :=
  match procs s !! a with
  | None => None
  | Some p =>
    match x_det p with
    | None => Some (task_dies i XRuntime s)
    | Some d =>
        let '(s, r) :=
          match lc (cx s) !! "emulate_tty" with
          | None => (s, Ok (p_emulate (x_cfg p)))
          | Some v => on_ctx (evaluate_condition_expression w [SText v]) s
          end in
        match r with
        | Ok _ => Some (task_to i (TProcSpawn a d) s)
        | Exn e => Some (task_dies i e s)
        | OutOfFuel => None
        end
    end
  end.
(** async_execute_process raised, execute_local.py:580-585 *)
Definition spawn_fail (i : nat) (s : st) : option st :=
  match tasks s !! i with
  | Some (TProcSpawn a d) => Some (task_res i (cleanup a s))
  | _ => None
  end.
(** connection_made, execute_local.py:531-536.  The pid is stored in the dict of
    process event arguments, which is the one of the action unless the action has
    been prepared again; prepared names are unique. *)
Definition spawn_ok (i : nat) (pid : Z) (s : st) : option st :=
  match tasks s !! i with
  | Some (TProcSpawn a d) =>
      let d' := mkPdet (d_name d) (d_cmd d) (d_cwd d) (d_env d) (Some pid) in
      let '(s, f) := new_future s in
      let s := upd_proc a (fun p => match x_det p with
                 | Some d0 => if String.eqb (d_name d0) (d_name d) then p <| x_det := Some d' |> else p
                 | None => p
                 end) s in
      Some (obs1 (OSpawn a pid)
              (task_to i (TProcConn a f d' None) (s <| pipes ::= cons (f, a, d') |>)))
  | _ => None
  end.
(** execute_local.py:587-592 *)
Definition proc_conn (i : nat) (a : aid) (f : nat) (d : pdet) (rc : option Z) (s : st) : st :=
  emit (EvStarted a d) (obs1 (OLife (EvStarted a d))
    (task_to i (TProcRun a f d rc) (upd_proc a (fun p => p <| x_transport := Some f |>) s))).
(** process_exited of the protocol: osrf_pycommon sets its complete future *)
Definition proc_exit (i : nat) (rc : Z) (s : st) : option st :=
  match tasks s !! i with
  | Some (TProcConn a f d None) =>
      Some (obs1 (OReap a rc) (task_to i (TProcConn a f d (Some rc)) (set_result f s).1))
  | Some (TProcRun a f d None) =>
      Some (obs1 (OReap a rc) (task_to i (TProcRun a f d (Some rc)) (set_result f s).1))
  | _ => None
  end.
(** create_task(self.__execute_process(context)), execute_local.py:620 *)
Definition proc_again (i : nat) (a : aid) (s : st) : st :=
  if loop_set (cx s) then (task_end i s) <| tasks ::= fun l => l ++ [TProcInit a] |>
  else task_dies i XAttr s.
Definition respawn_true (b : bval) : bool :=
  match b with BV b => b | BS l => match l with [] => false | _ => true end end.
(** execute_local.py:599-622 *)
Definition proc_exited (i : nat) (a : aid) (d : pdet) (rc : Z) (s : st) : option st :=
  match procs s !! a with
  | None => None
  | Some p =>
    let s := emit (EvExited a d rc) (obs1 (OLife (EvExited a d rc)) s) in
    let sd := match x_shutdown p with Some f => f_is_done f s | None => true end in
    if negb (is_shutdown (cx s)) && negb sd && respawn_true (x_respawn p)
       && ((p_max (x_cfg p) <? 0) || (x_retries p <? p_max (x_cfg p)))%Z
    then
      let s := upd_proc a (fun p => p <| x_retries ::= Z.succ |>) s in
      match p_delay (x_cfg p) with
      | Some q => if Qle_bool q 0 then Some (proc_again i a s)
                  else Some (task_to i (TProcDelay a (now s + q)%Q) s)
      | None => Some (proc_again i a s)
      end
    else Some (task_res i (cleanup a s))
  end.
(** execute_local.py:619-622 *)
Definition proc_delay (i : nat) (a : aid) (dl : Q) (s : st) : option st :=
  match procs s !! a with
  | None => None
  | Some p =>
    let sd := match x_shutdown p with Some f => f_is_done f s | None => true end in
    if sd then Some (task_res i (cleanup a s))
    else if Qle_bool dl (now s) then Some (proc_again i a s)
    else None
  end.

Definition task_step (i : nat) (s : st) : option st :=
  match tasks s !! i with
  | Some (TTimerInit a) => timer_init i a s
  | Some (TTimerWait a f dl) => timer_wake i a f dl s
  | Some (TProcInit a) => proc_init i a s
  | Some (TProcConn a f d rc) => Some (proc_conn i a f d rc s)
  | Some (TProcRun a f d (Some rc)) => proc_exited i a d rc s
  | Some (TProcDelay a dl) => proc_delay i a dl s
  | _ => None
  end.

Definition is_dead (t : task) : bool := match t with TDead _ _ => true | _ => false end.
(** An exception that asyncio may report when it collects the task or future. *)
Definition unretrieved (s : st) : bool :=
  existsb is_dead (tasks s) || existsb (fun f => has_exn f s) (ufuts s).

Definition step (l : label) (s : st) : option st :=
  match l with
  | LRun wi => run_step wi s
  | LMain => match rpc s with AtLoop => Some (main_step s) | _ => None end
  | LWake => match rpc s with Waiting ws => wake_step ws s | _ => None end
  | LLeave => match rpc s, sdt s with
              | Leaving, SdNone =>
                  Some (obs1 (OReturn (rcode s)) ((finally_run s) <| rpc := Idle |>))
              | _, _ => None
              end
  | LEvent fuel => loop_step (fun s =>   (* also the task left over by a cancelled run *)
      match evt s, queue (cx s) with
      | ETPending, _ :: _ =>
          match process_one w fuel s with
          | (_, OutOfFuel) => None
          | (s', r) => Some (s' <| evt := ETDone r |>)
          end
      | _, _ => None
      end) s
  | LReport => match rpc s with
               | Waiting _ => if unretrieved s then Some (s <| rcode := 1%Z |>) else None
               | _ => None
               end
  | LSigint => match rpc s with          (* launch_service.py:191-202 *)
               | Waiting _ => Some (if sigint_seen s then s
                                    else (svc_shutdown "ctrl-c (SIGINT)" true s) <| sigint_seen := true |>)
               | _ => None
               end
  | LSigterm => match rpc s with         (* launch_service.py:204-211, 347-350 *)
                | Waiting _ => Some (s <| rcode := 1%Z |> <| rpc := Leaving |>)
                | _ => None
                end
  | LEmit e => loop_step (fun s => Some (emit e s)) s
  | LShutThread =>                       (* launch_service.py:428-430, 395 *)
      match sdt s with
      | SdNone => if loop_thread s
                  then Some (if shutting_down s then set_flags s else s <| sdt := SdDecided |>)
                  else Some s
      | _ => None
      end
  | LShutPost => match sdt s with SdDecided => Some (s <| sdt := SdPosted |>) | _ => None end
  | LShutPut =>
      match sdt s with
      | SdPosted => loop_step (fun s =>
          Some ((emit (EvShutdown "LaunchService.shutdown() called" false) s) <| sdt := SdPut |>)) s
      | _ => None
      end
  | LShutEnd => match sdt s with SdPut => Some ((set_flags s) <| sdt := SdNone |>) | _ => None end
  | LShutLoop awaited =>
      match sdt s with
      | SdNone => loop_step (fun s =>
          if loop_thread s
          then Some (if awaited then svc_shutdown "LaunchService.shutdown() called" false s
                     else set_flags s)
          else Some s) s
      | _ => None
      end
  | LUser ops => loop_step (fun s => Some (apply_ops ops s)) s
  | LUserFut f o => loop_step (fun s =>
      if existsb (Nat.eqb f) (ufuts s) && negb (f_is_done f s) && f_done o
      then Some (s <| futs ::= <[f := o]> |>) else None) s
  | LTask i => loop_step (task_step i) s
  | LCallback i => loop_step (fun s =>
      match cbs s !! i with
      | Some (f, e) => if f_is_done f s
                       then Some (emit e (s <| cbs ::= del_nth i |>)) else None
      | None => None
      end) s
  | LTick d => if Qle_bool 0 d then Some (s <| now ::= fun t => (t + d)%Q |>) else None
  | LSpawnOk i pid => loop_step (spawn_ok i pid) s
  | LSpawnFail i => loop_step (spawn_fail i) s
  | LOutput i fd text => loop_step (fun s =>
      match pipes s !! i with
      | Some (_, a, d) => Some (emit (EvIO a d fd text) s)
      | None => None
      end) s
  | LExit i rc => loop_step (proc_exit i rc) s
  end.

(** Executions from a state. *)
Inductive steps : st -> list label -> st -> Prop :=
| steps_nil s : steps s [] s
| steps_cons s l s1 ls s2 : step l s = Some s1 -> steps s1 ls s2 -> steps s (l :: ls) s2.

Definition reachable (s : st) : Prop :=
  exists nonint e ls, steps (init nonint e) ls s.
End service.

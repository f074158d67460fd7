(** Model of the fixtures of launch_pytest: launch_pytest/launch_pytest/fixture.py:22-147 and
    [pytest_fixture_setup], plugin.py:97-131.  pytest itself is modelled by which scopes it
    accepts, by which tests share an instance of a fixture, and by the order in which it sets up
    and tears down fixtures. *)
From RecordUpdate Require Export RecordSet.
From Verif Require Export Base.
Export RecordSetNotations.

(** ** Scopes *)
(** Scopes of pytest, _pytest.scope.Scope. *)
Inductive scope := SFunction | SClass | SModule | SPackage | SSession.
Definition rank (s : scope) : nat :=
  match s with SFunction => 0 | SClass => 1 | SModule => 2 | SPackage => 3 | SSession => 4 end.
(** fixture.py:21-27 [scope_gt] *)
Definition scope_gt (a b : scope) : bool := Nat.ltb (rank b) (rank a).
(** The three fixtures a launch fixture is built on, fixture.py:39-89: [launch_service] uses
    [event_loop], [launch_context] uses [launch_service]. *)
Inductive base := Service | Loop | Ctx.
Definition base_eqb (a b : base) : bool :=
  match a, b with Service, Service | Loop, Loop | Ctx, Ctx => true | _, _ => false end.
Definition uses (b : base) : list base := match b with Service => [Loop] | Loop => [] | Ctx => [Service] end.
(** A fixture by that name: its scope and [_launch_pytest_overridable_fixture]. *)
Record fobj := { fo_scope : scope; fo_over : bool }.
(** The names of a test module, as far as they are one of the three. *)
Definition names := base -> option fobj.
Definition set_name (b : base) (o : fobj) (m : names) : names := fun x => if base_eqb x b then Some o else m x.
(** What getter(scope=scope) gives, fixture.py:39-89 with the default [overridable]. *)
Definition getter (s : scope) : fobj := {| fo_scope := s; fo_over := true |}.
(** fixture.py:120-134: the body of the loop over the three names. *)
Definition override (s : scope) (m : names) (b : base) : names :=
  match m b with
  | Some o => if fo_over o && scope_gt s (fo_scope o) then set_name b (getter s) m else m
  | None => set_name b (getter s) m
  end.
(** fixture.py:92-147 [fixture], as far as the module is changed: 115-134 *)
Definition decorate (s : scope) (m : names) : names :=
  match s with
  | SFunction => m
  | _ => fold_left (override s) [Service; Loop; Ctx] m
  end.
(** The statements of a test module that matter, in order: a launch fixture of a scope is
    declared; one of the three names is defined or imported by the user. *)
Inductive stmt := Declare (s : scope) | Define (b : base) (o : fobj).
Definition exec_stmt (m : names) (x : stmt) : names :=
  match x with Declare s => decorate s m | Define b o => set_name b o m end.
Definition exec_module (l : list stmt) : names := fold_left exec_stmt l (fun _ => None).
(** The fixture pytest finds: of the module, otherwise of the plugin (plugin.py:507-515, scope
    function).  Fixtures of conftest files and of classes are not modelled. *)
Definition found (m : names) (b : base) : scope := match m b with Some o => fo_scope o | None => SFunction end.
(** pytest refuses (ScopeMismatch) a fixture that uses one of a smaller scope. *)
Definition accepts (user used : scope) : bool := negb (scope_gt user used).

(** Where a test is; tests outside of classes have none.  A fixture of scope class is made for
    each test outside of classes. *)
Record place := { pl_package : nat; pl_module : nat; pl_class : option nat; pl_test : nat }.
(** Tests get the same instance of a (not parametrized) fixture of scope [s]. *)
Definition same_instance (s : scope) (t u : place) : bool :=
  match s with
  | SSession => true
  | SPackage => Nat.eqb (pl_package t) (pl_package u)
  | SModule => Nat.eqb (pl_package t) (pl_package u) && Nat.eqb (pl_module t) (pl_module u)
  | SClass =>
      Nat.eqb (pl_package t) (pl_package u) && Nat.eqb (pl_module t) (pl_module u) &&
      match pl_class t, pl_class u with
      | Some c, Some d => Nat.eqb c d
      | None, None => Nat.eqb (pl_test t) (pl_test u)
      | _, _ => false
      end
  | SFunction =>
      Nat.eqb (pl_package t) (pl_package u) && Nat.eqb (pl_module t) (pl_module u) &&
      bool_decide (pl_class t = pl_class u) && Nat.eqb (pl_test t) (pl_test u)
  end.

(** ** Launches of one launch service *)
(** What the main thread of pytest does with one instance of launch_service: sets up an instance
    of a launch fixture, runs something in the loop (a test), tears an instance down. *)
Inductive work := WSetup (d : nat) | WTest | WTeardown (auto_shutdown : bool).
(** Where it is: between two things; blocked in emit_event (launch_service.py:98-119) for the
    description; driving the loop until the ReadyToTest action of the description has been
    executed; driving the loop for a test; driving it until the task has ended; out with an error. *)
Inductive main := MFree | MInclude (d : nat) | MReady (d : nat) | MTest | MEnd (k : nat) | MError.
(** The launch service: [__loop_from_run_thread] is set; [__this_task]; [__shutting_down];
    [is_shutdown] of the context; descriptions whose events wait; descriptions visited; run
    tasks that have not begun; tasks that have ended; descriptions whose ReadyToTest action was
    executed; descriptions of which a process was started. *)
Record svc := { v_main : main; v_run : bool; v_task : option nat; v_shutting : bool; v_down : bool;
  v_queue : list nat; v_visited : list nat; v_new : list nat; v_ended : list nat;
  v_ready : list nat; v_started : list nat; v_next : nat }.
Global Instance eta_svc : Settable _ := settable! Build_svc
  <v_main; v_run; v_task; v_shutting; v_down; v_queue; v_visited; v_new; v_ended; v_ready; v_started; v_next>.
Definition svc_new : svc := {| v_main := MFree; v_run := false; v_task := None; v_shutting := false; v_down := false;
  v_queue := []; v_visited := []; v_new := []; v_ended := []; v_ready := []; v_started := []; v_next := 0 |}.
(** The thread drives the loop. *)
Definition driving (v : svc) : bool := match v_main v with MReady _ | MTest | MEnd _ => true | _ => false end.
(** LaunchService._shutdown, launch_service.py:392-413, with [force_sync] or in the loop *)
Definition svc_shutdown (v : svc) : svc := v <| v_shutting := true |> <| v_down := true |>.
(** The thread begins something.
    [WSetup]: plugin.py:97-125; include_launch_description gives the event to the queue if the
    service is not running, otherwise it waits for the loop; then the task is created and the
    loop driven.
    [WTeardown]: fixture.py:30-36 [finalize_launch_service]; a service that is not running has
    no loop. *)
Definition begin (x : work) (v : svc) : svc :=
  match x with
  | WSetup d =>
      if v_run v then v <| v_main := MInclude d |>
      else v <| v_main := MReady d |> <| v_queue ::= (fun q => q ++ [d]) |>
             <| v_new ::= (fun l => l ++ [v_next v]) |> <| v_next := S (v_next v) |>
  | WTest => v <| v_main := MTest |>
  | WTeardown auto =>
      if v_run v
      then let v := if auto then svc_shutdown v else v in
           match v_task v with Some k => v <| v_main := MEnd k |> | None => v end
      else v
  end.
(** What the thread waits for has happened.  [MInclude]: future.result() gives the description to
    the queue, when the loop has run the coroutine; [MReady]: plugin.py:126-130, the assertions. *)
Definition proceed (v : svc) : option svc :=
  match v_main v with
  | MReady d =>
      if existsb (Nat.eqb d) (v_ready v)
      then Some (if v_run v then v <| v_main := MFree |> else v <| v_main := MError |>)
      else None
  | MTest => Some (v <| v_main := MFree |>)
  | MEnd k => if existsb (Nat.eqb k) (v_ended v) then Some (v <| v_main := MFree |>) else None
  | _ => None
  end.
(** What the loop does while it is driven. *)
Inductive turn :=
| TBegin                (* the next run task begins, launch_service.py:153-186: concurrent runs are refused *)
| TVisit                (* the next description is visited *)
| TProcess (d : nat)    (* a process action of it is executed, execute_local.py:660-662 *)
| TReady (d : nat)      (* its ReadyToTest action is executed, ready.py:36-42 *)
| TShutdown             (* a Shutdown event or _shutdown *)
| TEnded                (* the run ends, launch_service.py:296-303 and 217-222 *)
| TEmit.                (* the coroutine of a blocked emit_event *)
Definition loop_turn (t : turn) (v : svc) : option svc :=
  match t with
  | TBegin =>
      match v_new v with
      | [] => None
      | k :: l =>
          Some (if v_run v
                then v <| v_new := l |> <| v_ended ::= cons k |> <| v_run := false |> <| v_shutting := false |>
                else v <| v_new := l |> <| v_run := true |> <| v_task := Some k |>)
      end
  | TVisit =>
      match v_queue v with
      | d :: q => if v_run v then Some (v <| v_queue := q |> <| v_visited ::= cons d |>) else None
      | [] => None
      end
  | TProcess d =>
      if v_run v && existsb (Nat.eqb d) (v_visited v)
      then Some (if v_down v then v else v <| v_started ::= cons d |>) else None
  | TReady d => if v_run v && existsb (Nat.eqb d) (v_visited v) then Some (v <| v_ready ::= cons d |>) else None
  | TShutdown => if v_run v then Some (svc_shutdown v) else None
  | TEnded =>
      match v_task v with
      | Some k => if v_run v && v_shutting v
          then Some (v <| v_run := false |> <| v_shutting := false |> <| v_ended ::= cons k |>) else None
      | None => None
      end
  | TEmit =>
      match v_main v with
      | MInclude d => Some (v <| v_main := MReady d |> <| v_queue ::= (fun q => q ++ [d]) |>
             <| v_new ::= (fun l => l ++ [v_next v]) |> <| v_next := S (v_next v) |>)
      | _ => None
      end
  end.
(** A step: the thread begins something, goes on, or lets the loop do something.  The loop
    belongs to the thread: it only does something while it is driven. *)
Inductive fstep := FBegin (x : work) | FProceed | FTurn (t : turn).
Definition fixture_step (f : fstep) (v : svc) : option svc :=
  match f with
  | FBegin x => match v_main v with MFree => Some (begin x v) | _ => None end
  | FProceed => proceed v
  | FTurn t => if driving v then loop_turn t v else None
  end.
Fixpoint fixture_run (l : list fstep) (v : svc) : option svc :=
  match l with
  | [] => Some v
  | f :: l => match fixture_step f v with Some v' => fixture_run l v' | None => None end
  end.

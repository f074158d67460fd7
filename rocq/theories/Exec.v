(** Executing actions, visiting entities, handling events.
    launch/launch/actions/, action.py, event_handlers/, utilities/visit_all_...,
    launch_service.py:228-257. *)
From Verif Require Export LaunchArgs.
From stdpp Require Import pretty.

Notation M A := (st -> st * res A) (only parsing).

(** python code that raises AttributeError when the context has no asyncio loop *)
Definition need_loop {A} (m : M A) (s : st) : st * res A :=
  if loop_set (cx s) then m s else (s, Exn XAttr).

Definition fresh (s : st) : st * res nat := (s <| next ::= S |>, Ok (next s)).

Definition emptyBuf : buf := mkBuf "" 0 false.
Definition get_proc (a : aid) (c : pcfg) (b : hbody) (s : st) : pobj :=
  match procs s !! a with
  | Some p => p
  | None => mkPobj c b (p_respawn c) false 0 None None None None None None emptyBuf emptyBuf false
  end.
Definition upd_proc (a : aid) (f : pobj -> pobj) (s : st) : st := s <| procs ::= alter f a |>.
Definition upd_timer (a : aid) (f : tobj -> tobj) (s : st) : st := s <| timers ::= alter f a |>.

(** TimerAction.cancel, timer_action.py:144-157 (a timer that was never executed
    only remembers that it is cancelled) *)
Definition timer_cancel (a : aid) (s : st) : st :=
  match timers s !! a with
  | None => s <| timers ::= <[a := mkTobj [] (FV FNan) ∅ None None true 0]> |>
  | Some t =>
      let s := upd_timer a (fun t => t <| t_canceled := true |>) s in
      match t_canceled_fut t with
      | Some f => if f_is_done f s then s else (set_result f s).1
      | None => s
      end
  end.

(** context.unregister_event_handler called by a user or for handle_once, recorded if it succeeds *)
Definition unregister (i : hid) (s : st) : st * res unit :=
  match on_ctx (unregister_event_handler i) s with
  | (s', Ok u) => (obs1 (OUnreg i) s', Ok u)
  | r => r
  end.

(** context.register_event_handler called by an action of launch, recorded *)
Definition register_noted (h : handler) : st -> st * res unit :=
  modS (fun s => obs1 (OReg h) (s <| cx ::= register_event_handler h false |>)).

Section exec.
Context (w : world).

(** ** User code *)
(** Context operations performed by user code, through the public API. *)
Definition apply_op (o : apiop) (s : st) : st :=
  match o with
  | OpSetLC k v => s <| cx ::= set_lc k v |>
  | OpDelLC k => s <| cx ::= del_lc k |>
  | OpSetEnv k v => s <| cx ::= set_env k v |>
  | OpDelEnv k => s <| cx ::= del_env k |>
  | OpLocal k v => s <| cx ::= extend_locals {[k := v]} |>
  | OpGlobal k v => s <| cx ::= extend_globals {[k := v]} |>
  | OpEmit e => emit e s
  | OpRegister h ap => obs1 (OReg h) (s <| cx ::= register_event_handler h ap |>)
  | OpUnregister i => (unregister i s).1
  | OpAddFuture =>
      let '(s', f) := new_future s in
      s' <| ufuts ::= cons f |> <| cx ::= (fun c => c <| cfuts ::= fun l => l ++ [f] |>) |>
  | OpCancelTimer a => timer_cancel a s
  end.
Definition apply_ops (ops : list apiop) (s : st) : st := fold_left (fun s o => apply_op o s) ops s.
(** Calling a user function: it sees the context, acts on it, then returns
    entities or raises. *)
Definition call_user (f : nat) (s : st) : st * res (list entity) :=
  let '(ops, r) := w_fun w f (cx s) in
  (apply_ops ops (s <| cx ::= (fun c => c <| nonce ::= S |>) |>), r).

Definition perform_st (l : list subst) : M string := on_ctx (perform_substitutions w l).

(** ** Simple actions *)
(** [d[perform(name)] = perform(value)]: python evaluates the value first.
    set_launch_configuration.py:71-74, set_environment_variable.py:67-71 *)
Definition exec_set (set : string -> string -> ctx -> ctx) (n v : list subst) : M (list entity) :=
  x <-- perform_st v ;; k <-- perform_st n ;;
  modS (fun s => s <| cx ::= set k x |>) ;;; retS [].
(** unset_launch_configuration.py:51-55, unset_environment_variable.py:59-64 *)
Definition exec_unset (del : string -> ctx -> ctx) (n : list subst) : M (list entity) :=
  k <-- perform_st n ;; modS (fun s => s <| cx ::= del k |>) ;;; retS [].
(** reset_launch_configurations.py:80-84 *)
Fixpoint eval_cfgs (l : list (list subst * list subst)) (acc : dict string) : M (dict string) :=
  match l with
  | [] => retS acc
  | (k, v) :: l' =>
      k' <-- perform_st k ;; v' <-- perform_st v ;; eval_cfgs l' (<[k' := v']> acc)
  end.
(** reset_launch_configurations.py:75-87 *)
Definition exec_reset_lc (cfgs : option (list (list subst * list subst))) : M (list entity) :=
  match cfgs with
  | None => modS (fun s => s <| cx ::= (fun c => c <| lc := ∅ |>) |>) ;;; retS []
  | Some l =>
      d <-- eval_cfgs l ∅ ;;
      modS (fun s => s <| cx ::= (fun c => c <| lc := d |>) |>) ;;; retS []
  end.
(** append_environment_variable.py:108-121 *)
Definition exec_append_env (n v : list subst) (prepend : bval) (sep : list subst) : M (list entity) :=
  n' <-- perform_st n ;; v' <-- perform_st v ;;
  p <-- on_ctx (perform_bval w prepend) ;; sp <-- perform_st sep ;;
  modS (fun s => s <| cx ::= (fun c =>
     match env c !! n' with
     | Some old => set_env n' (if (p : bool) then v' ++ sp ++ old else old ++ sp ++ v')%string c
     | None => set_env n' v' c
     end) |>) ;;; retS [].
(** declare_launch_argument.py:203-223 *)
Definition exec_declare (n : string) (d : option (list subst)) (ch : option (list string))
    : M (list entity) :=
  (fun s => match lc (cx s) !! n with
            | Some _ => (s, Ok tt)
            | None => match d with
                      | None => (s, Exn XRuntime)
                      | Some d => (v <-- perform_st d ;; modS (fun s => s <| cx ::= set_lc n v |>)) s
                      end
            end) ;;;
  match ch with
  | None => retS []
  | Some ch => fun s => match lc (cx s) !! n with
                        | None => (s, Exn XKey)
                        | Some v => if existsb (String.eqb v) ch then (s, Ok []) else (s, Exn XRuntime)
                        end
  end.

(** LaunchDescriptionSource.get_launch_description, launch_description_source.py:77-85 *)
Definition get_launch_description (src : nat) : M (string * list entity) :=
  loc <-- (fun s =>
    match srcs s !! src with
    | Some (Some l, _) => (s, Ok l)
    | x => (l <-- perform_st (w_loc w src) ;;
            modS (fun s => s <| srcs ::= <[src := (Some l, match x with Some (_, ld) => ld | None => None end)]> |>) ;;;
            retS l) s
    end) ;;
  fun s =>
    match srcs s !! src with
    | Some (_, Some ld) => (s, Ok (loc, ld))
    | _ =>
        let s1 := s <| cx ::= (fun c => c <| nonce ::= S |>) |> in
        match w_load w src loc (nonce (cx s)) with
        | Ok ld => (s1 <| srcs ::= <[src := (Some loc, Some ld)]> |>, Ok (loc, ld))
        | Exn e => (s1, Exn e)
        | OutOfFuel => (s1, OutOfFuel)
        end
    end.
Definition known_srcs (s : st) (src : nat) : option (list entity) :=
  match srcs s !! src with Some (_, ld) => ld | None => None end.
(** include_launch_description.py:146-185 *)
Definition exec_include (fuel : nat) (src : nat) (args : list (list subst * list subst))
    : M (list entity) :=
  x <-- get_launch_description src ;;
  let '(loc, ld) := x in
  modS (fun s => s <| cx ::= extend_locals {["current_launch_file_path" := LStr (w_abspath w loc)]} |>) ;;;
  modS (fun s => s <| cx ::= extend_locals {["current_launch_file_directory" := LStr (w_launchdir w loc)]} |>) ;;;
  names <-- on_ctx (perform_list w (map fst args)) ;;
  (fun s => (s, res_bind (get_launch_arguments w (cx s) (known_srcs s) fuel ld false)
                 (fun a => check_arguments w (cx s) (a_heap a) (a_decls a) names))) ;;;
  retS (set_lcs args ++ [ELaunch ld]).

(** ** Timers: timer_action.py:159-206 *)
(** The handler of TimerEvents that all timers share, timer_action.py:176-182 *)
Definition timers_handler (n : nat) : handler := MkH (Gen n) MTimer false (HEntity (anon ITimerHandle)).
Definition exec_timer (a : aid) (period : fval) (body : list entity) (cos : bval) : M (list entity) :=
  need_loop (fun s =>
    let '(s, fc) := new_future s in
    let '(s, fx) := new_future s in
    let canc := match timers s !! a with Some t => t_canceled t | None => false end in
    let gen := match timers s !! a with Some t => t_gen t | None => O end in
    let lcl := match timers s !! a with Some t => t_locals t | None => ∅ end in
    let s := s <| timers ::= <[a := mkTobj body period lcl (Some fc) (Some fx) canc (S gen)]> |> in
    if canc then (let '(s, r) := set_result fc s in (s, res_bind r (fun _ => Ok [])))
    else
      ((fun s => if timer_installed (cx s) then (s, Ok tt)
                 else (n <-- fresh ;;
                       modS (fun s => s <| cx ::= (fun c =>
                         (register_event_handler (timers_handler n) false c)
                           <| timer_installed := true |>) |>)) s) ;;;
       d <-- on_ctx (fun c => let '(c', d) := get_combined_locals c in (c', Ok d)) ;;
       modS (upd_timer a (fun t => t <| t_locals := d |>)) ;;;
       modS (fun s => obs1 (OTimer a) (s <| tasks ::= fun l => l ++ [TTimerInit a] |>)) ;;;
       b <-- on_ctx (perform_bval w cos) ;;
       (if (b : bool) then
          n <-- fresh ;;
          register_noted (MkH (Gen n) MShutdown false (HEntity (anon (ITimerCancel a))))
        else retS tt) ;;;
       retS []) s).
(** TimerAction.handle, timer_action.py:139-142, for the timer of the current event *)
Definition event_of_locals : M event :=
  v <-- on_ctx (get_local "event") ;;
  match v with LEv e => retS e | _ => raiseS XAttr end.
Definition exec_timer_handle : M (list entity) :=
  e <-- event_of_locals ;;
  match e with
  | EvTimer a => fun s =>
      match timers s !! a with
      | Some t => (s <| cx ::= extend_locals (t_locals t) |>, Ok (t_body t))
      | None => (s, Ok [])
      end
  | _ => raiseS XAttr
  end.

(** ** OpaqueCoroutine, opaque_coroutine.py:102-113 *)
Definition exec_coro (a : aid) : M (list entity) :=
  need_loop (fun s =>
    let '(s, f) := new_future s in
    let s := s <| ufuts ::= cons f |> <| coros ::= <[a := f]> |> in
    (n <-- fresh ;;
     register_noted (MkH (Gen n) MShutdown false (HCoroCancel a)) ;;;
     retS []) s).

(** ** Processes *)
(** os.path.basename *)
Fixpoint basename_aux (acc s : string) : string :=
  match s with
  | EmptyString => acc
  | String c s' => if Ascii.eqb c "/"%char then basename_aux "" s'
                   else basename_aux (acc ++ String c "")%string s'
  end.
Definition basename (s : string) : string := basename_aux "" s.
(** str(int) *)
Definition str_of_Z (z : Z) : string := pretty z.

Definition prefix_default : list subst := [SLaunchConfig [SText "launch-prefix"] (Some [SText ""])].
Definition prefix_filter_default : list subst :=
  [SLaunchConfig [SText "launch-prefix-filter"] (Some [SText ""])].

Fixpoint eval_env (l : list (list subst * list subst)) (acc : dict string) : M (dict string) :=
  match l with
  | [] => retS acc
  | (k, v) :: l' =>   (* the value is evaluated before the subscript *)
      v' <-- perform_st v ;; k' <-- perform_st k ;; eval_env l' (<[k' := v']> acc)
  end.

(** Executable.prepare, descriptions/executable.py:163-205 *)
Definition prepare_executable (c : pcfg) : M pdet :=
  cmd <-- on_ctx (perform_list w (p_cmd c)) ;;
  apply <-- (match p_prefix c with
             | Some _ => retS true
             | None =>
                 f <-- perform_st prefix_filter_default ;;
                 match cmd with
                 | [] => raiseS XIndex
                 | x :: _ => retS (w_rematch w f (basename x))
                 end
             end) ;;
  cmd <-- (if (apply : bool) then
             p <-- perform_st (default prefix_default (p_prefix c)) ;;
             retS (w_shlex w p ++ cmd)
           else retS cmd) ;;
  name <-- (match p_name c with
            | Some n => perform_st n
            | None => match cmd with [] => raiseS XIndex | x :: _ => retS (basename x) end
            end) ;;
  modS (fun s => s <| pcount ::= Z.succ |>) ;;;
  fun s =>
   let final := (name ++ "-" ++ str_of_Z (pcount s))%string in
   (cwd <-- (match p_cwd c with
             | None => retS None
             | Some l => d <-- perform_st l ;; retS (Some d)
             end) ;;
    e <-- (match p_env c with
           | Some l => eval_env l ∅
           | None => fun s => (s, Ok (env (cx s)))
           end) ;;
    e <-- (match p_addenv c with Some l => eval_env l e | None => retS e end) ;;
    retS (mkPdet final cmd cwd e None)) s.

(** ExecuteLocal.prepare, execute_local.py:624-638 *)
Definition prepare_proc (a : aid) : M unit :=
  fun s => match procs s !! a with
  | None => (s, Exn XAttr)
  | Some p =>
    (d <-- prepare_executable (x_cfg p) ;;
     modS (upd_proc a (fun p => p <| x_det := Some d |>)) ;;;
     r <-- on_ctx (perform_bval w (x_respawn p)) ;;
     modS (upd_proc a (fun p => p <| x_respawn := BV r |>))) s
  end.

(** The event handlers of execute_local.py:671-701, in the order of the list. *)
Definition proc_handlers (a : aid) (on_exit : hbody) (n : nat) : list handler :=
  [ MkH (Gen n) MShutdownProc false (HEntity (anon (IProcShutdown a)));
    MkH (Gen (n + 1)) MSignalProc false (HEntity (anon (IProcSignal a)));
    MkH (Gen (n + 2)) (MAct CIO (TgtAct a)) false (HProcIO a);
    MkH (Gen (n + 3)) MShutdown false (HProcShutdown a);
    MkH (Gen (n + 4)) (MAct CExit (TgtAct a)) false on_exit;
    MkH (Gen (n + 5)) (MAct CExit (TgtAct a)) false (HProcFlush a) ].
Definition register_ctx (hs : list handler) (c : ctx) : ctx :=
  fold_left (fun c h => register_event_handler h false c) hs c.
(** The loop of execute_local.py:702-703, recorded *)
Definition register_all (hs : list handler) (s : st) : st :=
  s <| cx ::= register_ctx hs |> <| log ::= fun l => rev (map OReg hs) ++ l |>.
Fixpoint unregister_all (hs : list handler) : M unit :=
  match hs with
  | [] => retS tt
  | h :: hs' => unregister (h_id h) ;;; unregister_all hs'
  end.
(** [try: m except Exception: unregister all; raise] *)
Definition guard_handlers (hs : list handler) (m : M unit) (s : st) : st * res unit :=
  match m s with
  | (s', Exn e) =>
      match unregister_all hs s' with
      | (s'', Ok _) => (s'', Exn e)
      | (s'', r) => (s'', r)
      end
  | r => r
  end.
(** execute_local.py:705-717: the completed future is created first *)
Definition start_proc (a : aid) (out : list subst) : M unit :=
  need_loop (fun s =>
    let '(s, fc) := new_future s in
    let s := upd_proc a (fun p => p <| x_completed := Some fc |>) s in
    let '(s, fs) := new_future s in
    let s := upd_proc a (fun p => p <| x_shutdown := Some fs |>) s in
    (o <-- perform_st out ;;
     (if w_output_ok w o then retS tt else raiseS XValue) ;;;
     modS (fun s => (upd_proc a (fun p => p <| x_begun := true |>) s) <| tasks ::= fun l => l ++ [TProcInit a] |>)) s).
(** ExecuteLocal.execute, execute_local.py:640-722 *)
Definition exec_proc (a : aid) (c : pcfg) (on_exit : hbody) : M (list entity) :=
  modS (fun s => s <| procs ::= <[a := get_proc a c on_exit s]> |>) ;;;
  prepare_proc a ;;;
  fun s =>
  match procs s !! a with
  | None => (s, Exn XAttr)
  | Some p =>
    if x_executed p then (s, Exn XRuntime) else
    let s := upd_proc a (fun p => p <| x_executed := true |>) s in
    if is_shutdown (cx s) then (s, Ok []) else
    let n := next s in
    let s := s <| next ::= fun n => (n + 6)%nat |> in
    let hs := proc_handlers a (x_onexit p) n in
    let s := register_all hs s in
    (guard_handlers hs (start_proc a (p_output (x_cfg p))) ;;; retS []) s
  end.

(** Test.execute, launch_testing/launch_testing/actions/test.py:66-88.  A timeout that is no
    number of seconds but false in Python (None, 0, the empty text, given as the empty list) is
    none.  ExecuteLocal.execute gives no actions; if it gave some, those would be lost, because
    [actions.append] gives None.  The timer belongs to the one execution that succeeds (a second
    one raises before), so that the handler knows it. *)
Definition no_timeout (t : option fval) : bool :=
  match t with
  | None => true
  | Some (FV (FFin q)) => Qeq_bool q 0%Q
  | Some (FS []) => true
  | Some _ => false
  end.
Definition exec_test (a : aid) (c : pcfg) (on_exit : hbody) (timeout : option fval) : M (list entity) :=
  l <-- exec_proc a c on_exit ;;
  match timeout with
  | Some t =>
      if no_timeout timeout then retS l else
      n <-- fresh ;; m <-- fresh ;;
      register_noted (MkH (Gen m) (MAct CExit (TgtAct a)) false (HTestExit (Gen n))) ;;;
      retS (match l with [] => [EAct (Gen n) None (ATimer t [anon (ITestStop a)] (BV false))] | _ => [] end)
  | None => retS l
  end.

(** execute_local.py:451-504 *)
Definition sigterm_timer (a : aid) (p : pcfg) : action :=
  ATimer (FS (p_sigterm p))
    [anon (IEscalate (FS (p_sigterm p))); anon (AEmit (EvSignalProcess SIGTERM (PMAction a)))]
    (BV false).
Definition sigkill_timer (a : aid) (p : pcfg) : action :=
  ATimer (FSum (p_sigterm p) (p_sigkill p))
    [anon (IEscalate (FSum (p_sigterm p) (p_sigkill p)));
     anon (AEmit (EvSignalProcess SIGKILL (PMAction a)))]
    (BV false).

(** ExecuteLocal._shutdown_process, execute_local.py:267-298 *)
Definition shutdown_process (a : aid) (send_sigint : bool) : M (list entity) := fun s =>
  let s := obs1 (OAsked a) s in
  match procs s !! a with
  | None => (s, Ok [])
  | Some p =>
    match x_shutdown p with
    | None => (s, Ok [])
    | Some sf =>
      if f_is_done sf s then (s, Ok []) else
      match x_completed p with
      | None => (set_result sf ;;; retS []) s
      | Some cf =>
        if f_is_done cf s then (set_result sf ;;; retS []) s else
        match x_det p, x_transport p with
        | Some d, Some _ =>
          (set_result sf ;;;
           modS (fun s => s <| cx ::= extend_locals {["process_name" := LStr (d_name d)]} |>) ;;;
           t1 <-- fresh ;; t2 <-- fresh ;;
           modS (upd_proc a (fun p => p <| x_sigterm := Some (Gen t1) |> <| x_sigkill := Some (Gen t2) |>)) ;;;
           modS (fun s => obs1 (OEscalate a (Gen t1) (Gen t2) (now s)) s) ;;;
           retS ([EAct (Gen t1) None (sigterm_timer a (x_cfg p));
                  EAct (Gen t2) None (sigkill_timer a (x_cfg p))]
                 ++ if send_sigint
                    then [anon (AEmit (EvSignalProcess SIGINT (PMAction a)))] else [])) s
        | _, _ =>
          (n <-- fresh ;;
           register_noted (MkH (Gen n) (MAct CStart TgtAny) false (HProcDeferred a send_sigint)) ;;;
           retS []) s
        end
      end
    end
  end.

(** process matchers, events/matchers.py, events/process/process_matchers.py:25-61 *)
Definition pm_matches (m : pmatch) (a : aid) (s : st) : res bool :=
  let det := match procs s !! a with Some p => x_det p | None => None end in
  match m with
  | PMAction b => Ok (bool_decide (a = b))
  | PMPid z => match det with
               | None => Ok false
               | Some d => match d_pid d with None => Exn XKey | Some y => Ok (Z.eqb y z) end
               end
  | PMName n => match det with None => Ok false | Some d => Ok (String.eqb (d_name d) n) end
  | PMExecutable x => match det with
                      | None => Ok false
                      | Some d => match d_cmd d with
                                  | [] => Exn XIndex
                                  | y :: _ => Ok (ends_with x y)
                                  end
                      end
  | PMFun n => Ok (w_pmatch w n a)
  end.

(** __on_shutdown_process_event, execute_local.py:300-308 *)
Definition exec_proc_shutdown (a : aid) : M (list entity) :=
  e <-- event_of_locals ;;
  match e with
  | EvShutdownProcess m =>
      b <-- (fun s => (s, pm_matches m a s)) ;;
      if (b : bool) then shutdown_process a true else retS []
  | _ => raiseS XAttr
  end.
(** __on_signal_process_event, execute_local.py:310-352 (not on Windows) *)
Definition exec_proc_signal (a : aid) : M (list entity) :=
  e <-- event_of_locals ;;
  match e with
  | EvSignalProcess sg m =>
      b <-- (fun s => (s, pm_matches m a s)) ;;
      if (b : bool) then fun s =>
        match procs s !! a with
        | None => (s, Exn XRuntime)
        | Some p =>
            match x_det p, x_transport p with
            | None, _ => (s, Exn XRuntime)
            | _, None => (s, Exn XRuntime)
            | Some _, Some f =>
                if f_is_done f s then (s, Ok []) else (obs1 (OSignal a sg) s, Ok [])
            end
        end
      else retS []
  | _ => raiseS XAttr
  end.

(** ** Output of processes, execute_local.py:364-442 *)
(** Iteration over a StringIO: complete lines (without the newline), then the
    unterminated rest. *)
Fixpoint split_lines (cur : string) (t : string) : list string * string :=
  match t with
  | EmptyString => ([], cur)
  | String ch t' =>
      if Ascii.eqb ch nl then let '(ls, r) := split_lines "" t' in (cur :: ls, r)
      else split_lines (cur ++ String ch "")%string t'
  end.
Definition log_lines (a : aid) (fd : stream) (ls : list string) (s : st) : st :=
  fold_left (fun s l => obs1 (OLine a fd l) s) ls s.
(** __on_process_output, 364-389 *)
Definition on_output (a : aid) (fd : stream) (text : string) (b : buf) (s : st) : buf * st :=
  if b_closed b then (b, obs1 (OLine a fd text) s)
  else let '(ls, r) := split_lines "" (b_text b ++ text)%string in
       (b <| b_text := r |>, log_lines a fd ls s).
(** __on_process_output_cached, 415-431: lines after the cursor *)
Definition on_output_cached (a : aid) (fd : stream) (text : string) (b : buf) (s : st) : buf * st :=
  let t := (b_text b ++ text)%string in
  let '(ls, r) := split_lines "" (drop_str (b_cur b) t) in
  (b <| b_text := t |> <| b_cur := (String.length t - String.length r)%nat |>, log_lines a fd ls s).
(** __flush_buffers, 391-413 *)
Definition flush_one (a : aid) (fd : stream) (b : buf) (s : st) : st :=
  if String.eqb (b_text b) "" then s else obs1 (OLine a fd (b_text b)) s.
(** __flush_cached_buffers, 433-442 *)
Definition flush_cached_one (a : aid) (fd : stream) (b : buf) (s : st) : buf * st :=
  let '(ls, r) := split_lines "" (drop_str (b_cur b) (b_text b)) in
  (b <| b_cur := String.length (b_text b) |>,
   log_lines a fd (map (fun l => (l ++ String nl "")%string) ls
                   ++ if String.eqb r "" then [] else [r]) s).

(** OnProcessIO of the action itself, execute_local.py:680-687 *)
Definition proc_io (a : aid) (e : event) (s : st) : st * res (list entity) :=
  match e, procs s !! a with
  | EvIO _ _ fd text, Some p =>
      let s := obs1 (OChunk a fd text) s in
      let b := match fd with Stdout => x_out p | Stderr => x_err p end in
      let '(b', s') := (if p_cached (x_cfg p) then on_output_cached else on_output) a fd text b s in
      (upd_proc a (fun p => match fd with Stdout => p <| x_out := b' |>
                                        | Stderr => p <| x_err := b' |> end) s', Ok [])
  | _, _ => (s, Ok [])
  end.
Definition proc_flush (a : aid) (s : st) : st * res (list entity) :=
  match procs s !! a with
  | None => (s, Ok [])
  | Some p =>
      if p_cached (x_cfg p) then
        let s := obs1 (OFlush a false) s in
        let '(o, s) := flush_cached_one a Stdout (x_out p) s in
        let '(e, s) := flush_cached_one a Stderr (x_err p) s in
        (upd_proc a (fun p => p <| x_out := o |> <| x_err := e |>) s, Ok [])
      else
        (* getvalue() of a closed StringIO raises ValueError *)
        if b_closed (x_out p) then (s, Exn XValue) else
        let done := match x_shutdown p with None => true | Some f => f_is_done f s end in
        let s := obs1 (OFlush a done) s in
        let s := flush_one a Stdout (x_out p) s in
        let s := flush_one a Stderr (x_err p) s in
        let b := if done then mkBuf "" 0 true else emptyBuf in
        (upd_proc a (fun p => p <| x_out := b |> <| x_err := b |>) s, Ok [])
  end.

(** ** Action.execute: each action in its file in launch/launch/actions.  Given elsewhere:
    set_launch_configuration.py:71-74, unset_launch_configuration.py:51-55,
    set_environment_variable.py:67-70, unset_environment_variable.py:59-63 ([exec_set],
    [exec_unset]) and the longer ones.  Here: push_launch_configurations.py:33-35,
    pop_launch_configurations.py:33-35, push_environment.py:33-35, pop_environment.py:33-35,
    reset_environment.py:44-46, opaque_function.py:73-75, register_event_handler.py:52-54,
    unregister_event_handler.py:35-41. *)
Definition exec_action (fuel : nat) (a : aid) (k : action) : M (list entity) :=
  match k with
  | ASetLC n v => exec_set set_lc n v
  | AUnsetLC n => exec_unset del_lc n
  | AResetLC cfgs => exec_reset_lc cfgs
  | APushLC => modS (fun s => s <| cx ::= push_lc |>) ;;; retS []
  | APopLC => on_ctx pop_lc ;;; retS []
  | APushEnv => modS (fun s => s <| cx ::= push_env |>) ;;; retS []
  | APopEnv => on_ctx pop_env ;;; retS []
  | AResetEnv => modS (fun s => s <| cx ::= reset_env |>) ;;; retS []
  | ASetEnv n v => exec_set set_env n v
  | AUnsetEnv n => exec_unset del_env n
  | AAppendEnv n v p sp => exec_append_env n v p sp
  | ADeclare n d ch => exec_declare n d ch
  | AGroup sc fw cfgs body => retS (group_entities sc fw cfgs body)
  | AInclude src args => exec_include fuel src args
  | AOpaque f => call_user f
  | AEmit e => modS (emit e) ;;; retS []                       (* emit_event.py:38-40 *)
  | AShutdown r =>                                             (* shutdown_action.py:48-59 *)
      on_ctx (fun c => (fst (get_local "event" c), Ok tt)) ;;;
      modS (emit (EvShutdown r false)) ;;; retS []
  | ARegister h =>
      modS (fun s => obs1 (OReg h) (s <| cx ::= register_event_handler h false |>)) ;;; retS []
  | AUnregister h => unregister (h_id h) ;;; retS []
  | ALog l => m <-- perform_st l ;; modS (obs1 (OLog m)) ;;; retS []   (* log_info.py:58-63 *)
  | ATimer p b c => exec_timer a p b c
  | AExec c oe => exec_proc a c oe
  | ACoro _ => exec_coro a
  | ATest c oe t => exec_test a c oe t
  | IInclude =>
      e <-- event_of_locals ;;
      match e with EvInclude ld => retS [ELaunch ld] | _ => raiseS XAttr end
  | ITimerHandle => exec_timer_handle
  | ITimerCancel b => modS (timer_cancel b) ;;; retS []
  | IProcShutdown b => exec_proc_shutdown b
  | IProcSignal b => exec_proc_signal b
  | IEscalate t =>
      on_ctx (get_local "process_name") ;;;
      (match t with
       | FS l => perform_st l ;;; retS tt
       | _ => on_ctx (perform_fval w t) ;;; retS tt
       end) ;;; retS []
  | ITestStop b => shutdown_process b true
  end.

(** Action.get_asyncio_future: execute_local.py:724-726, timer_action.py:208-210,
    opaque_coroutine.py:115-117; None for every other action *)
Definition get_future (e : entity) (s : st) : option nat :=
  match e with
  | EAct a _ (ATimer _ _ _) => match timers s !! a with Some t => t_completed t | None => None end
  | EAct a _ (AExec _ _) | EAct a _ (ATest _ _ _) => match procs s !! a with Some p => x_completed p | None => None end
  | EAct a _ (ACoro _) => coros s !! a
  | _ => None
  end.

(** The finally clause of Action.visit, action.py:110-120 *)
Definition complete_action (e : entity) (a : aid) (s : st) : st :=
  if would_handle_event w (EvComplete a) (cx s) then
    match get_future e s with
    | Some f => s <| cbs ::= fun l => l ++ [(f, EvComplete a)] |>
    | None => emit (EvComplete a) s
    end
  else s.

(** visit: action.py:105-121, launch_description.py:63-74 (without the deprecation
    warning); returns the sub-entities *)
Definition visit_one (fuel : nat) (e : entity) (s : st) : st * res (list entity) :=
  let s := obs1 (OVisit e) s in
  match e with
  | ELaunch l => (s, Ok l)
  | EAct a c k =>
      (b <-- (match c with None => retS true | Some c => on_ctx (evaluate w c) end) ;;
       if (b : bool) then fun s =>
         let '(s', r) := exec_action fuel a k (obs1 (OExecuted a) s) in
         (complete_action e a (obs1 (OExecDone a) s'), r)
       else retS []) s
  end.

(** visit_all_entities_and_collect_futures,
    utilities/visit_all_entities_and_collect_futures_impl.py:26-46 *)
Fixpoint visit_all (fuel : nat) (e : entity) (s : st) : st * res (list nat) :=
  match fuel with
  | O => (s, OutOfFuel)
  | S fuel' =>
      (subs <-- visit_one fuel' e ;;
       fs <-- (fix go (l : list entity) : M (list nat) :=
                 match l with
                 | [] => retS []
                 | x :: l' => a <-- visit_all fuel' x ;; b <-- go l' ;; retS (a ++ b)
                 end) subs ;;
       fun s => (s, Ok (fs ++ match get_future e s with Some f => [f] | None => [] end))) s
  end.

(** ** Event handlers *)
(** BaseEventHandler.handle, event_handler.py:92-102 *)
Definition base_handle (h : handler) (e : event) : M unit :=
  modS (fun s => s <| cx ::= extend_locals {["event" := LEv e]} |>) ;;;
  if h_once h then unregister (h_id h) else retS tt.
(** handle() of the handler classes: event_handler.py:139-142, on_shutdown.py:64-67,
    on_action_event_base.py:106-112, on_process_io.py:52-60 *)
Definition run_body (b : hbody) (e : event) : M (list entity) :=
  match b with
  | HEntities l => retS l
  | HEntity x => retS [x]
  | HShut l => retS l
  | HFun f => call_user f
  | HList [] => raiseS XAttr       (* no attribute __on_event *)
  | HList l => retS l
  | HNone => retS []               (* [None], dropped by launch_service.py:242 *)
  | HIO fo fe fi =>
      match e with
      | EvIO _ _ Stdout _ => match fo with Some f => call_user f | None => retS [] end
      | EvIO _ _ Stderr _ => match fe with Some f => call_user f | None => retS [] end
      | EvStdin _ _ => match fi with Some f => call_user f | None => retS [] end
      | _ => retS []
      end
  | HSvcShutdown =>
      modS (fun s => s <| shutting_down := true |> <| cx ::= (fun c => c <| is_shutdown := true |>) |>) ;;; retS []
  | HProcIO a => proc_io a e
  | HProcShutdown a => fun s =>    (* execute_local.py:444-449 *)
      match e with
      | EvShutdown _ due => shutdown_process a (negb due || noninteractive (cx s)) s
      | _ => (s, Exn XAttr)
      end
  | HProcFlush a => proc_flush a
  | HProcDeferred a sg => shutdown_process a sg
  | HCoroCancel a => fun s =>
      match coros s !! a with
      | Some f => (if f_is_done f s then s else obs1 (OCancel f) s, Ok [])
      | None => (s, Ok [])
      end
  | HTestExit t => modS (timer_cancel t) ;;; retS []
  end.
Definition handle (h : handler) (e : event) : M (list entity) :=
  base_handle h e ;;;
  modS (fun s => obs1 (OBody (h_id h) (locals (cx s)) (get_local "event" (cx s)).2) s) ;;;
  run_body (h_body h) e.

(** The body of the for loop of __process_event, launch_service.py:238-251 *)
Definition handle_one (fuel : nat) (h : handler) (e : event) : M unit :=
  modS (obs1 (OHandle (h_id h) e)) ;;;
  modS (fun s => s <| cx ::= push_locals |>) ;;;
  ents <-- handle h e ;;
  (fix go (l : list entity) : M unit :=
     match l with
     | [] => retS tt
     | x :: l' => fs <-- visit_all fuel x ;; modS (fun s => s <| efuts ::= fun l => l ++ fs |>) ;;; go l'
     end) ents ;;;
  on_ctx pop_locals.
Fixpoint handle_list (fuel : nat) (hs : list handler) (e : event) : M unit :=
  match hs with
  | [] => retS tt
  | h :: hs' =>
      (if matches w h e then handle_one fuel h e else retS tt) ;;; handle_list fuel hs' e
  end.
(** __process_event, launch_service.py:232-257: a snapshot of the handlers *)
Definition process_event (fuel : nat) (e : event) : M unit := fun s =>
  handle_list fuel (handlers (cx s)) e s.
(** _process_one_event, launch_service.py:228-230, once the queue is not empty *)
Definition process_one (fuel : nat) (s : st) : st * res unit :=
  match queue (cx s) with
  | [] => (s, OutOfFuel)
  | e :: q =>
      process_event fuel e (obs1 (OProcess e) (s <| cx ::= (fun c => c <| queue := q |>) |>))
  end.
End exec.

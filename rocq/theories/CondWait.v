(** Model of waiting on condition variables in launch tests:
    launch_testing/launch_testing/io_handler.py:84-206 [ActiveIoHandler],
    proc_info_handler.py:70-168 [ActiveProcInfoHandler] and tools/process.py:52-153
    [ProcessProxy], on top of python's [threading.Condition].

    Everything between taking and releasing a lock is one step (another thread that takes the
    lock waits for its release).  Times are integers, one clock. *)
From Verif Require Export TextMatch.

(** What is raised: NoMatchingProcessException, the Exception for several matches
    (proc_lookup.py:36-41, 150-155), an AssertionError, or another exception. *)
Inductive cexn := XNoMatch | XSeveral | XAssertion | XOf (e : exn).
(** What a call does in the end, and what evaluating a predicate gives. *)
Inductive cres := CBool (b : bool) | CRaise (e : cexn).

(** A call of [Condition.wait_for], between any two of its steps. *)
Inductive cpc :=
| CNew                            (* about to take the lock *)
| CAsleep (until : option Z)      (* in the list of waiters; [until]: endtime *)
| CAwake (until : option Z)       (* notified or timed out, about to take the lock again *)
| CAfter                          (* wait_for returned False and the lock is released *)
| CEnd (r : cres).

Section cond.
Context {D : Type}.
(** A call: its predicate, which may raise, its timeout, and what the method does after
    [wait_for] returned False, given what is recorded then. *)
Record ccall := { cl_pred : D -> cres; cl_timeout : option Z; cl_after : D -> cres }.
(** [cs_starts]: when the calls were made; [cs_queue]: the waiters of the condition, in order. *)
Record cst := { cs_data : D; cs_clock : Z; cs_queue : list nat; cs_pcs : list cpc; cs_starts : list Z }.
Context (calls : list ccall).
Definition cs_init (d : D) (clock : Z) : cst :=
  {| cs_data := d; cs_clock := clock; cs_queue := []; cs_pcs := map (fun _ => CNew) calls; cs_starts := map (fun _ => clock) calls |}.
Definition cs_pc (k : nat) (pc : cpc) (st : cst) : cst :=
  {| cs_data := cs_data st; cs_clock := cs_clock st; cs_queue := cs_queue st; cs_pcs := <[k := pc]> (cs_pcs st); cs_starts := cs_starts st |}.
(** [Condition.wait]: the waiter is appended to the waiters, and the lock is released. *)
Definition cs_sleep (k : nat) (until : option Z) (st : cst) : cst :=
  {| cs_data := cs_data st; cs_clock := cs_clock st; cs_queue := cs_queue st ++ [k]; cs_pcs := <[k := CAsleep until]> (cs_pcs st); cs_starts := cs_starts st |}.
Definition cs_tick (d : nat) (st : cst) : cst :=
  {| cs_data := cs_data st; cs_clock := cs_clock st + Z.of_nat d; cs_queue := cs_queue st; cs_pcs := cs_pcs st; cs_starts := cs_starts st |}.
Definition cs_start (k : nat) (st : cst) : cst :=
  {| cs_data := cs_data st; cs_clock := cs_clock st; cs_queue := cs_queue st; cs_pcs := cs_pcs st; cs_starts := <[k := cs_clock st]> (cs_starts st) |}.
(** [Condition.notify()]: the first waiter is released and removed. *)
Definition cs_notify (st : cst) : cst :=
  match cs_queue st with
  | [] => st
  | k :: q =>
      {| cs_data := cs_data st; cs_clock := cs_clock st; cs_queue := q;
         cs_pcs := match cs_pcs st !! k with Some (CAsleep u) => <[k := CAwake u]> (cs_pcs st) | _ => cs_pcs st end; cs_starts := cs_starts st |}
  end.
Definition cs_update (f : D -> D) (st : cst) : cst :=
  {| cs_data := f (cs_data st); cs_clock := cs_clock st; cs_queue := cs_queue st; cs_pcs := cs_pcs st; cs_starts := cs_starts st |}.

(** The steps of a call.  [d]: how long evaluating the predicate takes. *)
Definition cs_step (k d : nat) (st : cst) : cst :=
  match calls !! k, cs_pcs st !! k with
  | Some c, Some CNew =>
      let st := cs_start k st in
      match cl_pred c (cs_data st) with
      | CBool true => cs_pc k (CEnd (CBool true)) (cs_tick d st)
      | CBool false => let st := cs_tick d st in cs_sleep k ((fun t => cs_clock st + t)%Z <$> cl_timeout c) st
      | CRaise e => cs_pc k (CEnd (CRaise e)) (cs_tick d st)
      end
  | Some c, Some (CAwake until) =>
      match cl_pred c (cs_data st) with
      | CBool true => cs_pc k (CEnd (CBool true)) (cs_tick d st)
      | CBool false =>
          let st := cs_tick d st in
          match until with
          | Some u => if (u <=? cs_clock st)%Z then cs_pc k CAfter st else cs_sleep k until st
          | None => cs_sleep k until st
          end
      | CRaise e => cs_pc k (CEnd (CRaise e)) (cs_tick d st)
      end
  | Some c, Some CAfter => cs_pc k (CEnd (cl_after c (cs_data st))) st
  | _, _ => st
  end.
(** The timeout of [Condition.wait]: the waiter is removed. *)
Definition cs_timeout (k : nat) (st : cst) : cst :=
  match cs_pcs st !! k with
  | Some (CAsleep (Some u)) =>
      if (u <=? cs_clock st)%Z
      then {| cs_data := cs_data st; cs_clock := cs_clock st; cs_queue := List.filter (fun j => negb (Nat.eqb j k)) (cs_queue st);
              cs_pcs := <[k := CAwake (Some u)]> (cs_pcs st); cs_starts := cs_starts st |}
      else st
  | _ => st
  end.
(** What happens: a call goes on; a wait times out; time passes; something is recorded under
    the lock of the condition, which is notified; something is recorded under another lock. *)
Inductive cop (U : Type) := CStep (k d : nat) | CTimeout (k : nat) | CTick (d : nat) | CRecord (u : U) | CElsewhere (u : U).
Context {U : Type} (upd : U -> D -> D).
Definition cs_do (st : cst) (o : cop U) : cst :=
  match o with
  | CStep _ k d => cs_step k d st
  | CTimeout _ k => cs_timeout k st
  | CTick _ d => cs_tick d st
  | CRecord _ u => cs_notify (cs_update (upd u) st)
  | CElsewhere _ u => cs_update (upd u) st
  end.
Definition cs_run (d : D) (clock : Z) (l : list (cop U)) : cst := fold_left cs_do l (cs_init d clock).
End cond.
Arguments ccall : clear implicits.
Arguments cst : clear implicits.
Arguments CStep {U}. Arguments CTimeout {U}. Arguments CTick {U}. Arguments CRecord {U}. Arguments CElsewhere {U}.

(** ** ActiveIoHandler *)
Section calls.
Context (re_search re_match : nat -> string -> nat -> option (nat * nat)) (strip_ansi : string -> string) (det : nat -> details).
(** io_handler.py:162-179 [msg_found]; a NoMatchingProcessException and an AssertionError mean
    False, other exceptions are raised (from [resolveProcesses]: an Exception for several
    matches, a TypeError). *)
Definition msg_found (e : expect) (q : pquery) (args : cmdargs) (strict : bool) (filter : string -> string) (strip : bool) (stream : string) (h : ioh) : cres :=
  match assert_in_stream re_search re_match strip_ansi det h e q args filter strict strip stream with
  | APasses => CBool true
  | AFails | AUnresolved NoMatch => CBool false
  | AUnresolved Several => CRaise XSeveral
  | AUnresolved _ => CRaise (XOf XType)
  | AValue => CRaise (XOf XValue)
  end.
(** io_handler.py:190-206: after the timeout, [resolveProcesses] without strict matching, which
    raises if there is no match. *)
Definition io_after (q : pquery) (args : cmdargs) (h : ioh) : cres :=
  match resolve det (ih_processes h) q args false with
  | Procs _ => CBool false
  | NoMatch => CRaise XNoMatch
  | Several => CRaise XSeveral
  | BadQuery => CRaise (XOf XType)
  end.
(** io_handler.py:148-206 [waitFor]. *)
Definition io_wait_for (e : expect) (q : pquery) (args : cmdargs) (strict : bool) (filter : string -> string) (strip : bool) (stream : string)
    (timeout : Z) : ccall ioh :=
  {| cl_pred := msg_found e q args strict filter strip stream; cl_timeout := Some timeout; cl_after := io_after q args |}.
(** io_handler.py:102-110: [track] and [append] record and notify: [CRecord]. *)
Definition io_upd (o : ihop) (h : ioh) : ioh := ih_do h o.

(** ** ActiveProcInfoHandler *)
(** What [resolveProcesses] raises other than NoMatchingProcessException. *)
Definition resolve_exn (r : resolved) : cexn := match r with Several => XSeveral | _ => XOf XType end.
(** proc_info_handler.py:122-133 [proc_is_shutdown]. *)
Definition is_shutdown (q : pquery) (args : cmdargs) (d : pih) : cres :=
  match resolve det (pi_processes d) q args true with
  | Procs (a :: _) => match pi_get a d with Ok e => CBool (match ev_code e with Some _ => true | None => false end) | _ => CRaise (XOf XKey) end
  | Procs [] => CRaise (XOf XIndex)
  | NoMatch => CBool false
  | r => CRaise (resolve_exn r)
  end.
(** proc_info_handler.py:150-160 [proc_is_started]. *)
Definition is_started (q : pquery) (args : cmdargs) (d : pih) : cres :=
  match resolve det (pi_processes d) q args true with
  | Procs _ => CBool true
  | NoMatch => CBool false
  | r => CRaise (resolve_exn r)
  end.
(** proc_info_handler.py:114-141 and 143-168: the assertion fails after the timeout. *)
Definition wait_shutdown (q : pquery) (args : cmdargs) (timeout : Z) : ccall pih :=
  {| cl_pred := is_shutdown q args; cl_timeout := Some timeout; cl_after := fun _ => CRaise XAssertion |}.
Definition wait_startup (q : pquery) (args : cmdargs) (timeout : Z) : ccall pih :=
  {| cl_pred := is_started q args; cl_timeout := Some timeout; cl_after := fun _ => CRaise XAssertion |}.
(** proc_info_handler.py:83-86 [append]: [CRecord]. *)
Definition info_upd (e : pev) (d : pih) : pih := pi_append e d.

(** ** ProcessProxy *)
(** What a proxy looks at: process information and output, each under a lock of its own. *)
Record seen := { sn_info : pih; sn_io : ioh }.
Inductive sop := SInfo (e : pev) | SIo (o : ihop).
Definition seen_upd (o : sop) (s : seen) : seen :=
  match o with
  | SInfo e => {| sn_info := pi_append e (sn_info s); sn_io := sn_io s |}
  | SIo o => {| sn_info := sn_info s; sn_io := ih_do (sn_io s) o |}
  end.
(** tools/process.py:133-149 [running], [terminated].  Simplification: the two lookups are one
    step (each of them takes the lock for itself; a recorded action stays recorded). *)
Definition px_running (a : nat) (s : seen) : bool := match pi_get a (sn_info s) with Ok e => match ev_code e with None => true | Some _ => false end | _ => false end.
Definition px_terminated (a : nat) (s : seen) : bool := match pi_get a (sn_info s) with Ok e => match ev_code e with Some _ => true | None => false end | _ => false end.
(** tools/process.py:125-131 [output]; KeyError if there are no records. *)
Definition px_output (filter : string -> string) (a : nat) (s : seen) : res string :=
  match ih_get (de_name (det a)) (sn_io s) with Ok es => Ok (filter (concat_str (map io_text es))) | Exn x => Exn x | OutOfFuel => OutOfFuel end.
(** tools/process.py:52-62 [wait_for_shutdown], on the condition of the process information. *)
Definition px_wait_shutdown (a : nat) (timeout : option Z) : ccall seen :=
  {| cl_pred := fun s => CBool (px_terminated a s); cl_timeout := timeout; cl_after := fun _ => CBool false |}.
(** tools/process.py:64-103 [wait_for_output], on the condition of the output. *)
Definition px_wait_output (filter : string -> string) (cond : string -> bool) (a : nat) (timeout : option Z) : ccall seen :=
  {| cl_pred := fun s => if px_running a s then match px_output filter a s with Ok t => CBool (cond t) | _ => CRaise (XOf XKey) end else CBool false;
     cl_timeout := timeout; cl_after := fun _ => CBool false |}.
(** tools/process.py:151-153 [exit_code]; KeyError without an event, AttributeError if the last
    event is a start. *)
Definition px_exit_code (a : nat) (s : seen) : res Z :=
  match pi_get a (sn_info s) with Ok e => match ev_code e with Some c => Ok c | None => Exn XAttr end | Exn x => Exn x | OutOfFuel => OutOfFuel end.
End calls.

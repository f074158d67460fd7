(** Model of the helpers that launch tests use (launch_testing/launch_testing). *)
From Verif Require Export Base.

(** ** ReadyAggregator *)
(** ready_aggregator.py:33-46 [ready_fn]: a call, between any two of its atomic steps.  The
    decrement reads and then stores the count; the lock is released at the end of the block. *)
Inductive rphase :=
| RStart           (* about to take the lock *)
| RIn              (* about to read the count *)
| RRead (c : Z)    (* has read the count *)
| RWrote           (* has stored the count; about to copy it *)
| ROut (c : Z)     (* has a copy; about to release the lock *)
| RTest (c : Z)    (* has released the lock; about to test the copy *)
| RCall            (* about to call the parent function *)
| RDone.
(** What can be observed: a call has released the lock; a call calls the parent function. *)
Inductive robs := RLeft (k : nat) | RParent (k : nat).
(** ready_aggregator.py:20-31 [__init__]. *)
Record rst := { ra_count : Z; ra_lock : option nat; ra_calls : list rphase; ra_obs : list robs }.
Definition ra_init (n : Z) : rst := {| ra_count := n; ra_lock := None; ra_calls := []; ra_obs := [] |}.
Definition ra_set (k : nat) (p : rphase) (st : rst) : rst :=
  {| ra_count := ra_count st; ra_lock := ra_lock st; ra_calls := <[k := p]> (ra_calls st); ra_obs := ra_obs st |}.
(** One atomic step of call [k]; a call that waits for the lock stays where it is. *)
Definition ra_step (k : nat) (st : rst) : rst :=
  match ra_calls st !! k with
  | None | Some RDone => st
  | Some RStart =>
      match ra_lock st with
      | Some _ => st
      | None => {| ra_count := ra_count st; ra_lock := Some k; ra_calls := <[k := RIn]> (ra_calls st); ra_obs := ra_obs st |}
      end
  | Some RIn => ra_set k (RRead (ra_count st)) st
  | Some (RRead c) => {| ra_count := c - 1; ra_lock := ra_lock st; ra_calls := <[k := RWrote]> (ra_calls st); ra_obs := ra_obs st |}
  | Some RWrote => ra_set k (ROut (ra_count st)) st
  | Some (ROut c) =>
      {| ra_count := ra_count st; ra_lock := None; ra_calls := <[k := RTest c]> (ra_calls st); ra_obs := ra_obs st ++ [RLeft k] |}
  | Some (RTest c) => ra_set k (if (c =? 0)%Z then RCall else RDone) st
  | Some RCall =>
      {| ra_count := ra_count st; ra_lock := ra_lock st; ra_calls := <[k := RDone]> (ra_calls st); ra_obs := ra_obs st ++ [RParent k] |}
  end.
(** Histories: any thread may begin a call, also from inside the parent function. *)
Inductive rop := RBegin | RStep (k : nat).
Definition ra_do (st : rst) (o : rop) : rst :=
  match o with
  | RBegin => {| ra_count := ra_count st; ra_lock := ra_lock st; ra_calls := ra_calls st ++ [RStart]; ra_obs := ra_obs st |}
  | RStep k => ra_step k st
  end.
Definition ra_run (n : Z) (l : list rop) : rst := fold_left ra_do l (ra_init n).

(** ** Finding text *)
(** [text.find(msg)] and [text.find(msg, start)]; none: -1. *)
Fixpoint find_str (msg text : string) : option nat :=
  if starts_with msg text then Some 0
  else match text with EmptyString => None | String _ t => S <$> find_str msg t end.
Definition find_from (msg text : string) (start : nat) : option nat :=
  if String.length text <? start then None else (fun i => start + i) <$> find_str msg (drop_str start text).

(** ** SequentialTextChecker *)
(** assert_sequential_output.py:29-35: how far the search has come. *)
Record sqst := { sq_array : nat; sq_sub : nat }.
Definition sq_start : sqst := {| sq_array := 0; sq_sub := 0 |}.
(** assert_sequential_output.py:48-60: the loop over the rest of the output, with the local
    copies of the indices. *)
Fixpoint sq_loop (msg : string) (rest : list string) (a i : nat) : option sqst :=
  match rest with
  | [] => None
  | text :: rest' =>
      match find_from msg text i with
      | Some found => Some {| sq_array := a; sq_sub := found + String.length msg |}
      | None => sq_loop msg rest' (S a) 0
      end
  end.
(** assert_sequential_output.py:40-70 [assertInStdout]: whether it succeeds, and the state
    after it. *)
Definition sq_assert (out : list string) (msg : string) (st : sqst) : bool * sqst :=
  match sq_loop msg (drop (sq_array st) out) (sq_array st) (sq_sub st) with
  | Some st' => (true, st')
  | None => (false, st)
  end.
(** A test that makes assertions until one fails. *)
Fixpoint sq_all (out : list string) (msgs : list string) (st : sqst) : bool :=
  match msgs with
  | [] => true
  | m :: msgs' => let '(ok, st) := sq_assert out m st in ok && sq_all out msgs' st
  end.
(** A test that catches failures and goes on: the results, and the state. *)
Fixpoint sq_try (out : list string) (msgs : list string) (st : sqst) : list bool * sqst :=
  match msgs with
  | [] => ([], st)
  | m :: msgs' => let '(ok, st) := sq_assert out m st in let '(l, st) := sq_try out msgs' st in (ok :: l, st)
  end.

(** ** IoHandler *)
(** The parts of a ProcessIO event that are used; actions are numbered. *)
Record pio := { io_name : string; io_action : nat; io_stdout : bool; io_text : string }.
(** io_handler.py:38-40 [__init__]; a dictionary lists its entries in order of insertion. *)
Record ioh := { ih_seq : list pio; ih_dict : list (string * list pio) }.
Definition ih_init : ioh := {| ih_seq := []; ih_dict := [] |}.
Fixpoint od_get {A} (k : string) (d : list (string * A)) : option A :=
  match d with [] => None | (k', v) :: d' => if String.eqb k' k then Some v else od_get k d' end.
Fixpoint od_change {A} (k : string) (f : A -> A) (d : list (string * A)) : list (string * A) :=
  match d with [] => [] | (k', v) :: d' => if String.eqb k' k then (k', f v) :: d' else (k', v) :: od_change k f d' end.
(** io_handler.py:42-44 [track]. *)
Definition ih_track (name : string) (h : ioh) : ioh :=
  match od_get name (ih_dict h) with
  | Some _ => h
  | None => {| ih_seq := ih_seq h; ih_dict := ih_dict h ++ [(name, [])] |}
  end.
(** io_handler.py:46-50 [append]. *)
Definition ih_append (e : pio) (h : ioh) : ioh :=
  let d := match od_get (io_name e) (ih_dict h) with Some _ => ih_dict h | None => ih_dict h ++ [(io_name e, [])] end in
  {| ih_seq := ih_seq h ++ [e]; ih_dict := od_change (io_name e) (fun l => l ++ [e]) d |}.
(** io_handler.py:55-61 [processes]. *)
Definition ih_processes (h : ioh) : list nat :=
  omap (fun kv => match snd kv with [] => None | e :: _ => Some (io_action e) end) (ih_dict h).
(** io_handler.py:63-69 [process_names]. *)
Definition ih_names (h : ioh) : list string := map fst (ih_dict h).
(** io_handler.py:71-81 [__getitem__], for a name, or for the name of an action. *)
Definition ih_get (name : string) (h : ioh) : res (list pio) :=
  match od_get name (ih_dict h) with Some l => Ok l | None => Exn XKey end.
(** io_handler.py:84-144 [ActiveIoHandler] does the same under a lock. *)
Inductive ihop := ITrack (name : string) | IAppend (e : pio).
Definition ih_do (h : ioh) (o : ihop) : ioh := match o with ITrack n => ih_track n h | IAppend e => ih_append e h end.
Definition ih_run (l : list ihop) : ioh := fold_left ih_do l ih_init.

(** ** ProcInfoHandler *)
(** A ProcessStarted event (no return code) or a ProcessExited event. *)
Record pev := { ev_action : nat; ev_code : option Z }.
(** proc_info_handler.py:32-39: the dictionary from actions to their last events. *)
Definition pih := list (nat * pev).
Fixpoint pi_append (e : pev) (d : pih) : pih :=
  match d with
  | [] => [(ev_action e, e)]
  | (a, e') :: d' => if Nat.eqb a (ev_action e) then (a, e) :: d' else (a, e') :: pi_append e d'
  end.
Definition pi_run (l : list pev) : pih := fold_left (fun d e => pi_append e d) l [].
(** proc_info_handler.py:44-46 [processes], 48-50 [process_names] ([name a]: the name in the
    details of action [a]). *)
Definition pi_processes (d : pih) : list nat := map fst d.
Definition pi_names (name : nat -> string) (d : pih) : list string := map name (pi_processes d).
(** proc_info_handler.py:52-67 [__getitem__], for an action and for a string. *)
Fixpoint pi_get (a : nat) (d : pih) : res pev :=
  match d with [] => Exn XKey | (a', e) :: d' => if Nat.eqb a' a then Ok e else pi_get a d' end.
Fixpoint pi_find (name : nat -> string) (key : string) (d : pih) : res pev :=
  match d with [] => Exn XKey | (a, e) :: d' => if contains key (name a) then Ok e else pi_find name key d' end.

(** ** resolveProcesses *)
(** The details of the process of an action: its name and its command. *)
Record details := { de_name : string; de_cmd : list string }.
Inductive cmdargs := AnyArgs | NoArgs | OneArg (a : string) | TheArgs (l : list string).
Inductive pquery := QAll | QAction (a : nat) | QName (s : string) | QOther.
(** What [resolveProcesses] does: return processes, raise a NoMatchingProcessException, raise
    an Exception because of several matches, or raise a TypeError. *)
Inductive resolved := Procs (l : list nat) | NoMatch | Several | BadQuery.
(** proc_lookup.py:71-79 [cmd_match_fn], after 128-132. *)
Definition cmd_match (args : cmdargs) (cmd : list string) : bool :=
  let is_in a := existsb (String.eqb a) (drop 1 cmd) in
  match args with
  | AnyArgs => true
  | NoArgs => length cmd =? 1
  | OneArg a => forallb is_in [a]
  | TheArgs l => forallb is_in l
  end.
(** proc_lookup.py:86-158 [resolveProcesses], given [info_obj.processes()]; [det] gives the
    details of actions, which all have been executed.  The texts of messages are left out. *)
Definition resolve (det : nat -> details) (procs : list nat) (q : pquery) (args : cmdargs) (strict : bool) : resolved :=
  match q with
  | QAll => match procs with [] => NoMatch | _ => Procs procs end
  | QAction a => if existsb (Nat.eqb a) procs then Procs [a] else NoMatch
  | QName s =>
      match List.filter (fun p => contains s (de_name (det p)) && cmd_match args (de_cmd (det p))) procs with
      | [] => NoMatch
      | matches => if strict && (1 <? length matches) then Several else Procs matches
      end
  | QOther => BadQuery
  end.

(** ** assertExitCodes *)
(** assert_exit_codes.py:38-65: passes, raises an AssertionError, raises an AttributeError
    because an event has no return code, or raises what [resolveProcesses] raises. *)
Inductive verdict := Passes | Fails | NoCode | Unresolved (r : resolved).
Definition in_codes (c : Z) (codes : list Z) : bool := existsb (Z.eqb c) codes.
Fixpoint check_codes (codes : list Z) (l : list pev) : verdict :=
  match l with
  | [] => Passes
  | e :: l' =>
      match ev_code e with
      | None => NoCode
      | Some c => if in_codes c codes then check_codes codes l' else Fails
      end
  end.
Definition assert_exit_codes (det : nat -> details) (d : pih) (codes : list Z) (q : pquery) (args : cmdargs) (strict : bool) : verdict :=
  match resolve det (pi_processes d) q args strict with
  | Procs l => check_codes codes (omap (fun a => match pi_get a d with Ok e => Some e | _ => None end) l)
  | r => Unresolved r
  end.

(** assert_sequential_output.py:118-131 [assertSequentialStdout]: the output that the checker
    gets. *)
Definition sequential_output (det : nat -> details) (h : ioh) (q : pquery) (args : cmdargs) : resolved * list string :=
  match resolve det (ih_processes h) q args true with
  | Procs (p :: l) => (Procs (p :: l), match ih_get (de_name (det p)) h with Ok es => map io_text es | _ => [] end)
  | r => (r, [])
  end.

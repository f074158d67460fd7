(** Model of loading launch tests: launch_testing/launch_testing/loader.py, parametrize.py,
    markers.py:21-27 [keep_alive], ready_to_test_action_timeout.py, decorator.py, and of
    test_runner.py:72-127 (what tests are given) and 276-310 [validate]. *)
From Verif Require Export Exposed LaunchPytest.

(** ** Dictionaries of python: keys in the order of their first assignment *)
Section values.
Context {V : Type}.
Definition pdict := list (string * V).
Fixpoint dset (k : string) (v : V) (d : pdict) : pdict :=
  match d with [] => [(k, v)] | (k', v') :: d' => if String.eqb k k' then (k, v) :: d' else (k', v') :: dset k v d' end.
Fixpoint dget (k : string) (d : pdict) : option V :=
  match d with [] => None | (k', v') :: d' => if String.eqb k k' then Some v' else dget k d' end.
(** [dict(pairs)] and [dict(d, **pairs)] *)
Definition dupdate (d : pdict) (pairs : pdict) : pdict := fold_left (fun d kv => dset (fst kv) (snd kv) d) pairs d.
Definition dmem (k : string) (d : pdict) : bool := existsb (String.eqb k) (map fst d).

(** ** Functions and calls with keyword arguments *)
(** Parameters by name, with their defaults; parameters that are positional only are left out, and
    so is [*args], which such calls leave empty. *)
Record fparam := { fp_name : string; fp_default : option V }.
(** python: the values of the parameters in a call with the arguments [kw], and further arguments
    if there is a parameter [**kwargs]; [None]: a TypeError. *)
Fixpoint fill (ps : list fparam) (kw : pdict) : option pdict :=
  match ps with
  | [] => Some []
  | p :: ps' =>
      match (match dget (fp_name p) kw with Some v => Some v | None => fp_default p end), fill ps' kw with
      | Some v, Some d => Some ((fp_name p, v) :: d)
      | _, _ => None
      end
  end.
Definition bind_call (ps : list fparam) (varkw : bool) (kw : pdict) : option pdict :=
  let others := List.filter (fun kv => negb (existsb (String.eqb (fst kv)) (map fp_name ps))) kw in
  match fill ps kw with
  | Some d => if varkw || match others with [] => true | _ => false end then Some (d ++ others) else None
  | None => None
  end.

(** ** Test descriptions and their decorators *)
(** What a test description function returns: a launch description, a pair of one and a test
    context, an empty tuple, or something else. *)
Inductive fnres := FLd (es : list tent) | FPair (es : list tent) (ctx : pdict) | FEmpty | FOther.
Record func := { fn_params : list fparam; fn_varkw : bool; fn_body : pdict -> res fnres }.
(** The attributes __ready_to_test_action_timeout__ and __markers__['keep_alive']. *)
Record dattrs := { da_timeout : option nat; da_keep : bool }.
(** [generate_test_description]: a function, or one wrapped by [parametrize]. *)
Inductive desc := DFun (a : dattrs) (f : func) | DParam (own : dattrs) (inner : desc) (names : list string) (vals : list (list V)).
Definition attrs_of (d : desc) : dattrs := match d with DFun a _ => a | DParam own _ _ _ => own end.
Definition set_attrs (a : dattrs) (d : desc) : desc := match d with DFun _ f => DFun a f | DParam _ i n v => DParam a i n v end.
(** parametrize.py:18-22 [_normalize_to_tuple] *)
Inductive argval := AOne (v : V) | ATuple (l : list V).
Definition to_tuple (x : argval) : list V := match x with AOne v => [v] | ATuple l => l end.
(** 35 *)
Definition arg_names (t : string) : list string := List.filter (fun x => negb (String.eqb x "")) (module_names t).
Inductive deco := KTimeout (n : nat) | KKeepAlive | KParametrize (argnames : string) (argvalues : list argval).
(** ready_to_test_action_timeout.py:27-29; markers.py:23-26; parametrize.py:35-55: [functools.wraps]
    gives the wrapped function the attributes of the function.  (The dictionary of markers is then
    shared by both; as 'keep_alive' is the only marker, that makes no difference.) *)
Definition decorate (c : deco) (d : desc) : desc :=
  match c with
  | KTimeout n => set_attrs {| da_timeout := Some n; da_keep := da_keep (attrs_of d) |} d
  | KKeepAlive => set_attrs {| da_timeout := da_timeout (attrs_of d); da_keep := true |} d
  | KParametrize argnames argvalues => DParam (attrs_of d) d (arg_names argnames) (map to_tuple argvalues)
  end.
(** Decorators, from the one next to the function. *)
Definition decorated (f : func) (cs : list deco) : desc := fold_left (fun d c => decorate c d) cs (DFun {| da_timeout := None; da_keep := false |} f).

(** ** Runs *)
(** parametrize.py:38-46, loader.py:168-174: the functions to be called, with the arguments they
    are called with (functools.partial); the attributes of a partial object are those of the
    function it calls (update_wrapper). *)
Definition runs (d : desc) : list (desc * pdict) :=
  match d with
  | DFun _ _ => [(d, [])]
  | DParam _ inner names vals => map (fun val => (inner, dupdate [] (combine names val))) vals
  end.
(** Calling one: a wrapped function takes no arguments and gives a generator. *)
Definition call (d : desc) (kw : pdict) : res fnres :=
  match d with
  | DFun _ f => match bind_call (fn_params f) (fn_varkw f) kw with Some args => fn_body f args | None => Exn XType end
  | DParam _ _ _ _ => match kw with [] => Ok FOther | _ => Exn XType end
  end.
Definition can_call (d : desc) (kw : pdict) : bool :=
  match d with
  | DFun _ f => match bind_call (fn_params f) (fn_varkw f) kw with Some _ => true | None => false end
  | DParam _ _ _ _ => match kw with [] => true | _ => false end
  end.
(** loader.py:33-74 [_normalize_ld]: the entities, the test context and the action that will call
    [ready_fn]. *)
Definition describe (d : desc) (kw : pdict) : res (list tent * pdict * nat) :=
  match call d kw with
  | Ok r =>
      match (match r with FLd es => Ok (es, []) | FPair es ctx => Ok (es, ctx) | FEmpty => Exn XIndex | FOther => Exn XAttr end) with
      | Ok (es, ctx) => match concat (map ready_actions es) with a :: _ => Ok (es, ctx, a) | [] => Exn XRuntime end
      | Exn e => Exn e
      | OutOfFuel => OutOfFuel
      end
  | Exn e => Exn e
  | OutOfFuel => OutOfFuel
  end.
(** test_runner.py:280-284 [inspect.unwrap] *)
Fixpoint base_fn (d : desc) : func := match d with DFun _ f => f | DParam _ i _ _ => base_fn i end.
(** 286-310, for a run; its Exception is [XRuntime].  The first try of 306-307, with a further
    argument [ready_fn], succeeds only if the second does. *)
Definition validate_run (r : desc * pdict) : res unit :=
  let base := map fp_name (fn_params (base_fn (fst r))) in
  if forallb (fun k => existsb (String.eqb k) base) (map fst (snd r)) then
    if forallb (fun k => dmem k (snd r)) base then
      if can_call (fst r) (snd r) then Ok tt else Exn XType
    else Exn XRuntime
  else Exn XRuntime.
Fixpoint validate (rs : list (desc * pdict)) : res unit :=
  match rs with [] => Ok tt | r :: rs' => match validate_run r with Ok _ => validate rs' | x => x end end.

(** ** Tests *)
(** A test method: its class, its name, its parameters after [self]. *)
Record tmeth := { tm_class : nat; tm_name : string; tm_params : list fparam }.
(** A test class: is it decorated with [post_shutdown_test()] (decorator.py), its base class, and
    its test methods. *)
Inductive tclass := TClass (id : nat) (mark : bool) (base : option tclass) (tests : list (string * list fparam)).
(** getattr(testCaseClass, '__post_shutdown_test__', False) *)
Fixpoint marked (c : tclass) : bool :=
  let '(TClass _ m b _) := c in if m then true else match b with Some c' => marked c' | None => false end.
Definition class_tests (c : tclass) : list tmeth :=
  let '(TClass i _ _ ts) := c in map (fun nt => {| tm_class := i; tm_name := fst nt; tm_params := snd nt |}) ts.
(** loader.py:190-207; unittest's loadTestsFromModule, without the load_tests protocol. *)
Definition load_tests (post : bool) (cs : list tclass) : list tmeth :=
  concat (map (fun c => if Bool.eqb (marked c) post then class_tests c else []) cs).
(** 154-159 [_format_params]; [show] is python's [str]. *)
Context (show : V -> string).
Fixpoint comma_join (l : list string) : string :=
  match l with [] => "" | [x] => x | x :: l' => x ++ ", " ++ comma_join l' end.
Definition format_params (args : pdict) : string :=
  match args with [] => "" | _ => "[" ++ comma_join (map (fun kv => show (snd kv)) args) ++ "]" end.
Definition extend_name (args : pdict) (m : tmeth) : tmeth :=
  match args with [] => m | _ => {| tm_class := tm_class m; tm_name := tm_name m ++ format_params args; tm_params := tm_params m |} end.
(** 79-117 [TestRun.__init__] *)
Record lrun := { lr_name : string; lr_desc : desc; lr_args : pdict; lr_timeout : nat; lr_keep : bool; lr_pre : list tmeth; lr_post : list tmeth }.
Definition make_run (name : string) (cs : list tclass) (r : desc * pdict) : lrun :=
  {| lr_name := name ++ format_params (snd r); lr_desc := fst r; lr_args := snd r;
     lr_timeout := match da_timeout (attrs_of (fst r)) with Some n => n | None => 15 end;
     lr_keep := da_keep (attrs_of (fst r));
     lr_pre := map (extend_name (snd r)) (load_tests false cs);
     lr_post := map (extend_name (snd r)) (load_tests true cs) |}.
(** 162-180 [LoadTestsFromPythonModule] *)
Definition load_module (name : string) (d : desc) (cs : list tclass) : list lrun := map (make_run name cs) (runs d).

(** ** What tests are given *)
(** The objects of a run, as given before and after the shutdown. *)
Record given := { gv_service : V; gv_info : V; gv_output : V; gv_args : V; gv_info_after : V; gv_output_after : V }.
(** test_runner.py:81-127: the injected arguments. *)
Definition injected (post : bool) (g : given) (ctx args : pdict) : pdict :=
  dupdate (dupdate ctx args)
    (if post then [("proc_info", gv_info_after g); ("proc_output", gv_output_after g); ("test_args", gv_args g)]
     else [("launch_service", gv_service g); ("proc_info", gv_info g); ("proc_output", gv_output g); ("test_args", gv_args g)]).
(** loader.py:247-251 [_partially_bind_matching_args] *)
Definition matching (ps : list fparam) (ctx : pdict) : pdict :=
  List.filter (fun kv => existsb (String.eqb (fst kv)) (map fp_name ps)) ctx.
(** The values a test method (or setUp, tearDown, setUpClass, tearDownClass) is called with;
    [None]: a TypeError.  (A parameter [**kwargs] stays empty.) *)
Definition test_call (ps : list fparam) (ctx : pdict) : option pdict := bind_call ps false (matching ps ctx).
End values.
Arguments pdict : clear implicits.
Arguments fparam : clear implicits.
Arguments fnres : clear implicits.
Arguments func : clear implicits.
Arguments desc : clear implicits.
Arguments argval : clear implicits.
Arguments deco : clear implicits.
Arguments tmeth : clear implicits.
Arguments tclass : clear implicits.
Arguments lrun : clear implicits.
Arguments given : clear implicits.

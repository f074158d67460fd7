(** Model of the parse methods that the built-in actions expose (launch/launch/action.py and
    launch/launch/actions/*.py), as programs over entities. *)
From Verif Require Export Cmdline Frontend.

(** What a parse method returns: the class and its keyword arguments.  Lists of nested
    actions hold the constructed actions. *)
Inductive act := Act (cls : string) (kw : list (string * kval))
with kval :=
| KSubs (l : list subst)                       (* a parsed string *)
| KText (s : string)                           (* an unescaped string *)
| KTexts (l : list string)
| KVal (v : pv subst)                          (* a typed attribute *)
| KStrVal (v : pv subst)                       (* str() of a typed attribute *)
| KNorm (l : list (sum (pv subst) (list subst))) (islist : bool)  (* parse_if_substitutions *)
| KCmd (l : list (list subst))
| KPairs (l : list (list subst * list subst))
| KActs (l : list act)
| KIf (l : list subst)
| KUnless (l : list subst)
| KShutdown.

Section methods.
(** parse_substitution (the grammar), any function here. *)
Context (parse_sub : string -> res (list subst)).
Notation K := (string * list (string * kval))%type.
Notation P := (prog K act).
(** A computation within a method: what comes after it, as a function of its result.  An
    exception ends the method. *)
Definition M (X : Type) : Type := (X -> P) -> P.
Definition ret {X} (x : X) : M X := fun k => k x.
Definition bind {X Y} (m : M X) (f : X -> M Y) : M Y := fun k => m (fun x => f x k).
Notation "x <- m ; f" := (bind m (fun x => f)) (at level 100, m at next level, right associativity).
Definition lift {X} (r : res X) : M X :=
  fun k => match r with Ok x => k x | Exn e => Ret (Exn e) | OutOfFuel => Ret OutOfFuel end.
Definition raise {X} (e : exn) : M X := fun _ => Ret (Exn e).
Fixpoint mapM {X Y} (f : X -> M Y) (l : list X) : M (list Y) :=
  match l with
  | [] => ret []
  | x :: l' => y <- f x; ys <- mapM f l'; ret (y :: ys)
  end.
Definition attr (h : nat) (name : string) (t : rty) (opt cbs : bool) : M (option hgot) :=
  fun k => GetAttr h name t opt cbs (fun r => lift r k).
Definition children (h : nat) : M (list nat) := fun k => Children h (fun r => lift r k).
Definition type_is (h : nat) : M string := fun k => TypeName h k.
Definition assert_done (h : nat) : M unit := fun k => AssertDone h (fun r => lift r k).
Definition action (h : nat) : M act := fun k => ParseAction h (fun r => lift r k).
Definition tstr : rty := RVal (Some (DScalar TStr)).
(** get_attr(name) and get_attr(name, optional=True): strings. *)
Definition text (h : nat) (name : string) : M string :=
  v <- attr h name tstr false true; match v with Some (HVal (PStr s)) => ret s | _ => raise XType end.
Definition opt_text (h : nat) (name : string) : M (option string) :=
  v <- attr h name tstr true true;
  match v with Some (HVal (PStr s)) => ret (Some s) | None => ret None | _ => raise XType end.
(** get_attr(name, data_type=t, optional=True) *)
Definition opt_val (h : nat) (name : string) (t : sty) : M (option (pv subst)) :=
  v <- attr h name (RVal (Some (DScalar t))) true true;
  match v with Some (HVal x) => ret (Some x) | None => ret None | _ => raise XType end.
(** get_attr(name, data_type=List[Entity], optional=True) *)
Definition opt_ents (h : nat) (name : string) : M (option (list nat)) :=
  v <- attr h name REnts true true;
  match v with Some (HEnts l) => ret (Some l) | None => ret None | _ => raise XType end.
Definition subs (h : nat) (name : string) : M (list subst) := s <- text h name; lift (parse_sub s).
(** An optional attribute as keyword argument. *)
Definition opt_subs (h : nat) (name key : string) : M (list (string * kval)) :=
  v <- opt_text h name;
  match v with Some s => l <- lift (parse_sub s); ret [(key, KSubs l)] | None => ret [] end.
Definition opt_kval (h : nat) (name key : string) (t : sty) : M (list (string * kval)) :=
  v <- opt_val h name t; ret (match v with Some x => [(key, KVal x)] | None => [] end).
(** parse_if_substitutions, frontend/parse_substitution.py:117-150 *)
Definition parse_if1 (v : pv subst) : M (sum (pv subst) (list subst)) :=
  match v with
  | PStr s => l <- lift (parse_sub s); ret (match l with [SText t] => inl (PStr t) | _ => inr l end)
  | _ => ret (inl v)
  end.
Definition kind_of (x : sum (pv subst) (list subst)) : list (option sty) := match x with inl v => [type_of v] | inr _ => [] end.
Definition uniform (l : list (option sty)) : bool :=
  match l with [] => true | t :: l' => forallb (fun u => bool_decide (u = t)) l' end.
Definition parse_if (v : pv subst) : M kval :=
  match v with
  | PList l => ys <- mapM parse_if1 l; if uniform (flat_map kind_of ys) then ret (KNorm ys true) else raise XValue
  | _ => y <- parse_if1 v; ret (KNorm [y] false)
  end.

(** Action.parse, action.py:54-77 *)
Definition parse_base (h : nat) : M (list (string * kval)) :=
  i <- opt_text h "if"; u <- opt_text h "unless";
  match i, u with
  | Some _, Some _ => raise XRuntime
  | Some s, None => l <- lift (parse_sub s); ret [("condition"%string, KIf l)]
  | None, Some s => l <- lift (parse_sub s); ret [("condition"%string, KUnless l)]
  | None, None => ret []
  end.
(** The dictionary or list made from nested entities with name and value, checked or not. *)
Definition name_value (h : nat) : M (list subst * list subst) := n <- subs h "name"; v <- subs h "value"; ret (n, v).
Definition pairs (hs : list nat) : M (list (list subst * list subst)) :=
  l <- mapM name_value hs; _ <- mapM assert_done hs; ret l.
Definition opt_pairs (h : nat) (name key : string) : M (list (string * kval)) :=
  v <- opt_ents h name;
  match v with Some hs => l <- pairs hs; ret [(key, KPairs l)] | None => ret [] end.

(** ExecuteProcess.parse, actions/execute_process.py:304-417 (nothing ignored). *)
Definition negative (v : pv subst) : res bool :=
  match v with
  | PFloat (FFin q) => Ok (negb (Qle_bool 0 q))
  | PFloat (FInf true) => Ok true
  | PFloat _ => Ok false
  | PInt z => Ok (Z.ltb z 0)
  | PBool _ => Ok false
  | _ => Exn XType                              (* text compared with a number *)
  end.
Definition opt_seconds (h : nat) (name : string) (str : bool) : M (list (string * kval)) :=
  v <- opt_val h name TFloat;
  match v with
  | None => ret []
  | Some x => b <- lift (negative x); if b then raise XValue else ret [(name, if str then KStrVal x else KVal x)]
  end.
Definition parse_executable (h : nat) : M K :=
  base <- parse_base h;
  cmd <- subs h "cmd"; cmdl <- lift (parse_cmdline cmd);
  cwd <- opt_subs h "cwd" "cwd";
  name <- opt_subs h "name" "name";
  onx <- opt_text h "on_exit";
  onx' <- match onx with None => ret [] | Some s => if String.eqb s "shutdown" then ret [("on_exit"%string, KShutdown)] else raise XValue end;
  prefix <- opt_subs h "launch-prefix" "prefix";
  output <- opt_subs h "output" "output";
  respawn <- opt_subs h "respawn" "respawn";
  retries <- opt_kval h "respawn_max_retries" "respawn_max_retries" TInt;
  delay <- opt_seconds h "respawn_delay" false;
  sigkill <- opt_seconds h "sigkill_timeout" true;
  sigterm <- opt_seconds h "sigterm_timeout" true;
  shell <- opt_kval h "shell" "shell" TBool;
  tty <- opt_kval h "emulate_tty" "emulate_tty" TBool;
  env <- opt_pairs h "env" "additional_env";
  ret ("ExecuteProcess"%string, base ++ [("cmd"%string, KCmd cmdl)] ++ cwd ++ name ++ onx' ++ prefix ++ output ++ respawn ++ retries ++ delay ++ sigkill ++ sigterm ++ shell ++ tty ++ env).
(** Shutdown.parse, actions/shutdown_action.py:39-46 ([if reason:] also drops the empty text). *)
Definition parse_shutdown (h : nat) : M K :=
  base <- parse_base h; r <- opt_text h "reason";
  kw <- match r with
        | None => ret []
        | Some s => if String.eqb s "" then ret [] else l <- lift (parse_sub s); ret [("reason"%string, KSubs l)]
        end;
  ret ("Shutdown"%string, base ++ kw).
(** ResetEnvironment.parse, actions/reset_environment.py:38-42 *)
Definition parse_reset_env (h : nat) : M K := base <- parse_base h; ret ("ResetEnvironment"%string, base).
(** DeclareLaunchArgument.parse, actions/declare_launch_argument.py:161-181.  The entities of
    the choices are not checked for unread attributes. *)
Definition choice_value (g : nat) : M string := s <- text g "value"; ret (unescape s).
Definition parse_arg (h : nat) : M K :=
  base <- parse_base h;
  name <- text h "name";
  default <- opt_subs h "default" "default_value";
  descr <- opt_text h "description";
  choices <- opt_ents h "choice";
  ch <- match choices with
        | None => ret []
        | Some hs => l <- mapM choice_value hs; ret [("choices"%string, KTexts l)]
        end;
  ret ("DeclareLaunchArgument"%string,
       base ++ [("name"%string, KText (unescape name))] ++ default
       ++ match descr with Some d => [("description"%string, KText (unescape d))] | None => [] end ++ ch).
(** LogInfo.parse, actions/log_info.py:42-51 *)
Definition parse_log (h : nat) : M K :=
  base <- parse_base h; m <- subs h "message"; ret ("LogInfo"%string, base ++ [("msg"%string, KSubs m)]).
(** UnsetEnvironmentVariable.parse, actions/unset_environment_variable.py:43-52 *)
Definition parse_unset_env (h : nat) : M K :=
  base <- parse_base h; n <- subs h "name"; ret ("UnsetEnvironmentVariable"%string, base ++ [("name"%string, KSubs n)]).
(** ResetLaunchConfigurations.parse, actions/reset_launch_configurations.py:61-73 *)
Definition parse_reset (h : nat) : M K :=
  base <- parse_base h; ks <- opt_pairs h "keep" "launch_configurations"; ret ("ResetLaunchConfigurations"%string, base ++ ks).
(** IncludeLaunchDescription.parse, actions/include_launch_description.py:84-101 *)
Definition parse_include (h : nat) : M K :=
  base <- parse_base h; f <- subs h "file"; args <- opt_pairs h "arg" "launch_arguments";
  ret ("IncludeLaunchDescription"%string, base ++ [("launch_description_source"%string, KSubs f)] ++ args).
(** AppendEnvironmentVariable.parse, actions/append_environment_variable.py:70-86 *)
Definition parse_append_env (h : nat) : M K :=
  base <- parse_base h; n <- subs h "name"; v <- subs h "value";
  p <- opt_val h "prepend" TBool;
  p' <- match p with None => ret [] | Some x => y <- parse_if x; ret [("prepend"%string, y)] end;
  sep <- opt_subs h "separator" "separator";
  ret ("AppendEnvironmentVariable"%string, base ++ [("name"%string, KSubs n); ("value"%string, KSubs v)] ++ p' ++ sep).
(** SetEnvironmentVariable.parse, actions/set_environment_variable.py:45-55 *)
Definition parse_set_env (h : nat) : M K :=
  base <- parse_base h; n <- subs h "name"; v <- subs h "value";
  ret ("SetEnvironmentVariable"%string, base ++ [("name"%string, KSubs n); ("value"%string, KSubs v)]).
(** GroupAction.parse, actions/group_action.py:88-108 *)
Fixpoint not_keep (hs : list nat) : M (list act) :=
  match hs with
  | [] => ret []
  | g :: hs' => t <- type_is g; if String.eqb t "keep" then not_keep hs' else a <- action g; l <- not_keep hs'; ret (a :: l)
  end.
Definition parse_group (h : nat) : M K :=
  base <- parse_base h;
  scoped <- opt_kval h "scoped" "scoped" TBool;
  fwd <- opt_kval h "forwarding" "forwarding" TBool;
  ks <- opt_pairs h "keep" "launch_configurations";
  hs <- children h; acts <- not_keep hs;
  ret ("GroupAction"%string, base ++ scoped ++ fwd ++ ks ++ [("actions"%string, KActs acts)]).
(** TimerAction.parse, actions/timer_action.py:103-118 *)
Definition parse_timer (h : nat) : M K :=
  base <- parse_base h;
  p <- attr h "period" (RVal (Some (DScalar TFloat))) false true;
  p' <- match p with Some (HVal x) => parse_if x | _ => raise XType end;
  hs <- children h; acts <- mapM action hs;
  c <- opt_val h "cancel_on_shutdown" TBool;
  c' <- match c with None => ret [] | Some x => y <- parse_if x; ret [("cancel_on_shutdown"%string, y)] end;
  ret ("TimerAction"%string, base ++ [("period"%string, p'); ("actions"%string, KActs acts)] ++ c').
(** SetLaunchConfiguration.parse, actions/set_launch_configuration.py:51-59 *)
Definition parse_let (h : nat) : M K :=
  n <- subs h "name"; v <- subs h "value"; base <- parse_base h;
  ret ("SetLaunchConfiguration"%string, base ++ [("name"%string, KSubs n); ("value"%string, KSubs v)]).

(** The table, from the expose_action decorators. *)
Definition table : list (string * (nat -> M K)) :=
  [("executable"%string, parse_executable); ("shutdown"%string, parse_shutdown); ("reset_env"%string, parse_reset_env); ("arg"%string, parse_arg);
   ("log"%string, parse_log); ("unset_env"%string, parse_unset_env); ("reset"%string, parse_reset); ("include"%string, parse_include);
   ("append_env"%string, parse_append_env); ("set_env"%string, parse_set_env); ("group"%string, parse_group); ("timer"%string, parse_timer); ("let"%string, parse_let)].
Definition builtin (tag : string) : option (nat -> P) :=
  match assoc tag table with Some m => Some (fun h => m h (fun x => Ret (Ok x))) | None => None end.
End methods.

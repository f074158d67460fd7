(** Model of the checks of argument types, utilities/ensure_argument_type_impl.py, and of the
    constructors that use them: TimerAction, OpaqueFunction, OpaqueCoroutine; and of what the last two
    call. *)
From Verif Require Export TypeUtils.

Section checked.
(** [Sb]: Substitution objects. *)
Context {Sb : Type}.
(** Python values.  [VSubClass]: a class that is derived from Substitution, not an object of it;
    [VIterator]: something that can be iterated once, like a generator; [VOther]: anything else that
    cannot be called or iterated. *)
Inductive pyval :=
| VNone | VBool (b : bool) | VInt (z : Z) | VFloat (f : pyfloat) | VStr (s : string) | VSub (x : Sb) | VSubClass
| VList (l : list pyval) | VTuple (l : list pyval) | VIterator (l : list pyval) | VDict (l : list (pyval * pyval))
| VFunction (coroutine : bool) | VOther.
Inductive pyclass := CNone | CBool | CInt | CFloat | CStr | CSub | CType | CList | CTuple | CIterator | CDict | CFunction | COther | CIterable.
(** v.__class__ *)
Definition class_of (v : pyval) : pyclass :=
  match v with
  | VNone => CNone | VBool _ => CBool | VInt _ => CInt | VFloat _ => CFloat | VStr _ => CStr | VSub _ => CSub | VSubClass => CType
  | VList _ => CList | VTuple _ => CTuple | VIterator _ => CIterator | VDict _ => CDict | VFunction _ => CFunction | VOther => COther
  end.
(** issubclass, for the classes above; collections.abc.Iterable has those that can be iterated. *)
Definition issubclass (c d : pyclass) : bool :=
  match c, d with
  | CNone, CNone | CBool, CBool | CBool, CInt | CInt, CInt | CFloat, CFloat | CStr, CStr | CSub, CSub | CType, CType | CList, CList
  | CTuple, CTuple | CIterator, CIterator | CDict, CDict | CFunction, CFunction | COther, COther
  | CStr, CIterable | CList, CIterable | CTuple, CIterable | CIterator, CIterable | CDict, CIterable | CIterable, CIterable => true
  | _, _ => false
  end.
(** isinstance *)
Definition isinstance (v : pyval) (c : pyclass) : bool := issubclass (class_of v) c.
(** ensure_argument_type_impl.py:61-66 *)
Definition check_argument (v : pyval) (c : pyclass) : bool := isinstance v c || issubclass (class_of v) c.
(** 26-79.  The checks of its own other arguments (40-59) cannot fail where it is used. *)
Definition ensure_argument_type (v : pyval) (types : list pyclass) : res unit :=
  if existsb (check_argument v) types then Ok tt else Exn XType.

(** What iterating over a value gives, and what it is afterwards. *)
Definition iteration (v : pyval) : list pyval :=
  match v with
  | VStr s => map (fun c => VStr (String c "")) (list_ascii_of_string s)
  | VList l | VTuple l | VIterator l => l
  | VDict l => map fst l
  | _ => []
  end.
Definition iterated (v : pyval) : pyval := match v with VIterator _ => VIterator [] | _ => v end.

(** The value as type_utils.py sees it: tuples and dictionaries are iterated like lists; what has no
    len() makes is_substitution raise a TypeError (type_utils.py:366-374), like what it does not know. *)
Definition scalar_pv (v : pyval) : pv Sb :=
  match v with
  | VBool b => PBool b | VInt z => PInt z | VFloat f => PFloat f | VStr s => PStr s | VSub x => PSub x | _ => POther 0
  end.
Fixpoint to_pv (v : pyval) : pv Sb :=
  match v with
  | VList l | VTuple l => PList (map to_pv l)
  | VDict l => PList (map (fun kv => to_pv (fst kv)) l)
  | _ => scalar_pv v
  end.

(** TimerAction.__init__, actions/timer_action.py:58-92: what it keeps of period and
    cancel_on_shutdown.  SomeSubstitutionsType_types_tuple: some_substitutions_type.py:30-34. *)
Section timer.
Context (text : string -> Sb).
Definition timer_init (period actions cancel : pyval) : res (pv Sb * pv Sb) :=
  res_bind (ensure_argument_type period [CStr; CSub; CIterable; CFloat]) (fun _ =>
  res_bind (ensure_argument_type actions [CIterable]) (fun _ =>
  res_bind (match period with
            | VStr s => match py_float s with Some f => Ok (VFloat f) | None => Exn XValue end
            | _ => Ok period
            end) (fun period =>
  res_bind (normalize_typed_substitution text (to_pv period) (Some (DScalar TFloat))) (fun p =>
  res_bind (normalize_typed_substitution text (to_pv cancel) (Some (DScalar TBool))) (fun c => Ok (p, c)))))).
End timer.

(** normalize_to_list_of_substitutions, utilities/normalize_to_list_of_substitutions_impl.py:26-44;
    is_a_subclass, utilities/class_tools_impl.py:20-41, holds of classes, too. *)
Section normalize.
Context (text : string -> Sb).
Fixpoint normalize_each (l : list pyval) : res (list pyval) :=
  match l with
  | [] => Ok []
  | VSub x :: l => res_bind (normalize_each l) (fun r => Ok (VSub x :: r))
  | VStr s :: l => res_bind (normalize_each l) (fun r => Ok (VSub (text s) :: r))
  | _ => Exn XType
  end.
Definition is_a_subclass_sub (v : pyval) : bool := isinstance v CSub || match v with VSubClass => true | _ => false end.
Definition normalize_subs (v : pyval) : res (list pyval) :=
  match v with
  | VStr s => Ok [VSub (text s)]
  | _ => if is_a_subclass_sub v then Ok [v]
         else if isinstance v CIterable then normalize_each (iteration v)
         else Exn XType        (* iterating over what cannot be iterated *)
  end.
End normalize.

(** What the two actions keep. *)
Record opaque := { o_context : bool; o_args : pyval; o_kwargs : list (pyval * pyval) }.
(** callable() *)
Definition callable (v : pyval) : bool := match v with VFunction _ | VSubClass => true | _ => false end.
Definition opaque_keeps (context : bool) (args kwargs : pyval) : opaque :=
  {| o_context := context; o_args := match args with VNone => VList [] | _ => args end;
     o_kwargs := match kwargs with VDict l => l | _ => [] end |}.
(** OpaqueFunction.__init__, actions/opaque_function.py:49-70 *)
Definition opaque_function_init (function args kwargs : pyval) : res opaque :=
  if callable function then
    res_bind (ensure_argument_type args [CIterable; CNone]) (fun _ =>
    res_bind (ensure_argument_type kwargs [CDict; CNone]) (fun _ => Ok (opaque_keeps true args kwargs)))
  else Exn XType.
(** OpaqueCoroutine.__init__, actions/opaque_coroutine.py:65-94 *)
Definition opaque_coroutine_init (coroutine args kwargs ignore_context : pyval) : res opaque :=
  match coroutine with
  | VFunction true =>
      res_bind (ensure_argument_type args [CIterable; CNone]) (fun _ =>
      res_bind (ensure_argument_type kwargs [CDict; CNone]) (fun _ =>
      res_bind (ensure_argument_type ignore_context [CBool]) (fun _ =>
        Ok (opaque_keeps (match ignore_context with VBool b => negb b | _ => true end) args kwargs))))
  | _ => Exn XType
  end.
(** A call: whether the context comes first, the other arguments, the arguments with names. *)
Record call := { c_context : bool; c_args : list pyval; c_kwargs : list (string * pyval) }.
(** **kwargs: the keys have to be text. *)
Fixpoint keywords (l : list (pyval * pyval)) : res (list (string * pyval)) :=
  match l with
  | [] => Ok []
  | (VStr n, v) :: l => res_bind (keywords l) (fun l => Ok ((n, v) :: l))
  | _ => Exn XType
  end.
(** execute: opaque_function.py:72-74, opaque_coroutine.py:102-108.  The arguments are iterated first. *)
Definition opaque_execute (o : opaque) : res call * opaque :=
  (res_bind (keywords (o_kwargs o)) (fun k => Ok {| c_context := o_context o; c_args := iteration (o_args o); c_kwargs := k |}),
   {| o_context := o_context o; o_args := iterated (o_args o); o_kwargs := o_kwargs o |}).
(** Executed again and again, for instance as the action of an event handler. *)
Fixpoint opaque_executions (n : nat) (o : opaque) : list (res call) :=
  match n with 0 => [] | S n => let '(r, o) := opaque_execute o in r :: opaque_executions n o end.
End checked.
Arguments pyval Sb : clear implicits.
Arguments opaque Sb : clear implicits.
Arguments call Sb : clear implicits.

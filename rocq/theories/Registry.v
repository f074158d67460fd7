(** Model of the registry of parsing methods (launch/launch/frontend/expose.py:33-132) and of the
    loading of extensions (launch/launch/frontend/parser.py:72-91). *)
From Verif Require Export Base.

Inductive kind := KAction | KSubst.
(** What can be decorated: a class, with an attribute called parse that is a bound method (of the
    class) or not; a function; anything else. *)
Inductive thing := TClass (parse : option bool) | TFunction | TOther.
(** A decorated object: the module that made it and a number.  Methods of equal objects are
    equal, those of different objects are not (expose.py:94, as for bound methods). *)
Definition obj := (nat * nat)%type.
(** What the dictionaries hold: the method of an object itself, or a wrapper around it. *)
Inductive entry := EMethod (o : obj) | EWrapped (o : obj).
Record registry := { r_actions : gmap string entry; r_substs : gmap string entry }.
Definition r_empty : registry := {| r_actions := ∅; r_substs := ∅ |}.
Definition r_map (k : kind) (r : registry) : gmap string entry := match k with KAction => r_actions r | KSubst => r_substs r end.
Definition r_put (k : kind) (n : string) (e : entry) (r : registry) : registry :=
  match k with
  | KAction => {| r_actions := <[n := e]> (r_actions r); r_substs := r_substs r |}
  | KSubst => {| r_actions := r_actions r; r_substs := <[n := e]> (r_substs r) |}
  end.
(** 81-91: is a parsing method found?  It is always true as a condition. *)
Definition found_method (t : thing) : res bool :=
  match t with
  | TClass (Some true) => Ok true
  | TClass _ => Exn XRuntime
  | TFunction => Ok true
  | TOther => Ok false
  end.
(** 94: [found_parse_method == parse_methods_map[name]]; a wrapper is another function. *)
Definition same_method (o : obj) (e : entry) : bool := match e with EMethod o' => bool_decide (o = o') | EWrapped _ => false end.
(** 57-113 [__expose_impl] *)
Definition expose (k : kind) (n : string) (o : obj) (t : thing) (r : registry) : registry * res unit :=
  match found_method t with
  | Ok true =>
      match r_map k r !! n with
      | Some e => if same_method o e then (r_put k n (match k with KAction => EWrapped o | KSubst => EMethod o end) r, Ok tt) else (r, Exn XRuntime)
      | None => (r_put k n (match k with KAction => EWrapped o | KSubst => EMethod o end) r, Ok tt)
      end
  | _ => (r, Exn XRuntime)
  end.
(** 37-54: the object whose method instantiate_action and instantiate_substitution call. *)
Definition called (k : kind) (n : string) (r : registry) : res obj :=
  match r_map k r !! n with None => Exn XRuntime | Some (EMethod o | EWrapped o) => Ok o end.
(** Any number of uses of the decorators, whatever becomes of their exceptions. *)
Definition exposure := (kind * string * obj * thing)%type.
Definition expose_all (l : list exposure) (r : registry) : registry :=
  fold_left (fun r x => let '(k, n, o, t) := x in (expose k n o t r).1) l r.

(** ** Extensions *)
(** A module that an entry point names: its decorated objects in order, and whether the rest of
    it can be imported.  Every attempt to import it makes new objects. *)
Record ext := { x_module : nat; x_body : list (kind * string * thing); x_ok : bool }.
(** [l_loaded]: the parser classes whose extensions_loaded is set; 0 is [Parser], the base of all
    others, whose attribute they inherit. *)
Record loader := { l_reg : registry; l_next : nat; l_modules : list nat; l_warned : list nat; l_loaded : list nat }.
Fixpoint import_body (m : nat) (body : list (kind * string * thing)) (r : registry) (next : nat) : registry * nat * bool :=
  match body with
  | [] => (r, next, true)
  | (k, n, t) :: body' =>
      match expose k n (m, next) t r with
      | (r', Ok _) => import_body m body' r' (S next)
      | (r', _) => (r', S next, false)
      end
  end.
(** 82-86: a module that was imported is not run again; a failure is a warning. *)
Definition import_ext (s : loader) (e : ext) : loader :=
  if existsb (Nat.eqb (x_module e)) (l_modules s) then s
  else
    let '(r, next, ok) := import_body (x_module e) (x_body e) (l_reg s) (l_next s) in
    if ok && x_ok e
    then {| l_reg := r; l_next := next; l_modules := x_module e :: l_modules s; l_warned := l_warned s; l_loaded := l_loaded s |}
    else {| l_reg := r; l_next := next; l_modules := l_modules s; l_warned := x_module e :: l_warned s; l_loaded := l_loaded s |}.
(** 75-91 [load_launch_extensions] for the class [c] *)
Definition load_extensions (exts : list ext) (s : loader) (c : nat) : loader :=
  if existsb (fun d => Nat.eqb d c || Nat.eqb d 0) (l_loaded s) then s
  else
    let s := fold_left import_ext exts s in
    {| l_reg := l_reg s; l_next := l_next s; l_modules := l_modules s; l_warned := l_warned s; l_loaded := c :: l_loaded s |}.

(** Performing substitutions and evaluating conditions.
    launch/launch/substitutions/, launch/launch/conditions/,
    utilities/perform_substitutions_impl.py. *)
From Verif Require Export Context.

(** Sequencing of python statements that may raise. *)
Definition bindS {S A B} (m : S -> S * res A) (f : A -> S -> S * res B) (s : S) : S * res B :=
  match m s with
  | (s', Ok a) => f a s'
  | (s', Exn e) => (s', Exn e)
  | (s', OutOfFuel) => (s', OutOfFuel)
  end.
Definition retS {S A} (a : A) (s : S) : S * res A := (s, Ok a).
Definition raiseS {S A} (e : exn) (s : S) : S * res A := (s, Exn e).
Definition liftS {S A} (r : res A) (s : S) : S * res A := (s, r).
Definition modS {S} (f : S -> S) (s : S) : S * res unit := (f s, Ok tt).
(** [try: m except (TypeError, ValueError): raise SubstitutionFailure] *)
Definition as_failure {S A} (m : S -> S * res A) (s : S) : S * res A :=
  match m s with
  | (s', Exn e) => (s', Exn (if is_type_or_value_error e then XSubst else e))
  | r => r
  end.

Declare Scope st_scope.
Delimit Scope st_scope with st.
Notation "x <-- m ;; k" := (bindS m (fun x => k))
  (at level 100, m at next level, right associativity) : st_scope.
Notation "m ;;; k" := (bindS m (fun _ => k))
  (at level 100, right associativity) : st_scope.
Open Scope st_scope.

(** posixpath.join on a non-empty list *)
Fixpoint path_join (path : string) (l : list string) : string :=
  match l with
  | [] => path
  | b :: l' =>
      path_join (if starts_with "/" b then b
                 else if String.eqb path "" || ends_with "/" path then (path ++ b)%string
                 else (path ++ "/" ++ b)%string) l'
  end.

(** equals_substitution.py:36-41 *)
Definition str_true (s : string) : bool := String.eqb (lower s) "true" || String.eqb (lower s) "1".
Definition str_is_bool (s : string) : bool :=
  str_true s || String.eqb (lower s) "false" || String.eqb (lower s) "0".
(** equals_substitution.py:122-130 *)
Definition equals_result (l r : string) : bool :=
  if str_is_bool l && str_is_bool r then Bool.eqb (str_true l) (str_true r)
  else match py_float l, py_float r with
       | Some a, Some b => isclose a b
       | _, _ => String.eqb l r
       end.

(** bool() of the value returned by perform_typed_substitution(_, bool) *)
Definition pv_bool {S} (v : pv S) : res bool :=
  match v with PBool b => Ok b | _ => Exn XType end.
Definition coerce_bool (w : world) (t : string) : res bool :=
  res_bind (coerce_to_type (w_yaml w) false t (Some (DScalar TBool))) pv_bool.
Definition coerce_float (w : world) (t : string) : res pyfloat :=
  res_bind (coerce_to_type (w_yaml w) false t (Some (DScalar TFloat)))
           (fun v => match v with PFloat f => Ok f | _ => Exn XType end).

(** a value of context.locals used as text: ''.join fails on anything but str *)
Definition local_text (v : lval) : res string :=
  match v with LStr s => Ok s | _ => Exn XType end.

Section perform.
Context (w : world).

(** Substitution.perform for every modelled class. *)
Fixpoint perform (x : subst) (c : ctx) {struct x} : ctx * res string :=
  let performs := fix performs (l : list subst) : ctx -> ctx * res string :=
    match l with
    | [] => retS ""
    | y :: l' => a <-- perform y ;; b <-- performs l' ;; retS (a ++ b)%string
    end in
  let perform_bool (l : list subst) : ctx -> ctx * res bool :=
    as_failure (t <-- performs l ;; liftS (coerce_bool w t)) in
  match x with
  | SText s => (c, Ok s)
  | SLaunchConfig name default =>           (* launch_configuration.py:87-102 *)
      (n <-- performs name ;;
       fun c => match lc c !! n with
                | Some v => (c, Ok v)
                | None => match default with
                          | None => (c, Exn XSubst)
                          | Some d => performs d c
                          end
                end) c
  | SEnvVar name default =>                 (* environment_variable.py:88-103 *)
      (d <-- (match default with
              | None => retS None
              | Some d => v <-- performs d ;; retS (Some v)
              end) ;;
       n <-- performs name ;;
       fun c => match env c !! n, d with
                | Some v, _ => (c, Ok v)
                | None, Some v => (c, Ok v)
                | None, None => (c, Exn XSubst)
                end) c
  | SNot v =>                               (* boolean_substitution.py:57-64 *)
      (b <-- perform_bool v ;; retS (bool_str (negb b))) c
  | SAnd l r =>                             (* boolean_substitution.py:99-110 *)
      (a <-- perform_bool l ;; b <-- perform_bool r ;; retS (bool_str (a && b))) c
  | SOr l r =>                              (* boolean_substitution.py:145-156 *)
      (a <-- perform_bool l ;; b <-- perform_bool r ;; retS (bool_str (a || b))) c
  | SAny args =>                            (* boolean_substitution.py:191-201 *)
      (bs <-- (fix go (l : list (list subst)) : ctx -> ctx * res (list bool) :=
                match l with
                | [] => retS []
                | a :: l' => b <-- perform_bool a ;; bs <-- go l' ;; retS (b :: bs)
                end) args ;;
       retS (bool_str (existsb (fun b => b) bs))) c
  | SAll args =>                            (* boolean_substitution.py:237-247 *)
      (bs <-- (fix go (l : list (list subst)) : ctx -> ctx * res (list bool) :=
                match l with
                | [] => retS []
                | a :: l' => b <-- perform_bool a ;; bs <-- go l' ;; retS (b :: bs)
                end) args ;;
       retS (bool_str (forallb (fun b => b) bs))) c
  | SEquals l r =>                          (* equals_substitution.py:117-130 *)
      (a <-- performs l ;; b <-- performs r ;; retS (bool_str (equals_result a b))) c
  | SNotEquals l r =>                       (* not_equals_substitution.py:48-50 *)
      (a <-- performs l ;; b <-- performs r ;;
       retS (bool_str (negb (String.eqb (bool_str (equals_result a b)) "true")))) c
  | SIfElse cnd i e =>                      (* if_else_substitution.py:107-117 *)
      (b <-- perform_bool cnd ;; if (b : bool) then performs i else performs e) c
  | SAnonName name =>                       (* anon_name.py:59-78 *)
      (n <-- performs name ;;
       fun c => let k := ("anon" ++ n)%string in
                match lc c !! k with
                | Some v => (c, Ok v)
                | None => let v := w_rand w n (nonce c) in
                          (set_lc k v (c <| nonce ::= S |>), Ok v)
                end) c
  | SPathJoin l =>                          (* path_join_substitution.py:43-46 *)
      (ps <-- (fix go (l : list subst) : ctx -> ctx * res (list string) :=
                match l with
                | [] => retS []
                | y :: l' => a <-- perform y ;; r <-- go l' ;; retS (a :: r)
                end) l ;;
       match ps with
       | [] => raiseS XType
       | p :: r => retS (path_join p r)
       end) c
  | SThisFile =>                            (* this_launch_file.py:46-59 *)
      (fun c => let '(c', d) := get_combined_locals c in
                match d !! "current_launch_file_path" with
                | None => (c', Exn XSubst)
                | Some v => (c', local_text v)
                end) c
  | SThisDir =>                             (* this_launch_file_dir.py:46-59 *)
      (fun c => let '(c', d) := get_combined_locals c in
                match d !! "current_launch_file_directory" with
                | None => (c', Exn XSubst)
                | Some v => (c', local_text v)
                end) c
  | SLocal k =>                             (* local_substitution.py:52-54 *)
      (v <-- get_local k ;; liftS (local_text v)) c
  | SFun f args =>
      (ts <-- (fix go (l : list (list subst)) : ctx -> ctx * res (list string) :=
                match l with
                | [] => retS []
                | a :: l' => t <-- performs a ;; ts <-- go l' ;; retS (t :: ts)
                end) args ;;
       fun c => (c <| nonce ::= S |>, w_sfun w f ts c)) c
  end.

(** perform_substitutions, perform_substitutions_impl.py:24-26 *)
Fixpoint perform_substitutions (l : list subst) : ctx -> ctx * res string :=
  match l with
  | [] => retS ""
  | y :: l' => a <-- perform y ;; b <-- perform_substitutions l' ;; retS (a ++ b)%string
  end.

(** [[perform_substitutions(context, x) for x in l]] *)
Fixpoint perform_list (l : list (list subst)) : ctx -> ctx * res (list string) :=
  match l with
  | [] => retS []
  | a :: l' => t <-- perform_substitutions a ;; ts <-- perform_list l' ;; retS (t :: ts)
  end.

(** perform_typed_substitution(context, v, bool) for normalised values,
    type_utils.py:522-586; see [perform_bval_spec] in SubstFacts.v. *)
Definition perform_bval (v : bval) : ctx -> ctx * res bool :=
  match v with
  | BV b => retS b
  | BS l => t <-- perform_substitutions l ;; liftS (coerce_bool w t)
  end.

(** Sum of python floats; rounding is not modelled. *)
Definition fadd (a b : pyfloat) : pyfloat :=
  match a, b with
  | FNan, _ | _, FNan => FNan
  | FInf x, FInf y => if Bool.eqb x y then FInf x else FNan
  | FInf x, _ | _, FInf x => FInf x
  | FFin p, FFin q => FFin (Qred (p + q)%Q)
  end.

(** perform_typed_substitution(context, v, float) *)
Definition perform_fval (v : fval) : ctx -> ctx * res pyfloat :=
  match v with
  | FV f => retS f
  | FS l => t <-- perform_substitutions l ;; liftS (coerce_float w t)
  | FSum a b =>
      ta <-- perform_substitutions a ;; tb <-- perform_substitutions b ;;
      match py_float ta, py_float tb with
      | Some x, Some y => retS (fadd x y)
      | _, _ => raiseS XValue
      end
  end.

(** evaluate_condition_expression, evaluate_condition_expression_impl.py:29-48 *)
Definition evaluate_expression_text (t : string) : res bool :=
  let t' := lower (strip t) in
  if String.eqb t' "true" || String.eqb t' "1" then Ok true
  else if String.eqb t' "false" || String.eqb t' "0" then Ok false
  else Exn XCond.
Definition evaluate_condition_expression (l : list subst) : ctx -> ctx * res bool :=
  t <-- perform_substitutions l ;; liftS (evaluate_expression_text t).

(** launch_configuration_equals.py:71-81 *)
Definition lc_equals (n : string) (e : option (list subst)) : ctx -> ctx * res bool :=
  x <-- (match e with
         | None => retS None
         | Some l => v <-- perform_substitutions l ;; retS (Some v)
         end) ;;
  fun c => (c, Ok (match lc c !! n, x with
                   | Some v, Some v' => String.eqb v v'
                   | Some _, None => false
                   | None, None => true
                   | None, Some _ => false
                   end)).

(** Condition.evaluate: condition.py:41-45, if_condition.py, unless_condition.py,
    launch_configuration_not_equals.py:51-52 *)
Definition evaluate (k : cond) : ctx -> ctx * res bool :=
  match k with
  | CIf l => evaluate_condition_expression l
  | CUnless l => b <-- evaluate_condition_expression l ;; retS (negb b)
  | CLCEquals n e => lc_equals n e
  | CLCNotEquals n e => b <-- lc_equals n e ;; retS (negb b)
  | CFun n => fun c => (c <| nonce ::= S |>, Ok (w_cond w n c))
  end.
End perform.

(** Base definitions shared by all models: python exceptions as values, and the
    string functions of python that the modelled code calls.

    Text is Coq's [string] (a sequence of 8-bit characters).  Simplification:
    python text is a sequence of Unicode code points; the functions below agree
    with python on ASCII text, and every theorem about text is about these
    functions. *)
From Coq Require Export String Ascii.
From stdpp Require Export base list strings gmap.

(** Kinds of python exception raised by the modelled code.  [XUser n] stands for
    any exception raised by a user-supplied callable. *)
Inductive exn :=
| XSubst        (* launch/launch/substitutions/substitution_failure.py:18, a RuntimeError *)
| XCond         (* launch/launch/conditions/invalid_condition_expression_error.py, a ValueError *)
| XRuntime      (* RuntimeError *)
| XType         (* TypeError *)
| XValue        (* ValueError *)
| XKey          (* KeyError *)
| XAttr         (* AttributeError *)
| XIndex        (* IndexError *)
| XInvalidState (* asyncio.InvalidStateError *)
| XUser (n : nat).

Global Instance exn_eq_dec : EqDecision exn.
Proof. solve_decision. Defined.

(** Outcome of a python call: a value, an exception, or the model ran out of
    fuel (no python counterpart; excluded in every theorem). *)
Inductive res (A : Type) :=
| Ok (a : A)
| Exn (e : exn)
| OutOfFuel.
Arguments Ok {A} a.
Arguments Exn {A} e.
Arguments OutOfFuel {A}.

Definition res_bind {A B} (r : res A) (f : A -> res B) : res B :=
  match r with Ok a => f a | Exn e => Exn e | OutOfFuel => OutOfFuel end.

(** [except (TypeError, ValueError)]: InvalidConditionExpressionError is a ValueError. *)
Definition is_type_or_value_error (e : exn) : bool :=
  match e with XType | XValue | XCond => true | _ => false end.

(** Dictionaries with text keys.  Python dicts also remember insertion order;
    where the order is observable the model uses association lists instead. *)
Notation dict := (gmap string).

(** ** Strings *)

(** python str.isspace on one ASCII character (space, \t \n \v \f \r, 0x1c-0x1f). *)
Definition is_space (c : ascii) : bool :=
  let n := nat_of_ascii c in
  (n =? 32)%nat || ((9 <=? n)%nat && (n <=? 13)%nat) || ((28 <=? n)%nat && (n <=? 31)%nat).

(** str.lower on one ASCII character. *)
Definition lower_ascii (c : ascii) : ascii :=
  let n := nat_of_ascii c in
  if (65 <=? n)%nat && (n <=? 90)%nat then ascii_of_nat (n + 32) else c.

(** str.lower *)
Fixpoint lower (s : string) : string :=
  match s with
  | EmptyString => EmptyString
  | String c s' => String (lower_ascii c) (lower s')
  end.

(** str.lstrip *)
Fixpoint lstrip (s : string) : string :=
  match s with
  | EmptyString => EmptyString
  | String c s' => if is_space c then lstrip s' else s
  end.

(** str.rstrip *)
Fixpoint rstrip (s : string) : string :=
  match s with
  | EmptyString => EmptyString
  | String c s' =>
      match rstrip s' with
      | EmptyString => if is_space c then EmptyString else String c EmptyString
      | r => String c r
      end
  end.

(** str.strip *)
Definition strip (s : string) : string := rstrip (lstrip s).

(** str.startswith *)
Fixpoint starts_with (pre s : string) : bool :=
  match pre, s with
  | EmptyString, _ => true
  | String a p', String b s' => if Ascii.eqb a b then starts_with p' s' else false
  | String _ _, EmptyString => false
  end.

(** [sub in s] *)
Fixpoint contains (sub s : string) : bool :=
  starts_with sub s ||
  match s with EmptyString => false | String _ s' => contains sub s' end.

(** [s[n:]] *)
Fixpoint drop_str (n : nat) (s : string) : string :=
  match n, s with
  | O, _ => s
  | S n', String _ s' => drop_str n' s'
  | S _, EmptyString => EmptyString
  end.

(** [s[:n]] *)
Fixpoint take_str (n : nat) (s : string) : string :=
  match n, s with
  | O, _ => EmptyString
  | S n', String c s' => String c (take_str n' s')
  | S _, EmptyString => EmptyString
  end.

(** str.endswith *)
Definition ends_with (suf s : string) : bool :=
  if (String.length suf <=? String.length s)%nat
  then String.eqb (drop_str (String.length s - String.length suf) s) suf
  else false.

(** [''.join(l)] *)
Fixpoint concat_str (l : list string) : string :=
  match l with
  | [] => ""
  | x :: l' => (x ++ concat_str l')%string
  end.

(** [sep.join(l)] *)
Fixpoint join (sep : string) (l : list string) : string :=
  match l with
  | [] => ""
  | [x] => x
  | x :: l' => (x ++ sep ++ join sep l')%string
  end.

(** [s.replace(a, b)] for single characters *)
Fixpoint replace_char (a b : ascii) (s : string) : string :=
  match s with
  | EmptyString => EmptyString
  | String c s' => String (if Ascii.eqb c a then b else c) (replace_char a b s')
  end.

(** [str(b).lower()] *)
Definition bool_str (b : bool) : string := if b then "true" else "false".

Definition nl : ascii := "010"%char.

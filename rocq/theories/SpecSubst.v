(** Specifications used by the theorems about substitutions, conditions and typed
    values (C37-C42, C48). *)
From Coq Require Import QArith Qabs Qminmax.
From Verif Require Export Subst SpecContext.

(** ** Condition expressions *)
Definition all_space (s : string) : Prop := Forall (fun c => is_space c = true) (list_ascii_of_string s).
(** [c] and [d] are the same character up to ASCII case ([d] lower case). *)
Definition ci_char (c d : ascii) : Prop :=
  c = d \/ (65 <= nat_of_ascii c <= 90 /\ nat_of_ascii d = nat_of_ascii c + 32)%nat.
Definition ci_equal (s t : string) : Prop :=
  Forall2 ci_char (list_ascii_of_string s) (list_ascii_of_string t).
Definition words (b : bool) : list string := if b then ["true"; "1"] else ["false"; "0"].
(** [t] is one of the accepted words, in any case, surrounded by white space. *)
Definition denotes (t : string) (b : bool) : Prop :=
  exists pre core post x, t = (pre ++ core ++ post)%string /\ all_space pre /\ all_space post
    /\ In x (words b) /\ ci_equal core x.

(** ** Operands of boolean substitutions *)
(** The text [t] is read by launch as the boolean [b]: '1' and '0' are allowed, and
    whatever YAML reads as that boolean. *)
Definition bool_text (w : world) (t : string) (b : bool) : Prop :=
  if String.eqb t "1" then w_yaml w "true" = Some (PBool b)
  else if String.eqb t "0" then w_yaml w "false" = Some (PBool b)
  else t <> "" /\ w_yaml w t = Some (PBool b).
(** Performing operand [l] in [c] leaves [c'] and gives a text that denotes [b]. *)
Definition operand (w : world) (l : list subst) (c c' : ctx) (b : bool) : Prop :=
  exists t, perform_substitutions w l c = (c', Ok t) /\ bool_text w t b.
Inductive operands (w : world) : list (list subst) -> ctx -> ctx -> list bool -> Prop :=
| operands_nil c : operands w [] c c []
| operands_cons l ls c c1 c2 b bs :
    operand w l c c1 b -> operands w ls c1 c2 bs -> operands w (l :: ls) c c2 (b :: bs).
(** A TypeError or a ValueError; InvalidConditionExpressionError is a ValueError. *)
Definition caught (e : exn) : Prop := e = XType \/ e = XValue \/ e = XCond.
(** Operand [l] in [c] fails with [e], leaving [c']: it cannot be performed, or its
    text is not a boolean. *)
Definition operand_fails (w : world) (l : list subst) (c c' : ctx) (e : exn) : Prop :=
  (exists e0, perform_substitutions w l c = (c', Exn e0)
              /\ (caught e0 /\ e = XSubst \/ ~ caught e0 /\ e = e0))
  \/ (exists t, perform_substitutions w l c = (c', Ok t) /\ (forall b, ~ bool_text w t b) /\ e = XSubst).
(** ... some operand fails after the earlier ones have been evaluated. *)
Definition operands_fail (w : world) (ls : list (list subst)) (c c' : ctx) (e : exn) : Prop :=
  exists before l after c1 bs, ls = before ++ l :: after /\ operands w before c c1 bs
    /\ operand_fails w l c1 c' e.

(** ** Equality of texts *)
(** [t] is one of the words for [b], in any case (not stripped). *)
Definition bool_word (t : string) (b : bool) : Prop := exists x, In x (words b) /\ ci_equal t x.
(** Closeness of two numbers: equal infinities, or finite numbers whose distance is
    at most 1e-9 times the larger magnitude. *)
Definition close (x y : pyfloat) : Prop :=
  match x, y with
  | FInf m, FInf n => m = n
  | FFin p, FFin q => (Qabs (p - q) <= (1 # 1000000000) * Qmax (Qabs p) (Qabs q))%Q
  | _, _ => False
  end.
(** Booleans are compared as booleans, other numbers up to closeness, and
    everything else as text. *)
Inductive texts_equal (a b : string) : Prop :=
| te_bool p : bool_word a p -> bool_word b p -> texts_equal a b
| te_num x y : (forall p q, bool_word a p -> bool_word b q -> False) ->
    py_float a = Some x -> py_float b = Some y -> close x y -> texts_equal a b
| te_text : (forall p q, bool_word a p -> bool_word b q -> False) ->
    (py_float a = None \/ py_float b = None) -> a = b -> texts_equal a b.

(** ** AnonName *)
(** The operations of a context that change launch configuration [k]. *)
Definition changes_lc (k : string) (o : cop) : bool :=
  match o with CSetLC k' _ => String.eqb k' k | CDelLC k' => String.eqb k' k | _ => false end.

(** ** Performing a list one by one *)
Inductive performed (w : world) : list subst -> ctx -> ctx -> list string -> Prop :=
| performed_nil c : performed w [] c c []
| performed_cons x l c c1 c2 t ts :
    perform w x c = (c1, Ok t) -> performed w l c1 c2 ts -> performed w (x :: l) c c2 (t :: ts).

(** ** Typed values *)
(** isinstance(v, t) of python (True and False are also ints). *)
Inductive has_scalar {S} : pv S -> sty -> Prop :=
| has_int z : has_scalar (PInt z) TInt
| has_bool_int b : has_scalar (PBool b) TInt
| has_float f : has_scalar (PFloat f) TFloat
| has_bool b : has_scalar (PBool b) TBool
| has_str s : has_scalar (PStr s) TStr.
(** ... or a string where strings are allowed too. *)
Definition has_scalar_or_str {S} (can_be_str : bool) (v : pv S) (t : sty) : Prop :=
  has_scalar v t \/ (can_be_str = true /\ has_scalar v TStr).
(** [v] is a value of type [d]; no type means any scalar or any list of scalars
    of one type (and strings, where allowed). *)
Inductive has_type {S} (can_be_str : bool) : pv S -> option dty -> Prop :=
| ht_scalar v t : has_scalar_or_str can_be_str v t -> has_type can_be_str v (Some (DScalar t))
| ht_list l t : Forall (fun v => has_scalar_or_str can_be_str v t) l ->
    has_type can_be_str (PList l) (Some (DList t))
| ht_any_scalar v t : has_scalar v t -> has_type can_be_str v None
| ht_any_list l t : Forall (fun v => has_scalar_or_str can_be_str v t) l ->
    has_type can_be_str (PList l) None.

(** Properties of typed values: C48. *)
From Verif Require Import SpecSubst SpecNum TypeFacts NumFacts ExWorld.

(** C48: coerce_to_type raises or returns a value of the requested type. *)
Theorem C48_coerce_sound : forall (S : Type) (yaml : string -> option (pv S)) (can_be_str : bool)
    (s : string) (d : option dty) (v : pv S),
  coerce_to_type yaml can_be_str s d = Ok v -> has_type can_be_str v d.
Proof. exact @coerce_sound. Qed.
Print Assumptions C48_coerce_sound.

(** C48: so does get_typed_value, on any value. *)
Theorem C48_get_typed_value_sound : forall (S : Type) (yaml : string -> option (pv S)) (can_be_str : bool)
    (v : pv S) (d : option dty) (v' : pv S),
  get_typed_value yaml can_be_str v d = Ok v' -> has_type can_be_str v' d.
Proof. exact @get_typed_sound. Qed.
Print Assumptions C48_get_typed_value_sound.

(** C48: so does perform_typed_substitution, however substitutions are performed. *)
Theorem C48_perform_typed_sound : forall (S : Type) (yaml : string -> option (pv S)) (ST : Type)
    (perf : list S -> ST -> ST * res string) (v : pv S) (d : option dty) (s s' : ST) (v' : pv S),
  perform_typed_substitution yaml perf v d s = (s', Ok v') -> has_type false v' d.
Proof. exact @perform_typed_sound. Qed.
Print Assumptions C48_perform_typed_sound.

(** C48: scalars and lists that have the type already are returned unchanged (and
    nothing is performed). *)
Theorem C48_scalar_unchanged : forall (S : Type) (yaml : string -> option (pv S)) (ST : Type)
    (perf : list S -> ST -> ST * res string) (v : pv S) (d : option dty) (s : ST),
  is_scalar v = true -> has_type false v d ->
  perform_typed_substitution yaml perf v d s = (s, Ok v).
Proof. exact @scalar_unchanged. Qed.
Print Assumptions C48_scalar_unchanged.

Theorem C48_list_unchanged : forall (S : Type) (yaml : string -> option (pv S)) (ST : Type)
    (perf : list S -> ST -> ST * res string) (l : list (pv S)) (d : option dty) (t : sty) (s : ST),
  d = Some (DList t) -> has_type false (PList l) d ->
  perform_typed_substitution yaml perf (PList l) d s = (s, Ok (PList l)).
Proof. exact @list_unchanged. Qed.
Print Assumptions C48_list_unchanged.

(** C48: normalize_typed_substitution leaves typed scalars and non-empty lists of one
    exact type alone. *)
Theorem C48_normalize_scalar : forall (S : Type) (text : string -> S) (v : pv S) (d : option dty),
  is_scalar v = true -> has_type false v d -> normalize_typed_substitution text v d = Ok v.
Proof. exact @normalize_scalar. Qed.
Print Assumptions C48_normalize_scalar.

Theorem C48_normalize_list : forall (S : Type) (text : string -> S) (l : list (pv S)) (t : sty),
  l <> [] -> Forall (fun v => type_of v = Some t) l ->
  normalize_typed_substitution text (PList l) (Some (DList t)) = Ok (PList l).
Proof. exact @normalize_list. Qed.
Print Assumptions C48_normalize_list.

(** C48: text that reads as a number is coerced to that number; with can_be_str any
    other text is accepted as itself for int, float and str. *)
Theorem C48_number_read : forall (S : Type) (yaml : string -> option (pv S)) (s : string) (z : Z) (f : pyfloat),
  (py_int s = Some z -> coerce_to_type yaml true s (Some (DScalar TInt)) = Ok (PInt z)
                        /\ coerce_to_type yaml false s (Some (DScalar TInt)) = Ok (PInt z)) /\
  (py_float s = Some f -> coerce_to_type yaml true s (Some (DScalar TFloat)) = Ok (PFloat f)
                        /\ coerce_to_type yaml false s (Some (DScalar TFloat)) = Ok (PFloat f)).
Proof. exact @number_read. Qed.
Print Assumptions C48_number_read.

(** C48: the texts that read as integers are decimal literals, possibly signed, with single
    underscores between digits and white space around. *)
Theorem C48_int : forall (s : string) (z : Z), py_int s = Some z <-> int_literal s z.
Proof. exact int_law. Qed.
Print Assumptions C48_int.
(** White space, as it may stand around numbers and truth values: the ASCII characters for which
    python's str.isspace holds. *)
Theorem C48_white_space : forall c : ascii, is_space c = true <-> In c [" "; "009"; "010"; "011"; "012"; "013"; "028"; "029"; "030"; "031"]%char.
Proof.
  intros c. split.
  - destruct c as [[] [] [] [] [] [] [] []]; intros H; try discriminate H; simpl; tauto.
  - intros H. repeat (destruct H as [<-|H]; [reflexivity|]). destruct H.
Qed.
Print Assumptions C48_white_space.

(** C48: likewise for floats, up to the representation of the same rational number. *)
Theorem C48_float : forall (s : string),
  (forall f, py_float s = Some f -> float_literal s f) /\
  (forall f, float_literal s f -> exists f', py_float s = Some f' /\ same_float f f').
Proof. exact float_law. Qed.
Print Assumptions C48_float.

(** C48: 1 and 0 are read as bool like true and false, and other texts as YAML reads them. *)
Theorem C48_bool_read : forall (S : Type) (yaml : string -> option (pv S)) (can_be_str b : bool) (s : string),
  s = (if b then "1" else "0") /\ yaml (bool_str b) = Some (PBool b) \/
  s <> "1" /\ s <> "0" /\ s <> "" /\ yaml s = Some (PBool b) ->
  coerce_to_type yaml can_be_str s (Some (DScalar TBool)) = Ok (PBool b).
Proof. exact @bool_read. Qed.
Print Assumptions C48_bool_read.

Theorem C48_can_be_str : forall (S : Type) (yaml : string -> option (pv S)) (s : string) (t : sty),
  t <> TBool ->
  exists v, coerce_to_type yaml true s (Some (DScalar t)) = Ok v /\ (has_scalar v t \/ v = PStr s).
Proof. exact @can_be_str_accepts. Qed.
Print Assumptions C48_can_be_str.

(** C48 (finding): not so for bool: text that YAML reads as a number is rejected although
    strings are allowed. *)
Theorem C48_can_be_str_bool_refuted : exists (s : string) (v : pv subst),
  has_type true (PStr s : pv subst) (Some (DScalar TBool)) /\
  w_yaml w0 s = Some v /\ coerce_to_type (w_yaml w0) true s (Some (DScalar TBool)) = Exn XValue.
Proof. exact bool_refuted. Qed.
Print Assumptions C48_can_be_str_bool_refuted.

(** C48 (finding): normalising does not accept every value of the type: the empty list
    is not accepted as a list of integers, nor a list of integers as a list of numbers
    although a list mixing both is. *)
Theorem C48_normalize_refuted :
  has_type false (PList [] : pv subst) (Some (DList TInt)) /\
  normalize_typed_substitution SText (PList []) (Some (DList TInt)) = Exn XType /\
  normalize_typed_substitution SText (PList [PInt 1; PInt 2]) (Some (DList TFloat)) = Exn XType /\
  normalize_typed_substitution SText (PList [PInt 1; PFloat (FFin 2)]) (Some (DList TFloat))
    = Ok (PList [PFloat (FFin 1); PFloat (FFin 2)]).
Proof. exact normalize_refuted. Qed.
Print Assumptions C48_normalize_refuted.

Example C48_example :
  coerce_to_type ex_yaml false "[1, 2]" (Some (DList TInt)) = Ok (PList [PInt 1; PInt 2]) /\
  coerce_to_type ex_yaml false " 4_2 " (Some (DScalar TInt)) = Ok (PInt 42) /\
  get_typed_value ex_yaml true (PList [PStr "1"; PStr "x"]) (Some (DList TInt)) = Ok (PList [PInt 1; PStr "x"]) /\
  perform_typed_substitution ex_yaml (perform_substitutions w0)
    (PList [PInt 3; PList [PSub (SText "4")]]) (Some (DList TInt)) c0 = (c0, Ok (PList [PInt 3; PInt 4])) /\
  has_type false (PList [PInt 1; PBool true] : pv subst) (Some (DList TInt)).
Proof. repeat split; try reflexivity. constructor. repeat constructor. Qed.
Example C48_literals : int_literal " -1_0 " (-10) /\ float_literal "1.5e-1" (FFin (15 # 100)) /\ py_int "1__0" = None /\ py_int "4x" = None.
Proof.
  split; [|split; [|done]].
  - apply C48_int. reflexivity.
  - apply C48_float. reflexivity.
Qed.

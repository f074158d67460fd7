(** Model of launch/launch/utilities/type_utils.py. *)
From Verif Require Export PyNum.

Section type_utils.
(** [S]: the class of Substitution objects.  [yaml]: yaml.safe_load on text,
    [None] when it raises (external library, any function). *)
Context {S : Type}.

(** Python values handled by the module.  [PList] stands for a list (the code's
    [isinstance(x, list)] and [Iterable] tests agree on it); [POther] is any
    value that is neither scalar, list nor substitution (None, dict, ...). *)
Inductive pv :=
| PInt (z : Z)
| PFloat (f : pyfloat)
| PBool (b : bool)
| PStr (s : string)
| PList (l : list pv)
| PSub (x : S)
| POther (n : nat).

(** ScalarTypesTuple, type_utils.py:41-43 *)
Inductive sty := TInt | TFloat | TBool | TStr.
(** AllowedTypesTuple, type_utils.py:46-50, plus any other python type object. *)
Inductive dty := DScalar (t : sty) | DList (t : sty) | DBad.

#[global] Instance sty_eq_dec : EqDecision sty.
Proof. solve_decision. Defined.

(** [isinstance(v, t)]; in python bool is a subclass of int. *)
Definition isinstance_s (v : pv) (t : sty) : bool :=
  match v, t with
  | PInt _, TInt | PBool _, TInt | PFloat _, TFloat | PBool _, TBool | PStr _, TStr => true
  | _, _ => false
  end.

(** [type(v)] restricted to the scalar types. *)
Definition type_of (v : pv) : option sty :=
  match v with
  | PInt _ => Some TInt | PFloat _ => Some TFloat | PBool _ => Some TBool
  | PStr _ => Some TStr | _ => None
  end.

(** [isinstance(v, ScalarTypesTuple)] *)
Definition is_scalar (v : pv) : bool :=
  match type_of v with Some _ => true | None => false end.

(** extract_type, type_utils.py:139-162 *)
Definition extract_type (d : dty) : res (sty * bool) :=
  match d with
  | DScalar t => Ok (t, false)
  | DList t => Ok (t, true)
  | DBad => Exn XValue
  end.

(** [isinstance(x, valid_types)] where valid_types may also admit str. *)
Definition isinstance_or_str (can_be_str : bool) (t : sty) (v : pv) : bool :=
  isinstance_s v t || (can_be_str && isinstance_s v TStr).

(** [next((type(x) for x in value if type(x) is not str), str)]:
    [None] when that type is not one of the scalar types. *)
Fixpoint member_type (l : list pv) : option sty :=
  match l with
  | [] => Some TStr
  | PStr _ :: l' => member_type l'
  | v :: _ => type_of v
  end.

(** is_instance_of_valid_type, type_utils.py:165-183 *)
Definition is_instance_of_valid_type (can_be_str : bool) (v : pv) : bool :=
  match v with
  | PList [] => true
  | PList l =>
      match member_type l with
      | None => false
      | Some t => forallb (isinstance_or_str can_be_str t) l
      end
  | _ => is_scalar v
  end.

(** is_instance_of, type_utils.py:186-213 *)
Definition is_instance_of (can_be_str : bool) (v : pv) (d : option dty) : res bool :=
  match d with
  | None => Ok (is_instance_of_valid_type can_be_str v)
  | Some d =>
      res_bind (extract_type d) (fun '(t, is_list) =>
        if negb is_list then Ok (isinstance_or_str can_be_str t v)
        else match v with
             | PList l => Ok (forallb (isinstance_or_str can_be_str t) l)
             | _ => Ok false
             end)
  end.

Section coerce.
Context (yaml : string -> option pv).

(** convert_as_yaml, type_utils.py:234-250 *)
Definition convert_as_yaml (can_be_str : bool) (s : string) : res pv :=
  if String.eqb s "" then Ok (PStr s)
  else match yaml s with
       | None => if can_be_str then Ok (PStr s) else Exn XValue
       | Some out =>
           if is_instance_of_valid_type can_be_str out then Ok out else Exn XValue
       end.

(** coerce_to_type, type_utils.py:216-294 (the argument is always text here;
    ensure_argument_type rejects anything else with TypeError). *)
Definition coerce_to_type (can_be_str : bool) (s : string) (d : option dty) : res pv :=
  match d with
  | None => convert_as_yaml can_be_str s
  | Some d =>
      res_bind (extract_type d) (fun '(t, is_list) =>
        if is_list then
          res_bind (convert_as_yaml can_be_str s) (fun out =>
            match out with
            | PList l => if forallb (isinstance_or_str can_be_str t) l then Ok out else Exn XValue
            | _ => Exn XValue
            end)
        else
          match t with
          | TStr => Ok (PStr s)
          | TInt => match py_int s with
                    | Some z => Ok (PInt z)
                    | None => if can_be_str then Ok (PStr s) else Exn XValue
                    end
          | TFloat => match py_float s with
                      | Some f => Ok (PFloat f)
                      | None => if can_be_str then Ok (PStr s) else Exn XValue
                      end
          | TBool =>
              let s' := if String.eqb s "1" then "true"
                        else if String.eqb s "0" then "false" else s in
              res_bind (convert_as_yaml can_be_str s') (fun out =>
                if isinstance_or_str can_be_str TBool out then Ok out else Exn XValue)
          end)
  end.

(** list comprehension [[f(x) for x in l]] with exceptions *)
Fixpoint mapR {A B} (f : A -> res B) (l : list A) : res (list B) :=
  match l with
  | [] => Ok []
  | x :: l' => res_bind (f x) (fun y => res_bind (mapR f l') (fun ys => Ok (y :: ys)))
  end.

(** coerce_to_type on an arbitrary value: type_utils.py:252 *)
Definition coerce_value (can_be_str : bool) (d : option dty) (v : pv) : res pv :=
  match v with PStr s => coerce_to_type can_be_str s d | _ => Exn XType end.

(** coerce_list, type_utils.py:297-318 *)
Definition coerce_list (can_be_str : bool) (l : list pv) (t : option sty) : res pv :=
  res_bind (mapR (coerce_value can_be_str (DScalar <$> t)) l) (fun out =>
    if is_instance_of_valid_type can_be_str (PList out) then Ok (PList out) else Exn XValue).

(** get_typed_value, type_utils.py:321-350 *)
Definition get_typed_value (can_be_str : bool) (v : pv) (d : option dty) : res pv :=
  match v with
  | PList l =>
      match d with
      | None => coerce_list can_be_str l None
      | Some d =>
          res_bind (extract_type d) (fun '(t, is_list) =>
            if is_list then coerce_list can_be_str l (Some t) else Exn XType)
      end
  | _ => coerce_value can_be_str d v
  end.
End coerce.

(** is_substitution, type_utils.py:357-374.  A str is an Iterable of str and
    therefore never a substitution. *)
Definition is_sub (v : pv) : bool := match v with PSub _ => true | _ => false end.
Definition is_sub_or_str (v : pv) : bool := match v with PSub _ | PStr _ => true | _ => false end.
Definition is_substitution (v : pv) : bool :=
  match v with
  | PSub _ => true
  | PList l => (0 <? length l)%nat && forallb is_sub_or_str l && existsb is_sub l
  | _ => false
  end.

(** is_normalized_substitution, type_utils.py:509-519 *)
Definition is_normalized_substitution (v : pv) : bool :=
  match v with
  | PList l => (0 <? length l)%nat && forallb is_sub l
  | _ => false
  end.

Section norm.
(** TextSubstitution(text=...) *)
Context (text : string -> S).

(** normalize_to_list_of_substitutions,
    utilities/normalize_to_list_of_substitutions_impl.py:26-44 *)
Definition normalize_item (v : pv) : res pv :=
  match v with
  | PSub x => Ok (PSub x)
  | PStr s => Ok (PSub (text s))
  | _ => Exn XType
  end.
Definition normalize_to_list_of_substitutions (v : pv) : res pv :=
  match v with
  | PStr s => Ok (PList [PSub (text s)])
  | PSub x => Ok (PList [PSub x])
  | PList l => res_bind (mapR normalize_item l) (fun l' => Ok (PList l'))
  | _ => Exn XType        (* iterating over a non-iterable *)
  end.

(** The kinds collected in [types_in_list], type_utils.py:437-448 *)
Inductive ikind := KScalar (t : sty) | KSubst.
Definition item_kind (v : pv) : res ikind :=
  match type_of v with
  | Some t => Ok (KScalar t)
  | None => if is_substitution v then Ok KSubst else Exn XType
  end.
Definition kinds_subset (allowed : ikind -> bool) (ks : list ikind) : bool := forallb allowed ks.
Definition kS (k : ikind) : bool := match k with KSubst => true | _ => false end.
Definition kstr (k : ikind) : bool := match k with KSubst | KScalar TStr => true | _ => false end.
Definition kbool (k : ikind) : bool := match k with KSubst | KScalar TBool => true | _ => false end.
Definition kint (k : ikind) : bool := match k with KSubst | KScalar TInt => true | _ => false end.
Definition kfloat (k : ikind) : bool :=
  match k with KSubst | KScalar TInt | KScalar TFloat => true | _ => false end.

(** [x if not is_substitution(x) else normalize(x)] *)
Definition norm_if_sub (v : pv) : res pv :=
  if is_substitution v then normalize_to_list_of_substitutions v else Ok v.
(** [float(x)] on the items of a list of ints and floats, type_utils.py:500 *)
Definition to_float (v : pv) : res pv :=
  if is_substitution v then normalize_to_list_of_substitutions v
  else match v with PInt z => Ok (PFloat (FFin (inject_Z z))) | _ => Ok v end.

(** [data_type not in (None, t)] after extract_type *)
Definition mismatch (dt : option sty) (t : sty) : bool :=
  match dt with None => false | Some t' => negb (bool_decide (t' = t)) end.

(** normalize_typed_substitution, type_utils.py:377-506 *)
Definition normalize_typed_substitution (v : pv) (d : option dty) : res pv :=
  if is_scalar v then
    res_bind (is_instance_of false v d) (fun b => if b then Ok v else Exn XType)
  else if is_substitution v then normalize_to_list_of_substitutions v
  else match v with
  | PList l =>
      res_bind (mapR item_kind l) (fun ks =>
      res_bind (match d with
                | None => Ok (None, true)
                | Some d => res_bind (extract_type d) (fun '(t, b) => Ok (Some t, b))
                end) (fun '(dt, is_list) =>
        if negb is_list then Exn XType
        else if (0 <? length ks)%nat && kinds_subset kS ks then
          res_bind (mapR normalize_to_list_of_substitutions l) (fun l' => Ok (PList l'))
        else if kinds_subset kstr ks then
          if mismatch dt TStr then Exn XType
          else res_bind (mapR norm_if_sub l) (fun l' => Ok (PList l'))
        else if kinds_subset kbool ks then
          if mismatch dt TBool then Exn XType
          else res_bind (mapR norm_if_sub l) (fun l' => Ok (PList l'))
        else if kinds_subset kint ks then
          if mismatch dt TInt then Exn XType
          else res_bind (mapR norm_if_sub l) (fun l' => Ok (PList l'))
        else if kinds_subset kfloat ks then
          if mismatch dt TFloat then Exn XType
          else res_bind (mapR to_float l) (fun l' => Ok (PList l'))
        else Exn XType))
  | _ => Exn XType
  end.
End norm.

Section perform.
(** Performing substitutions changes the context (AnonName), so the state is
    threaded: [perf] is perform_substitutions on a list of substitutions. *)
Context {ST : Type} (yaml : string -> option pv) (perf : list S -> ST -> ST * res string).

Fixpoint subs_of (l : list pv) : list S :=
  match l with
  | PSub x :: l' => x :: subs_of l'
  | _ :: l' => subs_of l'
  | [] => []
  end.

(** one item of the list comprehension at type_utils.py:569-573 *)
Definition perform_item (t : option sty) (v : pv) (s : ST) : ST * res pv :=
  match v with
  | PList l =>
      if is_normalized_substitution v then
        let '(s', r) := perf (subs_of l) s in
        (s', res_bind r (fun txt => coerce_to_type yaml false txt (DScalar <$> t)))
      else (s, Ok v)
  | _ => (s, Ok v)
  end.

Fixpoint perform_items (t : option sty) (l : list pv) (s : ST) : ST * res (list pv) :=
  match l with
  | [] => (s, Ok [])
  | x :: l' =>
      match perform_item t x s with
      | (s1, Ok y) =>
          match perform_items t l' s1 with
          | (s2, Ok ys) => (s2, Ok (y :: ys))
          | (s2, Exn e) => (s2, Exn e)
          | (s2, OutOfFuel) => (s2, OutOfFuel)
          end
      | (s1, Exn e) => (s1, Exn e)
      | (s1, OutOfFuel) => (s1, OutOfFuel)
      end
  end.

(** perform_typed_substitution, type_utils.py:522-586 *)
Definition perform_typed_substitution (v : pv) (d : option dty) (s : ST) : ST * res pv :=
  if is_scalar v then
    match d with
    | None => (s, Ok v)
    | Some _ =>
        (s, res_bind (is_instance_of false v d) (fun b => if b then Ok v else Exn XType))
    end
  else match v with
  | PList l =>
      if is_normalized_substitution v then
        let '(s', r) := perf (subs_of l) s in
        (s', res_bind r (fun txt => coerce_to_type yaml false txt d))
      else
        match (match d with
               | None => Ok None
               | Some d => res_bind (extract_type d) (fun '(t, b) =>
                             if b then Ok (Some t) else Exn XValue)
               end) with
        | Ok t =>
            match perform_items t l s with
            | (s', Ok out) =>
                (s', res_bind (is_instance_of false (PList out) d) (fun b =>
                       if b then Ok (PList out) else Exn XValue))
            | (s', Exn e) => (s', Exn e)
            | (s', OutOfFuel) => (s', OutOfFuel)
            end
        | Exn e => (s, Exn e)
        | OutOfFuel => (s, OutOfFuel)
        end
  | _ => (s, Exn XType)
  end.
End perform.
End type_utils.
Arguments pv : clear implicits.

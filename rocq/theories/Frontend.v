(** Model of the markup frontends: the entities of launch_xml and launch_yaml, the parse
    methods that actions expose (launch/launch/frontend/expose.py:37-114), the parsing of a
    description and the choice of a parser (launch/launch/frontend/parser.py:109-263).

    A file that is read is given as the tree that the library parser (ElementTree, yaml)
    produced. *)
From Verif Require Export Syntax.

(** What yaml.safe_load returns, also the values of YAML attributes.  Simplified: the keys
    of a mapping are strings. *)
Inductive yv :=
| YNull
| YBool (b : bool)
| YInt (z : Z)
| YFloat (f : pyfloat)
| YStr (s : string)
| YList (l : list yv)
| YDict (l : list (string * yv)).
(** As a value for the type checks. *)
Fixpoint to_pv (v : yv) : pv subst :=
  match v with
  | YNull => POther 0
  | YBool b => PBool b
  | YInt z => PInt z
  | YFloat f => PFloat f
  | YStr s => PStr s
  | YList l => PList (map to_pv l)
  | YDict _ => POther 1
  end.

(** An XML element: tag, attributes, child elements (text content is never looked at). *)
Inductive xml := XElem (tag : string) (attrs : list (string * string)) (kids : list xml).
Definition x_tag (e : xml) : string := match e with XElem t _ _ => t end.
Definition x_attrs (e : xml) : list (string * string) := match e with XElem _ a _ => a end.
Definition x_kids (e : xml) : list xml := match e with XElem _ _ k => k end.

Fixpoint assoc {V} (k : string) (l : list (string * V)) : option V :=
  match l with
  | [] => None
  | (k', v) :: l' => if String.eqb k k' then Some v else assoc k l'
  end.
Definition mem (k : string) (l : list string) : bool := existsb (String.eqb k) l.

(** str.split(sep) for a non-empty separator.  [skip]: how many characters of a separator
    found are still to be skipped; [cur]: the current piece. *)
Fixpoint split_go (sep s : string) (skip : nat) (cur : string) : list string :=
  match s with
  | EmptyString => [cur]
  | String c s' =>
      match skip with
      | S k => split_go sep s' k cur
      | O => if starts_with sep s then cur :: split_go sep s' (String.length sep - 1) ""
             else split_go sep s' 0 (cur ++ String c "")%string
      end
  end.
Definition py_split (s sep : string) : res (list string) :=
  match sep with EmptyString => Exn XValue | _ => Ok (split_go sep s 0 "") end.

(** The data_type argument of get_attr: None, a type, or List[Entity]. *)
Inductive rty := RVal (d : option dty) | REnts.

(** The entities: the element and what has been read of it. *)
Record xst := Xst { xs_el : xml; xs_attrs : list string; xs_kids : list string }.
Record yst := Yst { ys_type : string; ys_el : yv; ys_keys : list string; ys_called : bool }.
Inductive ent := EX (x : xst) | EY (y : yst).
Definition new_x (e : xml) : ent := EX (Xst e [] []).
Definition new_y (t : string) (v : yv) : ent := EY (Yst t v [] false).
(** Entity.type_name, launch_xml/launch_xml/entity.py:43-46, launch_yaml/launch_yaml/entity.py:46-49 *)
Definition type_name (e : ent) : string := match e with EX x => x_tag (xs_el x) | EY y => ys_type y end.

(** What get_attr returns: a value or entities. *)
Inductive got := GVal (v : pv subst) | GEnts (l : list ent).

Section frontend.
Context (yaml : string -> option (pv subst)).

(** ** launch_xml/launch_xml/entity.py *)
(** children, entity.py:53-57 *)
Definition x_children (x : xst) : xst * list ent :=
  (Xst (xs_el x) (xs_attrs x) (map x_tag (x_kids (xs_el x))), map new_x (x_kids (xs_el x))).
(** assert_entity_completely_parsed, entity.py:59-72 *)
Definition x_assert (x : xst) : res unit :=
  if existsb (fun k => negb (mem (x_tag k) (xs_kids x))) (x_kids (xs_el x)) then Exn XValue
  else if existsb (fun a => negb (mem (fst a) (xs_attrs x))) (x_attrs (xs_el x)) then Exn XValue
  else Ok tt.
(** [except ValueError: raise TypeError], entity.py:121-130 *)
Definition value_to_type {A} (r : res A) : res A := match r with Exn XValue => Exn XType | _ => r end.
(** get_attr, entity.py:74-131 *)
Definition x_get (x : xst) (name : string) (t : rty) (opt cbs : bool) : xst * res (option got) :=
  let missing := if opt then Ok None else Exn XAttr in
  match t with
  | REnts =>
      match List.filter (fun k => String.eqb (x_tag k) name) (x_kids (xs_el x)) with
      | [] => (x, missing)
      | l => (Xst (xs_el x) (xs_attrs x) (name :: xs_kids x), Ok (Some (GEnts (map new_x l))))
      end
  | RVal d =>
      match assoc name (x_attrs (xs_el x)) with
      | None => (x, missing)
      | Some v =>
          let typed x v := (x, res_bind (value_to_type (get_typed_value yaml cbs v d)) (fun v => Ok (Some (GVal v)))) in
          match assoc (name ++ "-sep")%string (x_attrs (xs_el x)) with
          | None => typed (Xst (xs_el x) (name :: xs_attrs x) (xs_kids x)) (PStr v)
          | Some sep =>
              let x := Xst (xs_el x) ((name ++ "-sep")%string :: xs_attrs x) (xs_kids x) in
              match py_split v sep with
              | Ok l => typed (Xst (xs_el x) (name :: xs_attrs x) (xs_kids x)) (PList (map PStr l))
              | Exn e => (x, Exn e)
              | OutOfFuel => (x, OutOfFuel)
              end
          end
      end
  end.

(** ** launch_yaml/launch_yaml/entity.py *)
(** The loop of children, entity.py:76-83 *)
Definition y_child (v : yv) : res ent :=
  match v with
  | YDict [(t, w)] => Ok (new_y t w)
  | YDict _ => Exn XRuntime
  | YList [_] => Exn XAttr                      (* a list has no keys() *)
  | YStr (String _ EmptyString) => Exn XAttr
  | YList _ | YStr _ => Exn XRuntime
  | _ => Exn XType                              (* len() of a number *)
  end.
Fixpoint chars (s : string) : list yv :=
  match s with EmptyString => [] | String c s' => YStr (String c EmptyString) :: chars s' end.
(** Iterating over a value. *)
Definition y_iter (v : yv) : res (list yv) :=
  match v with
  | YList l => Ok l
  | YStr s => Ok (chars s)
  | YDict l => Ok (map (fun kv => YStr (fst kv)) l)
  | _ => Exn XType
  end.
(** children, entity.py:56-83.  For an element that is neither mapping nor list the code
    names a missing attribute ([self.element]) while building its message. *)
Definition y_children (y : yst) : yst * res (list ent) :=
  let y := Yst (ys_type y) (ys_el y) (ys_keys y) true in
  match ys_el y with
  | YDict l =>
      match assoc "children" l with
      | None => (y, Exn XValue)
      | Some c => (Yst (ys_type y) (ys_el y) ("children"%string :: ys_keys y) true, res_bind (y_iter c) (mapR y_child))
      end
  | YList l => (y, mapR y_child l)
  | _ => (y, Exn XAttr)
  end.
(** assert_entity_completely_parsed, entity.py:85-96 *)
Definition y_assert (y : yst) : res unit :=
  match ys_el y with
  | YList _ => if ys_called y then Ok tt else Exn XValue
  | YDict l => if existsb (fun a => negb (mem (fst a) (ys_keys y))) l then Exn XValue else Ok tt
  | _ => Exn XAttr                              (* keys() *)
  end.
Definition is_dict (v : yv) : bool := match v with YDict _ => true | _ => false end.
(** get_attr, entity.py:98-139: the test, then the value. *)
Definition y_in (name : string) (v : yv) : res bool :=
  match v with
  | YDict l => Ok (match assoc name l with Some _ => true | None => false end)
  | YList l => Ok (existsb (fun x => match x with YStr s => String.eqb name s | _ => false end) l)
  | YStr s => Ok (contains name s)
  | _ => Exn XType
  end.
Definition y_get (y : yst) (name : string) (t : rty) (opt cbs : bool) : yst * res (option got) :=
  match y_in name (ys_el y) with
  | Exn e => (y, Exn e)
  | OutOfFuel => (y, OutOfFuel)
  | Ok false => (y, if opt then Ok None else Exn XAttr)
  | Ok true =>
      let y := Yst (ys_type y) (ys_el y) (name :: ys_keys y) (ys_called y) in
      match ys_el y with
      | YDict l =>
          match assoc name l with
          | None => (y, Exn XKey)
          | Some data =>
              match t with
              | REnts =>
                  match data with
                  | YList [] => (y, Exn XIndex)
                  | YList (d :: l') => (y, if is_dict d then Ok (Some (GEnts (map (new_y name) (d :: l')))) else Exn XType)
                  | _ => (y, Exn XType)
                  end
              | RVal d =>
                  (y, res_bind (is_instance_of cbs (to_pv data) d) (fun b => if b then Ok (Some (GVal (to_pv data))) else Exn XType))
              end
          end
      | _ => (y, Exn XType)                     (* a list or a string indexed with a string *)
      end
  end.

(** ** Both *)
Definition e_children (e : ent) : ent * res (list ent) :=
  match e with
  | EX x => let '(x, l) := x_children x in (EX x, Ok l)
  | EY y => let '(y, r) := y_children y in (EY y, r)
  end.
Definition e_assert (e : ent) : res unit := match e with EX x => x_assert x | EY y => y_assert y end.
Definition e_get (e : ent) (name : string) (t : rty) (opt cbs : bool) : ent * res (option got) :=
  match e with
  | EX x => let '(x, r) := x_get x name t opt cbs in (EX x, r)
  | EY y => let '(y, r) := y_get y name t opt cbs in (EY y, r)
  end.

(** ** Parse methods *)
(** Entities are objects: a heap, and numbers as references. *)
Definition heap := list ent.
Inductive hgot := HVal (v : pv subst) | HEnts (l : list nat).
Definition alloc (hp : heap) (l : list ent) : heap * list nat := (hp ++ l, seq (length hp) (length l)).

Context {K A : Type}.
(** A parse method: any program that reads entities, parses nested actions and returns the
    class and the keyword arguments ([K]).  It may catch exceptions: a continuation gets the
    outcome. *)
Inductive prog :=
| Ret (r : res K)
| GetAttr (h : nat) (name : string) (t : rty) (opt cbs : bool) (k : res (option hgot) -> prog)
| Children (h : nat) (k : res (list nat) -> prog)
| TypeName (h : nat) (k : string -> prog)
| AssertDone (h : nat) (k : res unit -> prog)
| ParseAction (h : nat) (k : res A -> prog).

(** What happened, in order: the reads, and the entities accepted as actions. *)
Inductive tr :=
| TAttr (h : nat) (name : string) (t : rty) (opt cbs : bool) (r : res (option hgot))
| TChildren (h : nat) (r : res (list nat))
| TAccepted (h : nat).

(** The table of exposed parse methods, and the call of the class with the arguments. *)
Context (methods : string -> option (nat -> prog)) (construct : K -> res A).

Definition bad_ref {X} : res X := Exn XRuntime.
Definition h_get (hp : heap) (h : nat) (name : string) (t : rty) (opt cbs : bool) : heap * res (option hgot) :=
  match hp !! h with
  | None => (hp, bad_ref)
  | Some e =>
      let '(e', r) := e_get e name t opt cbs in
      let hp := <[h := e']> hp in
      match r with
      | Ok (Some (GVal v)) => (hp, Ok (Some (HVal v)))
      | Ok (Some (GEnts l)) => let '(hp, hs) := alloc hp l in (hp, Ok (Some (HEnts hs)))
      | Ok None => (hp, Ok None)
      | Exn e => (hp, Exn e)
      | OutOfFuel => (hp, OutOfFuel)
      end
  end.
Definition h_children (hp : heap) (h : nat) : heap * res (list nat) :=
  match hp !! h with
  | None => (hp, bad_ref)
  | Some e =>
      let '(e', r) := e_children e in
      let hp := <[h := e']> hp in
      match r with
      | Ok l => let '(hp, hs) := alloc hp l in (hp, Ok hs)
      | Exn e => (hp, Exn e)
      | OutOfFuel => (hp, OutOfFuel)
      end
  end.
Definition h_assert (hp : heap) (h : nat) : res unit :=
  match hp !! h with None => bad_ref | Some e => e_assert e end.

Definition outcome X : Type := heap * list tr * res X.
(** The wrapper around an exposed method, expose.py:103-110, within instantiate_action,
    expose.py:37-42.  [run] runs a program that knows the given references. *)
Definition act_with (run : list nat -> heap -> prog -> outcome K) (hp : heap) (h : nat) : outcome A :=
  match hp !! h with
  | None => (hp, [], bad_ref)
  | Some e =>
      match methods (type_name e) with
      | None => (hp, [], Exn XRuntime)
      | Some m =>
          let '(hp, t, r) := run [h] hp (m h) in
          match r with
          | Ok k =>
              match h_assert hp h with
              | Ok _ => (hp, t ++ [TAccepted h], construct k)
              | Exn e => (hp, t, Exn e)
              | OutOfFuel => (hp, t, OutOfFuel)
              end
          | Exn e => (hp, t, Exn e)
          | OutOfFuel => (hp, t, OutOfFuel)
          end
      end
  end.
(** Running a program.  It can only use references that it was given ([own]) or that it got
    from a read; any other reference ends the run (no python program can make one up). *)
Definition usable (own : list nat) (hp : heap) (h : nat) : bool := existsb (Nat.eqb h) own && (h <? length hp)%nat.
Definition handles_of (r : res (option hgot)) : list nat := match r with Ok (Some (HEnts hs)) => hs | _ => [] end.
Definition kids_got (r : res (list nat)) : list nat := match r with Ok hs => hs | _ => [] end.
Fixpoint run_with (act : heap -> nat -> outcome A) (own : list nat) (hp : heap) (p : prog) : outcome K :=
  match p with
  | Ret r => (hp, [], r)
  | GetAttr h name t opt cbs k =>
      if negb (usable own hp h) then (hp, [], bad_ref)
      else
        let '(hp, r) := h_get hp h name t opt cbs in
        let '(hp, l, r') := run_with act (own ++ handles_of r) hp (k r) in (hp, TAttr h name t opt cbs r :: l, r')
  | Children h k =>
      if negb (usable own hp h) then (hp, [], bad_ref)
      else
        let '(hp, r) := h_children hp h in
        let '(hp, l, r') := run_with act (own ++ kids_got r) hp (k r) in (hp, TChildren h r :: l, r')
  | TypeName h k =>
      if negb (usable own hp h) then (hp, [], bad_ref)
      else run_with act own hp (k (match hp !! h with Some e => type_name e | None => "" end))
  | AssertDone h k =>
      if negb (usable own hp h) then (hp, [], bad_ref)
      else run_with act own hp (k (h_assert hp h))
  | ParseAction h k =>
      if negb (usable own hp h) then (hp, [], bad_ref)
      else
        let '(hp, l1, r) := act hp h in
        let '(hp, l2, r') := run_with act own hp (k r) in (hp, l1 ++ l2, r')
  end.
(** [n] bounds the depth of nested actions. *)
Fixpoint parse_action (n : nat) (hp : heap) (h : nat) : outcome A :=
  match n with
  | O => (hp, [], OutOfFuel)
  | S n => act_with (run_with (parse_action n)) hp h
  end.

(** parse_description, parser.py:128-136.  The list comprehension over the children. *)
Fixpoint parse_each (n : nat) (hp : heap) (hs : list nat) : outcome (list A) :=
  match hs with
  | [] => (hp, [], Ok [])
  | h :: hs' =>
      let '(hp, l1, r) := parse_action n hp h in
      match r with
      | Ok a =>
          let '(hp, l2, r') := parse_each n hp hs' in
          (hp, l1 ++ l2, res_bind r' (fun l => Ok (a :: l)))
      | Exn e => (hp, l1, Exn e)
      | OutOfFuel => (hp, l1, OutOfFuel)
      end
  end.
Definition parse_description (n : nat) (root : ent) : outcome (list A) :=
  let hp := [root] in
  if negb (String.eqb (type_name root) "launch") then (hp, [], Exn XRuntime)
  else
    let '(hp, r) := h_get hp 0 "deprecated" (RVal (Some (DScalar TStr))) true true in
    let t1 := TAttr 0 "deprecated" (RVal (Some (DScalar TStr))) true true r in
    match r with
    | Ok _ =>
        let '(hp, r) := h_children hp 0 in
        let t2 := TChildren 0 r in
        match r with
        | Ok hs => let '(hp, l, r) := parse_each n hp hs in (hp, t1 :: t2 :: l, r)
        | Exn e => (hp, [t1; t2], Exn e)
        | OutOfFuel => (hp, [t1; t2], OutOfFuel)
        end
    | Exn e => (hp, [t1], Exn e)
    | OutOfFuel => (hp, [t1], OutOfFuel)
    end.
End frontend.
Arguments prog : clear implicits.

(** ** Choice of a parser *)
(** A registered parser class: its identity, its file extensions, and its load on the file
    read from a position. *)
Record fparser (R : Type) := FParser { fp_id : nat; fp_exts : list string; fp_load : nat -> res R }.
Arguments FParser {R}. Arguments fp_id {R}. Arguments fp_exts {R}. Arguments fp_load {R}.
(** may_parse, parser.py:173-179 *)
Definition may_parse {R} (p : fparser R) (filename : string) : bool :=
  existsb (fun e => ends_with ("." ++ e)%string filename) (fp_exts p).
(** get_parsers_from_filename, parser.py:194-205 *)
Definition get_parsers_from_filename {R} (ps : list (fparser R)) (filename : string) : list (fparser R) :=
  List.filter (fun p => may_parse p filename) ps.
(** Parser.load, parser.py:217-263: the implementations in order, then the loop.  Result: the
    attempts (parser, position of the file) and the outcome.  Opening and closing the file
    are not modelled; the file can be rewound. *)
Definition implementations {R} (ps : list (fparser R)) (filename : string) : list (fparser R) :=
  let m := get_parsers_from_filename ps filename in
  m ++ List.filter (fun p => negb (existsb (fun q => Nat.eqb (fp_id p) (fp_id q)) m)) ps.
Fixpoint try_each {R} (l : list (fparser R)) (pos : nat) : list (nat * nat) * res R :=
  match l with
  | [] => ([], Exn XRuntime)                    (* InvalidFrontendLaunchFileError *)
  | p :: l' =>
      match fp_load p pos with
      | Ok r => ([(fp_id p, pos)], Ok r)
      | Exn _ => let '(a, r) := try_each l' 0 in ((fp_id p, pos) :: a, r)
      | OutOfFuel => ([(fp_id p, pos)], OutOfFuel)
      end
  end.
Definition load {R} (ps : list (fparser R)) (filename : string) (pos : nat) : list (nat * nat) * res R :=
  try_each (implementations ps filename) pos.

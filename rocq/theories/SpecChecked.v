(** Specifications used by the theorems about checked arguments (C98). *)
From Verif Require Export Checked.

Section checked.
Context {Sb : Type}.
Notation value := (pyval Sb).
(** What can be iterated: once or again and again. *)
Definition can_iterate (v : value) : Prop :=
  match v with VStr _ | VList _ | VTuple _ | VIterator _ | VDict _ => True | _ => False end.
Definition used_up (v : value) : Prop := match v with VIterator _ => True | _ => False end.
(** The values with an order and a length, other than text. *)
Inductive has_items : value -> list value -> Prop :=
| items_list l : has_items (VList l) l
| items_tuple l : has_items (VTuple l) l
| items_dict l : has_items (VDict l) (map fst l).
(** What a text or a substitution stands for as a part of a substitution. *)
Inductive part (text : string -> Sb) : value -> Sb -> Prop :=
| part_text s : part text (VStr s) (text s)
| part_sub x : part text (VSub x) x.
(** What stands for a substitution: a substitution, or texts and substitutions, with at least one
    substitution. *)
Inductive stands_for (text : string -> Sb) : value -> list Sb -> Prop :=
| stands_sub x : stands_for text (VSub x) [x]
| stands_parts v l xs y : has_items v l -> Forall2 (part text) l xs -> In (VSub y) l -> stands_for text v xs.
(** The periods a timer accepts, and what it keeps of them. *)
Inductive is_period (text : string -> Sb) : value -> pv Sb -> Prop :=
| period_float f : is_period text (VFloat f) (PFloat f)
| period_text s f : py_float s = Some f -> is_period text (VStr s) (PFloat f)
| period_sub v xs : stands_for text v xs -> is_period text v (PList (map PSub xs)).
(** ... and the flags. *)
Inductive is_flag (text : string -> Sb) : value -> pv Sb -> Prop :=
| flag_bool b : is_flag text (VBool b) (PBool b)
| flag_sub v xs : stands_for text v xs -> is_flag text v (PList (map PSub xs)).

(** What may be given where substitutions are wanted: a text or a substitution, or several of them in
    anything that can be iterated, even none. *)
Inductive some_substitutions (text : string -> Sb) : value -> list Sb -> Prop :=
| some_one v x : part text v x -> some_substitutions text v [x]
| some_items v l xs : has_items v l -> Forall2 (part text) l xs -> some_substitutions text v xs
| some_once l xs : Forall2 (part text) l xs -> some_substitutions text (VIterator l) xs.

(** The arguments that can be given, and what they say. *)
Inductive gives_args : value -> list value -> Prop :=
| args_none : gives_args VNone []
| args_items v l : has_items v l -> gives_args v l
| args_once l : gives_args (VIterator l) l
| args_text s : gives_args (VStr s) (map (fun c => VStr (String c "")) (list_ascii_of_string s)).
Inductive gives_kwargs : value -> list (value * value) -> Prop :=
| kwargs_none : gives_kwargs VNone []
| kwargs_dict l : gives_kwargs (VDict l) l.
(** Arguments with names. *)
Definition named (l : list (string * value)) : list (value * value) := map (fun kv => (VStr kv.1, kv.2)) l.
End checked.

(** What an element of a markup file stands for (C88): a table of the built-in elements, and how
    the columns of the table are filled in. *)
From Verif Require Import SpecSubst.
From Verif Require Export SpecFrontend ParseMethods.

(** ** Reading attributes *)
(** A text where a value of type [t] is expected: the number if it is one, else the text itself; a
    truth value if it is one in YAML, where 1 and 0 stand for true and false, else the text. *)
Definition one_zero (s : string) : string := if String.eqb s "1" then "true" else if String.eqb s "0" then "false" else s.
Inductive text_as (yaml : string -> option (pv subst)) : string -> sty -> pv subst -> Prop :=
| ta_str s : text_as yaml s TStr (PStr s)
| ta_int s z : py_int s = Some z -> text_as yaml s TInt (PInt z)
| ta_not_int s : py_int s = None -> text_as yaml s TInt (PStr s)
| ta_float s f : py_float s = Some f -> text_as yaml s TFloat (PFloat f)
| ta_not_float s : py_float s = None -> text_as yaml s TFloat (PStr s)
| ta_bool s b : s <> ""%string -> yaml (one_zero s) = Some (PBool b) -> text_as yaml s TBool (PBool b)
| ta_bool_text s s' : s <> ""%string -> yaml (one_zero s) = Some (PStr s') -> text_as yaml s TBool (PStr s')
| ta_not_bool s : s = ""%string \/ yaml (one_zero s) = None -> text_as yaml s TBool (PStr (one_zero s)).
(** The attribute [n] is there and says [v], where a value of type [t] is expected: in XML the text
    as a [t] if it can be read as one; in YAML a value of that type or a text. *)
Inductive attr_val (yaml : string -> option (pv subst)) : elem -> string -> sty -> pv subst -> Prop :=
| av_xml e n t s v : assoc n (x_attrs e) = Some s -> ~ In (n ++ "-sep")%string (map fst (x_attrs e)) ->
    text_as yaml s t v -> attr_val yaml (ElX e) n t v
| av_yaml tag d n t w : assoc n d = Some w -> has_scalar_or_str true (to_pv w) t -> attr_val yaml (ElY tag (YDict d)) n t (to_pv w).
Definition attr_text yaml (el : elem) (n s : string) : Prop := attr_val yaml el n TStr (PStr s).
(** The nested elements called [n], if there are any. *)
Inductive nested : elem -> string -> list elem -> Prop :=
| ne_xml e n k ks : map ElX (List.filter (fun k => String.eqb (x_tag k) n) (x_kids e)) = k :: ks -> nested (ElX e) n (k :: ks)
| ne_yaml tag d n w l : assoc n d = Some (YList (w :: l)) -> Forall (fun v => exists d', v = YDict d') (w :: l) -> nested (ElY tag (YDict d)) n (map (ElY n) (w :: l)).
Definition no_nested (el : elem) (n : string) : Prop :=
  match el with ElX e => forall k, In k (x_kids e) -> x_tag k <> n | ElY _ _ => ~ has_attr el n end.
(** Nothing but these attributes, nested elements, and children is there. *)
Definition nothing_else (el : elem) (attrs nests : list string) (kids : bool) : Prop :=
  match el with
  | ElX e => (forall a, In a (map fst (x_attrs e)) -> In a attrs) /\ (forall k, In k (x_kids e) -> kids = true \/ In (x_tag k) nests)
  | ElY _ (YDict d) => forall a, In a (map fst d) -> In a (attrs ++ nests) \/ kids = true /\ a = "children"%string
  | ElY _ (YList _) => kids = true
  | ElY _ _ => False
  end.
Definition tag_of (el : elem) : string := match el with ElX e => x_tag e | ElY t _ => t end.

(** ** The table *)
(** How an attribute becomes a keyword argument: as a text with substitutions; the same, but left
    out if empty; as it is without escapes; as a command line; the word shutdown; as a typed value;
    as a number of seconds, kept as number or as text; as a value or a text with substitutions. *)
Inductive how := AsSubs | AsReason | AsPlain | AsCommand | AsShutdown | AsVal (t : sty) | AsSeconds (text : bool) | AsNorm (t : sty).
Inductive column :=
| Attr (name key : string) (required : bool) (h : how)
| Pairs (name key : string)                     (* nested elements with name and value *)
| Choices (name key : string).                  (* nested elements with a value *)
(** The children: none, all, all but those called keep. *)
Inductive kidmode := NoKids | AllKids | ButKeep.
Record rowspec := Row { r_class : string; r_before : list column; r_kids : kidmode; r_after : list column }.
Definition req (name key : string) := Attr name key true AsSubs.
Definition opt (name key : string) := Attr name key false AsSubs.
Definition rows : list (string * rowspec) :=
  [("executable", Row "ExecuteProcess"
      [Attr "cmd" "cmd" true AsCommand; opt "cwd" "cwd"; opt "name" "name"; Attr "on_exit" "on_exit" false AsShutdown;
       opt "launch-prefix" "prefix"; opt "output" "output"; opt "respawn" "respawn";
       Attr "respawn_max_retries" "respawn_max_retries" false (AsVal TInt); Attr "respawn_delay" "respawn_delay" false (AsSeconds false);
       Attr "sigkill_timeout" "sigkill_timeout" false (AsSeconds true); Attr "sigterm_timeout" "sigterm_timeout" false (AsSeconds true);
       Attr "shell" "shell" false (AsVal TBool); Attr "emulate_tty" "emulate_tty" false (AsVal TBool); Pairs "env" "additional_env"] NoKids []);
   ("shutdown", Row "Shutdown" [Attr "reason" "reason" false AsReason] NoKids []);
   ("reset_env", Row "ResetEnvironment" [] NoKids []);
   ("arg", Row "DeclareLaunchArgument"
      [Attr "name" "name" true AsPlain; opt "default" "default_value"; Attr "description" "description" false AsPlain; Choices "choice" "choices"] NoKids []);
   ("log", Row "LogInfo" [req "message" "msg"] NoKids []);
   ("unset_env", Row "UnsetEnvironmentVariable" [req "name" "name"] NoKids []);
   ("reset", Row "ResetLaunchConfigurations" [Pairs "keep" "launch_configurations"] NoKids []);
   ("include", Row "IncludeLaunchDescription" [req "file" "launch_description_source"; Pairs "arg" "launch_arguments"] NoKids []);
   ("append_env", Row "AppendEnvironmentVariable"
      [req "name" "name"; req "value" "value"; Attr "prepend" "prepend" false (AsNorm TBool); opt "separator" "separator"] NoKids []);
   ("set_env", Row "SetEnvironmentVariable" [req "name" "name"; req "value" "value"] NoKids []);
   ("group", Row "GroupAction"
      [Attr "scoped" "scoped" false (AsVal TBool); Attr "forwarding" "forwarding" false (AsVal TBool); Pairs "keep" "launch_configurations"] ButKeep []);
   ("timer", Row "TimerAction" [Attr "period" "period" true (AsNorm TFloat)] AllKids [Attr "cancel_on_shutdown" "cancel_on_shutdown" false (AsNorm TBool)]);
   ("let", Row "SetLaunchConfiguration" [req "name" "name"; req "value" "value"] NoKids [])]%string.
Definition attr_names (l : list column) : list string := flat_map (fun c => match c with Attr n _ _ _ => [n] | _ => [] end) l.
Definition nest_names (l : list column) : list string := flat_map (fun c => match c with Attr _ _ _ _ => [] | Pairs n _ | Choices n _ => [n] end) l.

(** Not below zero; NaN is not. *)
Definition not_negative (f : pyfloat) : Prop := match f with FFin q => (0 <= q)%Q | FInf neg => neg = false | FNan => True end.
Section spec.
Context (yaml : string -> option (pv subst)) (parse_sub : string -> res (list subst)).
(** A text with substitutions that is a single text is that text, see parse_if_substitutions. *)
Definition normal (l : list subst) (x : pv subst + list subst) : Prop :=
  (exists t, l = [SText t] /\ x = inl (PStr t)) \/ ((forall t, l <> [SText t]) /\ x = inr l).
(** The keyword arguments that the attribute gives if it is there. *)
Inductive filled (el : elem) (n key : string) : how -> list (string * kval) -> Prop :=
| f_subs s l : attr_text yaml el n s -> parse_sub s = Ok l -> filled el n key AsSubs [(key, KSubs l)]
| f_reason s l : attr_text yaml el n s -> s <> "" -> parse_sub s = Ok l -> filled el n key AsReason [(key, KSubs l)]
| f_no_reason : attr_text yaml el n "" -> filled el n key AsReason []
| f_plain s : attr_text yaml el n s -> filled el n key AsPlain [(key, KText (unescape s))]
| f_command s l c : attr_text yaml el n s -> parse_sub s = Ok l -> parse_cmdline l = Ok c -> filled el n key AsCommand [(key, KCmd c)]
| f_shutdown : attr_text yaml el n "shutdown" -> filled el n key AsShutdown [(key, KShutdown)]
| f_val t v : attr_val yaml el n t v -> filled el n key (AsVal t) [(key, KVal v)]
| f_seconds b f : attr_val yaml el n TFloat (PFloat f) -> not_negative f -> filled el n key (AsSeconds b) [(key, if b then KStrVal (PFloat f) else KVal (PFloat f))]
| f_norm_text t s l x : attr_val yaml el n t (PStr s) -> parse_sub s = Ok l -> normal l x -> filled el n key (AsNorm t) [(key, KNorm [x] false)]
| f_norm t v : attr_val yaml el n t v -> (forall s, v <> PStr s) -> filled el n key (AsNorm t) [(key, KNorm [inl v] false)].
Definition pair_of (el : elem) (p : list subst * list subst) : Prop :=
  exists s1 s2, attr_text yaml el "name" s1 /\ parse_sub s1 = Ok (fst p) /\ attr_text yaml el "value" s2 /\ parse_sub s2 = Ok (snd p)
    /\ nothing_else el ["name"; "value"]%string [] false.
Definition choice_of (el : elem) (t : string) : Prop := exists s, attr_text yaml el "value" s /\ t = unescape s.
Inductive gives (el : elem) : column -> list (string * kval) -> Prop :=
| g_attr n key r h kw : filled el n key h kw -> gives el (Attr n key r h) kw
| g_no_attr n key h : ~ has_attr el n -> gives el (Attr n key false h) []
| g_pairs n key ks l : nested el n ks -> Forall2 pair_of ks l -> gives el (Pairs n key) [(key, KPairs l)]
| g_no_pairs n key : no_nested el n -> gives el (Pairs n key) []
| g_choices n key ks l : nested el n ks -> Forall2 choice_of ks l -> gives el (Choices n key) [(key, KTexts l)]
| g_no_choices n key : no_nested el n -> gives el (Choices n key) [].
(** The condition of an action: if, unless, not both. *)
Inductive condition (el : elem) : list (string * kval) -> Prop :=
| c_none : ~ has_attr el "if" -> ~ has_attr el "unless" -> condition el []
| c_if s l : attr_text yaml el "if" s -> ~ has_attr el "unless" -> parse_sub s = Ok l -> condition el [("condition"%string, KIf l)]
| c_unless s l : attr_text yaml el "unless" s -> ~ has_attr el "if" -> parse_sub s = Ok l -> condition el [("condition"%string, KUnless l)].
Definition is_keep (el : elem) : bool := String.eqb (tag_of el) "keep".
Definition kept (m : kidmode) (ks : list elem) : list elem := match m with ButKeep => List.filter (fun k => negb (is_keep k)) ks | _ => ks end.
(** The action that an element stands for, [construct] being the call of its class. *)
Context (construct : string * list (string * kval) -> res act).
Inductive stands : elem -> act -> Prop :=
| stands_leaf el r base kws a : assoc (tag_of el) rows = Some r -> r_kids r = NoKids ->
    condition el base -> Forall2 (gives el) (r_before r) kws ->
    nothing_else el ("if" :: "unless" :: attr_names (r_before r))%string (nest_names (r_before r)) false ->
    construct (r_class r, base ++ concat kws) = Ok a -> stands el a
| stands_kids el r base kws ks acts kws' a : assoc (tag_of el) rows = Some r -> r_kids r <> NoKids ->
    condition el base -> Forall2 (gives el) (r_before r) kws ->
    kids_of el ks -> Forall2 stands (kept (r_kids r) ks) acts ->
    Forall2 (gives el) (r_after r) kws' ->
    nothing_else el ("if" :: "unless" :: attr_names (r_before r ++ r_after r))%string (nest_names (r_before r)) true ->
    construct (r_class r, base ++ concat kws ++ [("actions"%string, KActs acts)] ++ concat kws') = Ok a -> stands el a.
End spec.

(** ** The same in XML and YAML (C89) *)
(** The type of the values of an attribute. *)
Definition type_of_how (h : how) : sty := match h with AsVal t | AsNorm t => t | AsSeconds _ => TFloat | _ => TStr end.
Definition expects (r : rowspec) (n : string) : sty :=
  match List.find (fun c => match c with Attr m _ _ _ => String.eqb n m | _ => false end) (r_before r ++ r_after r) with
  | Some (Attr _ _ _ h) => type_of_how h
  | _ => TStr
  end.
(** A nested element with texts as attributes, and a mapping with the same texts. *)
Definition same_texts (k : xml) (w : yv) : Prop :=
  exists d, w = YDict d /\ x_kids k = [] /\ (forall n, ~ In (n ++ "-sep")%string (map fst (x_attrs k)))
    /\ forall n, assoc n d = match assoc n (x_attrs k) with Some s => Some (YStr s) | None => None end.
Definition called (n : string) (l : list xml) : list xml := List.filter (fun k => String.eqb (x_tag k) n) l.
Definition has_kids (r : rowspec) : bool := match r_kids r with NoKids => false | _ => true end.
Definition action_kids (m : kidmode) (l : list xml) : list xml := match m with NoKids => [] | AllKids => l | ButKeep => List.filter (fun k => negb (String.eqb (x_tag k) "keep")) l end.
(** The keys of the mapping that do not stand for attributes. *)
Definition reserved (r : rowspec) (n : string) : Prop := In n (nest_names (r_before r)) \/ (has_kids r = true /\ n = "children"%string).
(** The mapping has the attributes of the element, as values of the types that are expected, and its
    nested elements as lists under their name. *)
Record same_own (yaml : string -> option (pv subst)) (e : xml) (d : list (string * yv)) (r : rowspec) : Prop := {
  so_row : assoc (x_tag e) rows = Some r;
  so_sep : forall n, ~ In (n ++ "-sep")%string (map fst (x_attrs e));
  so_reserved : forall n, reserved r n -> ~ In n (map fst (x_attrs e));
  so_attrs : forall n, ~ reserved r n -> match assoc n (x_attrs e), assoc n d with
       | Some s, Some w => text_as yaml s (expects r n) (to_pv w)
       | None, None => True
       | _, _ => False
       end;
  so_nested : forall n, In n (nest_names (r_before r)) ->
       (called n (x_kids e) = [] /\ assoc n d = None)
       \/ (called n (x_kids e) <> [] /\ exists l, assoc n d = Some (YList l) /\ Forall2 same_texts (called n (x_kids e)) l) }.
(** ... and the actions within it as list of children. *)
Inductive same (yaml : string -> option (pv subst)) : xml -> yv -> Prop :=
| same_leaf e d r : same_own yaml e d r -> has_kids r = false ->
    (forall k, In k (x_kids e) -> In (x_tag k) (nest_names (r_before r))) -> same yaml e (YDict d)
| same_kids e d r ws : same_own yaml e d r -> has_kids r = true ->
    assoc "children" d = Some (YList (map (fun kw => YDict [(x_tag (fst kw), snd kw)]) (combine (action_kids (r_kids r) (x_kids e)) ws))) ->
    Forall2 (same yaml) (action_kids (r_kids r) (x_kids e)) ws -> same yaml e (YDict d).

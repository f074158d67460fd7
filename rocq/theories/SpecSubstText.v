(** Specifications for the theorems about substitutions written in text (C68). *)
From Verif Require Export SubstText SpecCmdline.

(** ** The grammar *)
Fixpoint last_char (s : string) : option ascii :=
  match s with EmptyString => None | String c EmptyString => Some c | String _ s' => last_char s' end.
(** A character that has a meaning of its own, unless it comes after a backslash: the beginning
    of a substitution; the quotes around; in arguments also the other quotes and parentheses. *)
Definition special (raw : bool) (m : mode) (c : ascii) (next : option ascii) : Prop :=
  c = dollar /\ next = Some lpar \/
  c = squote /\ (m = MSq \/ m = MUnq /\ raw = true) \/
  c = dquote /\ (m = MDq \/ m = MUnq /\ raw = true) \/
  raw = true /\ (c = lpar \/ c = rpar).
(** Whether text goes on with [c]; in arguments it ends at a space. *)
Definition allowed (raw : bool) (m : mode) (before : option ascii) (c : ascii) (next : option ascii) : Prop :=
  (special raw m c next -> before = Some backslash) /\ (raw = true -> c <> spc).
(** Text that goes as far as possible. *)
Definition token (raw : bool) (m : mode) (t rest : string) : Prop :=
  t <> "" /\
  (forall a c b, t = (a ++ String c b)%string -> allowed raw m (last_char a) c (first_char (b ++ rest))) /\
  (forall c r, rest = String c r -> ~ allowed raw m (last_char t) c (first_char r)).
Definition letters : string := "abcdefghijklmnopqrstuvwxyzABCDEFGHIJKLMNOPQRSTUVWXYZ".
Definition identifier (s : string) : Prop := exists c r, s = String c r /\ has_char c letters = true /\
  all_chars (fun d => has_char d (letters ++ "0123456789_-")) r = true.
Definition quote_of (m : mode) : option ascii := match m with MUnq => None | MSq => Some squote | MDq => Some dquote end.
(** [g_items raw m s l rest]: [s] is a sequence of texts and substitutions [l] and then [rest]. *)
Inductive g_items : bool -> mode -> string -> list node -> string -> Prop :=
| gi_nil raw m s : g_items raw m s [] s
| gi_text raw m t s l rest : token raw m t s -> g_items raw m s l rest -> g_items raw m (t ++ s) (NText (unescape t) :: l) rest
| gi_sub raw m s n s' l rest : g_sub m s n s' -> g_items raw m s' l rest -> g_items raw m ("$(" ++ s) (n :: l) rest
(** After [$(]: a name, perhaps arguments after spaces, and the closing parenthesis. *)
with g_sub : mode -> string -> node -> string -> Prop :=
| gs_none m name rest : identifier name -> g_sub m (name ++ ")" ++ rest) (NSub name []) rest
| gs_args m name s vs rest : identifier name -> g_args m s vs rest -> g_sub m (name ++ " " ++ s) (NSub name vs) rest
with g_args : mode -> string -> list (list node) -> string -> Prop :=
| ga_last m s v rest : g_value m s v (")" ++ rest) -> g_args m s [v] rest
| ga_more m s v s' vs rest : g_value m s v (" " ++ s') -> g_args m s' vs rest -> g_args m s (v :: vs) rest
(** Plain, or in quotes; there are no quotes within quotes. *)
with g_value : mode -> string -> list node -> string -> Prop :=
| gv_plain m s l rest : l <> [] -> g_items true m s l rest -> g_value m s l rest
| gv_quoted m q s l rest : quote_of m = Some q -> g_items false m s l (String q rest) -> g_value MUnq (String q s) l rest.

(** ** What can be written *)
Definition ends_bs (t : string) : Prop := last_char t = Some backslash.
(** The last item is a text that ends with a backslash. *)
Definition bs_end (l : list node) : Prop := exists l' t, l = l' ++ [NText t] /\ ends_bs t.
(** [writable quoted arg l]: [quoted]: within quotes; [arg]: as an argument. *)
Inductive writable : bool -> bool -> list node -> Prop :=
| w_nil q a : writable q a []
| w_text q a t l : t <> "" -> (a = true -> has_char spc t = false) -> (l <> [] -> ~ ends_bs t) ->
    (forall t' l', l <> NText t' :: l') -> writable q a l -> writable q a (NText t :: l)
| w_sub q a name args l : identifier name -> writable_args q args -> writable q a l -> writable q a (NSub name args :: l)
with writable_args : bool -> list (list node) -> Prop :=
| wa_nil q : writable_args q []
| wa_plain q v vs : v <> [] -> writable q true v -> (vs = [] -> ~ bs_end v) -> writable_args q vs -> writable_args q (v :: vs)
| wa_quoted v vs : writable true false v -> ~ bs_end v -> writable_args false vs -> writable_args false (v :: vs).

(** A way to write a text: a backslash before every character that could have a meaning. *)
Definition needs (c : ascii) : bool := has_char c (String backslash (String dollar (String squote (String dquote (String lpar (String rpar "")))))).
Fixpoint esc (t : string) : string :=
  match t with EmptyString => "" | String c t' => if needs c then String backslash (String c (esc t')) else String c (esc t') end.

(** ** Looking up *)
(** What a list of nodes stands for. *)
Inductive stands {S} (text : string -> S) (methods : string -> option (list (list S) -> res S)) : node -> S -> Prop :=
| st_text s : stands text methods (NText s) (text s)
| st_sub name args vs f x : Forall2 (Forall2 (stands text methods)) args vs -> methods name = Some f -> f vs = Ok x -> stands text methods (NSub name args) x.
(** A substitution of this name occurs, however deep. *)
Inductive mentions (name : string) : node -> Prop :=
| mn_here args : mentions name (NSub name args)
| mn_deep name' args v n : In v args -> In n v -> mentions name n -> mentions name (NSub name' args).

(** ** Values *)
(** What a value becomes: a string without substitutions the text, another string the
    substitutions, anything else itself. *)
Inductive becomes {S A} (text : string -> S) (methods : string -> option (list (list S) -> res S)) (text_of : S -> option string) : sval A -> oval (S := S) A -> Prop :=
| bc_text s x t : parse_substitution text methods s = Ok [x] -> text_of x = Some t -> becomes text methods text_of (VStr s) (OText t)
| bc_subs s xs : parse_substitution text methods s = Ok xs -> (forall x t, xs = [x] -> text_of x <> Some t) -> becomes text methods text_of (VStr s) (OSubs xs)
| bc_other a : becomes text methods text_of (VOther a) (OOther a).
(** The type of a result that is not made of substitutions. *)
Definition literal_type {S A T} (str : T) (type_of : A -> T) (o : oval (S := S) A) : option T :=
  match o with OText _ => Some str | OSubs _ => None | OOther a => Some (type_of a) end.
Definition uniform {S A T} (str : T) (type_of : A -> T) (os : list (oval (S := S) A)) : Prop :=
  forall o o' t t', In o os -> In o' os -> literal_type str type_of o = Some t -> literal_type str type_of o' = Some t' -> t = t'.

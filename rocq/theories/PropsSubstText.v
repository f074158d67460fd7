(** Theorems about substitutions written in text (C68).
    Statements use SubstText.v and SpecSubstText.v. *)
From Verif Require Import SpecSubstText SubstTextFacts.

(** * C68 *)
(** Reading ends for every text: it gives a list or fails. *)
Theorem C68_total : forall s, read_text s <> OutOfFuel.
Proof. exact read_total. Qed.
(** What is read is what the grammar says, with texts as long as possible; there is no other reading. *)
Theorem C68_grammar : forall s l, s <> "" -> (read_text s = Ok l <-> g_items false MUnq s l "").
Proof. exact read_iff. Qed.
(** A text in which every beginning of a substitution is escaped stands for itself, without the
    backslashes of the escapes. *)
Theorem C68_plain : forall s, s <> "" -> (forall a b, s = (a ++ "$(" ++ b)%string -> ends_bs a) -> read_text s = Ok [NText (unescape s)].
Proof. exact plain_law. Qed.
(** Every text can be written so that it stands for itself. *)
Theorem C68_escape : forall t, t <> "" -> read_text (esc t) = Ok [NText t].
Proof. exact esc_law. Qed.
(** What can be written: exactly these lists are readings of some text. *)
Theorem C68_writable : forall l, (exists s, read_text s = Ok l) <-> l = [NText ""] \/ l <> [] /\ writable false false l.
Proof. exact writable_law. Qed.
(** After a text comes a substitution, never another text. *)
Theorem C68_between : forall s l1 t n l2, read_text s = Ok (l1 ++ NText t :: n :: l2) -> ~ ends_bs t /\ exists name args, n = NSub name args.
Proof. exact mid_law. Qed.
(** What is parsed is what the reading stands for; it fails if anything in it has no meaning. *)
Theorem C68_lookup : forall S (text : string -> S) (methods : string -> option (list (list S) -> res S)) s xs,
  parse_substitution text methods s = Ok xs <-> exists l, read_text s = Ok l /\ Forall2 (stands text methods) l xs.
Proof. exact @lookup_law. Qed.
(** A name that is not known makes it fail, however deep it occurs. *)
Theorem C68_unknown : forall S (text : string -> S) (methods : string -> option (list (list S) -> res S)) s l n name xs,
  read_text s = Ok l -> In n l -> mentions name n -> methods name = None -> parse_substitution text methods s <> Ok xs.
Proof. exact @unknown_law. Qed.
(** Lists of values: each becomes what it stands for, if all that are not made of substitutions
    are of one type; otherwise it is a ValueError. *)
Theorem C68_values : forall S A T (text : string -> S) methods eqb_type (str : T) (type_of : A -> T) text_of,
  (forall t u, eqb_type t u = true <-> t = u) -> forall vs os,
  parse_values text methods eqb_type str type_of text_of vs = Ok os <-> Forall2 (becomes text methods text_of) vs os /\ uniform str type_of os.
Proof. exact @values_law. Qed.
Theorem C68_mixed : forall S A T (text : string -> S) methods eqb_type (str : T) (type_of : A -> T) text_of,
  (forall t u, eqb_type t u = true <-> t = u) -> forall vs os,
  Forall2 (becomes text methods text_of) vs os -> ~ uniform str type_of os -> parse_values text methods eqb_type str type_of text_of vs = Exn XValue.
Proof. exact @values_mixed. Qed.
Theorem C68_value : forall S A T (text : string -> S) methods (str : T) (type_of : A -> T) text_of v o,
  parse_value text methods str type_of text_of v = Ok o <-> becomes text methods text_of v o.
Proof. exact @value_law. Qed.
(** Findings.  An escaped backslash before a substitution disables the substitution ... *)
Theorem C68_escaped_backslash_refuted : ~ (forall t name, identifier name -> exists s, read_text s = Ok [NText t; NSub name []]).
Proof.
  intros H. destruct (H "\" "env") as [s Hs]; [by exists "e"%char, "nv"|]. by destruct (mid_law s [] "\" (NSub "env" []) [] Hs).
Qed.
Example C68_ex_backslash : read_text "a\\$(env x)" = Ok [NText "a\$(env x)"].
Proof. reflexivity. Qed.
(** ... so a text that ends with a backslash cannot be the last argument without quotes ... *)
Theorem C68_last_argument_refuted : read_text "$(env x\\)" = Exn XRuntime /\ read_text "$(env x\\ y)" = Ok [NSub "env" [[NText "x\"]; [NText "y"]]].
Proof. split; reflexivity. Qed.
(** ... and within quotes quotes do not quote, so arguments cannot hold spaces there. *)
Theorem C68_quotes_in_quotes_refuted :
  read_text "$(a $(b 'x y'))" = Ok [NSub "a" [[NSub "b" [[NText "x y"]]]]] /\
  read_text "$(a ""$(b 'x y')"")" = Ok [NSub "a" [[NSub "b" [[NText "'x"]; [NText "y'"]]]]].
Proof. split; reflexivity. Qed.
Print Assumptions C68_total. Print Assumptions C68_grammar. Print Assumptions C68_plain. Print Assumptions C68_escape. Print Assumptions C68_writable. Print Assumptions C68_between.
Print Assumptions C68_lookup. Print Assumptions C68_unknown. Print Assumptions C68_values. Print Assumptions C68_mixed. Print Assumptions C68_value.
Print Assumptions C68_escaped_backslash_refuted. Print Assumptions C68_last_argument_refuted. Print Assumptions C68_quotes_in_quotes_refuted.

(** Texts of the project's tests. *)
Example C68_ex_nested : read_text "hi$(test asd $(test 2 $(test 1)))" = Ok [NText "hi"; NSub "test" [[NText "asd"]; [NSub "test" [[NText "2"]; [NSub "test" [[NText "1"]]]]]]].
Proof. reflexivity. Qed.
Example C68_ex_parts : read_text "$(env what heck_$(env WAS 'an other')) $5" =
  Ok [NSub "env" [[NText "what"]; [NText "heck_"; NSub "env" [[NText "WAS"]; [NText "an other"]]]]; NText " $5"].
Proof. reflexivity. Qed.
Example C68_ex_errors : map read_text ["$(env x"; "$( env)"; "$(env  x)"; "$(3 x)"; "$()"; "$(env 'x)"; "$(env x'y')"] = repeat (Exn XRuntime) 7.
Proof. reflexivity. Qed.
Example C68_ex_quoted_empty : read_text "$(env '' """")" = Ok [NSub "env" [[]; []]].
Proof. reflexivity. Qed.
Example C68_ex_writable : writable false false [NSub "env" [[NText "a b\c"]; [NText "\"]; [NText "x"]]; NText " \"].
Proof.
  constructor.
  - by exists "e"%char, "nv".
  - apply wa_quoted; [|intros (l & t & E & He); destruct l as [|? [|? ?]]; [injection E as <-|..]; done|].
    + constructor; [done..|constructor].
    + apply wa_plain; [done| |done|]; [constructor; [done..|constructor]|]. apply wa_plain; [done| |intros _ (l & t & E & He); destruct l as [|? [|? ?]]; [injection E as <-|..]; done|constructor]. constructor; [done..|constructor].
  - constructor; [done..|constructor].
Qed.
Example C68_ex_escape : esc "cost: $(5)\'" = "cost: \$\(5\)\\\'" /\ read_text "cost: \$\(5\)\\\'" = Ok [NText "cost: $(5)\'"].
Proof. split; reflexivity. Qed.
(** Lists of values; the type of what substitutions will give does not count. *)
Definition ex_methods (name : string) : option (list (list (string + unit)) -> res (string + unit)) := if String.eqb name "var" then Some (fun _ => Ok (inr tt)) else None.
Definition ex_text_of (x : string + unit) : option string := match x with inl t => Some t | inr _ => None end.
Definition ex_values (vs : list (sval nat)) := parse_values inl ex_methods Nat.eqb 0 (fun _ => 1) ex_text_of vs.
Example C68_ex_values : ex_values [VOther 5; VStr "$(var x)"; VOther 6] = Ok [OOther 5; OSubs [inr tt]; OOther 6] /\ ex_values [VStr "a\$"; VStr "b"] = Ok [OText "a$"; OText "b"] /\
  ex_values [VOther 5; VStr "$(var x)"; VStr "x"] = Exn XValue /\ ex_values [VStr "$(nope x)"] = Exn XRuntime.
Proof. repeat split; reflexivity. Qed.

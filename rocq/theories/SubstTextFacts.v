(** Lemmas about substitutions written in text. *)
From Coq Require Import ssreflect.
From Verif Require Import SpecSubstText StrFacts CmdlineFacts.
#[local] Arguments String.append : simpl nomatch.

(** ** Characters *)
Lemma accepts_iff raw m before c next : accepts raw m (match before with Some b => Ascii.eqb b backslash | None => false end) c next = true <-> allowed raw m before c next.
Proof.
  set (e := match before with Some b => Ascii.eqb b backslash | None => false end).
  assert (e = true <-> before = Some backslash) as He.
  { unfold e. destruct before as [b|]; [|done]. rewrite Ascii.eqb_eq. split; [by intros ->|by intros [= ->]]. }
  clearbody e. unfold allowed, special, accepts. rewrite -He. clear He.
  destruct (Ascii.eqb_spec c dollar) as [->|H1].
  { destruct next as [n|]; [destruct (Ascii.eqb_spec n lpar) as [->|Hn]|]; cbn [negb]; rewrite ?orb_true_r ?orb_false_r.
    - split; [intros ->; split; [done|]; intros _; done|]. intros [H _]. apply H. by left.
    - split; [|done]. intros _. split; [|done]. intros [[_ [= ?]]|[[? _]|[[? _]|[_ [?|?]]]]]; done.
    - split; [|done]. intros _. split; [|done]. intros [[_ [= ?]]|[[? _]|[[? _]|[_ [?|?]]]]]; done. }
  destruct (Ascii.eqb_spec c squote) as [->|H2].
  { destruct m, raw, e; cbn; split; try done; try (intros [H _]; apply H; tauto); (split; [|done]); intros [[? _]|[[_ [?|[? ?]]]|[[? _]|[? [?|?]]]]]; done. }
  destruct (Ascii.eqb_spec c dquote) as [->|H3].
  { destruct m, raw, e; cbn; split; try done; try (intros [H _]; apply H; tauto); (split; [|done]); intros [[? _]|[[? _]|[[_ [?|[? ?]]]|[? [?|?]]]]]; done. }
  destruct (Ascii.eqb_spec c lpar) as [->|H4]; [|destruct (Ascii.eqb_spec c rpar) as [->|H5]]; cbn [orb].
  - destruct raw, e; cbn; split; try done; try (intros [H _]; apply H; tauto); (split; [|done]); intros [[? _]|[[? _]|[[? _]|[? [?|?]]]]]; done.
  - destruct raw, e; cbn; split; try done; try (intros [H _]; apply H; tauto); (split; [|done]); intros [[? _]|[[? _]|[[? _]|[? [?|?]]]]]; done.
  - destruct (Ascii.eqb_spec c spc) as [->|H6].
    + destruct raw; cbn; (split; [|by intros [_ H]; try (exfalso; by apply H)]); [done|]. intros _. split; [|done]. intros [[? _]|[[? _]|[[? _]|[? _]]]]; done.
    + split; [|done]. intros _. split; [|done]. intros [[? _]|[[? _]|[[? _]|[_ [?|?]]]]]; done.
Qed.
(** ** Tokens *)
Fixpoint run_ok (raw : bool) (m : mode) (before : option ascii) (t rest : string) : Prop :=
  match t with
  | EmptyString => match rest with String c r => ~ allowed raw m before c (first_char r) | EmptyString => True end
  | String c t' => allowed raw m before c (first_char (t' ++ rest)) /\ run_ok raw m (Some c) t' rest
  end.
Definition esc_of (before : option ascii) : bool := match before with Some b => Ascii.eqb b backslash | None => false end.
Lemma lex_iff raw m s before t rest : lex raw m (esc_of before) s = (t, rest) <-> s = (t ++ rest)%string /\ run_ok raw m before t rest.
Proof.
  revert before t. induction s as [|c s IH]; intros before t.
  { cbn. split; [by intros [= <- <-]|]. intros [E _]. destruct t; [cbn in E; by rewrite -E|done]. }
  cbn [lex]. destruct (accepts raw m (esc_of before) c (first_char s)) eqn:Ea.
  - apply accepts_iff in Ea. change (Ascii.eqb c backslash) with (esc_of (Some c)). destruct (lex raw m (esc_of (Some c)) s) as [t' rest'] eqn:El. split.
    + intros [= <- <-]. apply IH in El as [-> Hr]. split; [done|]. split; [done|done].
    + intros [E Hr]. destruct t as [|d t]; [cbn in E; subst rest; by destruct Hr|]. injection E as <- ->. destruct Hr as [_ Hr].
      assert (lex raw m (esc_of (Some c)) (t ++ rest) = (t, rest)) as H; [by apply IH|]. rewrite H in El. by injection El as <- <-.
  - assert (~ allowed raw m before c (first_char s)) as Hn. { intros H%accepts_iff. unfold esc_of in Ea. congruence. }
    split; [by intros [= <- <-]|]. intros [E Hr]. destruct t as [|d t]; [cbn in E; by rewrite E|]. injection E as <- ->. by destruct Hr.
Qed.
Lemma last_char_snoc a c : last_char (a ++ String c "") = Some c.
Proof. induction a as [|d a IH]; [done|]. cbn. destruct a; [done|]. exact IH. Qed.
Lemma last_char_app a b : b <> "" -> last_char (a ++ b) = last_char b.
Proof. intros Hb. induction a as [|d a IH]; [done|]. change (String d a ++ b)%string with (String d (a ++ b)). cbn [last_char]. rewrite IH. destruct (a ++ b)%string eqn:E; [|done]. by destruct a, b. Qed.
Definition before_of (before : option ascii) (a : string) : option ascii := match a with EmptyString => before | _ => last_char a end.
Lemma run_ok_iff raw m t rest : forall before, run_ok raw m before t rest <->
  (forall a c b, t = (a ++ String c b)%string -> allowed raw m (before_of before a) c (first_char (b ++ rest))) /\
  (forall c r, rest = String c r -> ~ allowed raw m (before_of before t) c (first_char r)).
Proof.
  assert (forall before x a, before_of before (String x a) = before_of (Some x) a) as Hb by (by intros before x []).
  induction t as [|x t IH]; intros before.
  - cbn. split.
    + intros H. split; [by intros []|]. intros c r ->. done.
    + intros [_ H]. destruct rest as [|c r]; [done|]. by apply H.
  - cbn [run_ok]. rewrite IH. split.
    + intros (H1 & H2 & H3). split.
      * intros [|y a] c b E; injection E as <- ->; [done|]. rewrite Hb. by apply H2.
      * intros c r ->. rewrite Hb. by apply H3.
    + intros [H1 H2]. split; [by apply (H1 "")|]. split.
      * intros a c b ->. rewrite -(Hb before). by apply (H1 (String x a)).
      * intros c r E. rewrite -(Hb before). by apply H2.
Qed.
Lemma token_run raw m t rest : token raw m t rest <-> t <> "" /\ run_ok raw m None t rest.
Proof.
  rewrite /token run_ok_iff. assert (forall a, before_of None a = last_char a) as Hb by (by intros []). rewrite Hb.
  split; intros (H1 & H2 & H3); (split; [done|]); (split; [|done]); intros a c b E; [rewrite Hb|rewrite -Hb]; by apply H2.
Qed.
Lemma lex_token raw m t rest : t <> "" -> (lex raw m false (t ++ rest) = (t, rest) <-> token raw m t rest).
Proof. intros Ht. rewrite token_run (lex_iff raw m _ None). split; [by intros [_ ?]|by intros [_ ?]]. Qed.
Lemma lex_split raw m s t rest : lex raw m false s = (t, rest) -> s = (t ++ rest)%string.
Proof. intros H. by apply (lex_iff raw m s None) in H as [? _]. Qed.
Lemma lex_some raw m s t rest : lex raw m false s = (t, rest) -> t <> "" -> token raw m t rest.
Proof. intros H Ht. apply lex_token; [done|]. by rewrite -(lex_split _ _ _ _ _ H). Qed.

(** ** Names *)
Lemma letter_iff c : letter c = has_char c letters.
Proof. destruct c as [[] [] [] [] [] [] [] []]; reflexivity. Qed.
Lemma ident_char_iff c : ident_char c = has_char c (letters ++ "0123456789_-").
Proof. destruct c as [[] [] [] [] [] [] [] []]; reflexivity. Qed.
Lemma lex_while_split p s t rest : lex_while p s = (t, rest) -> s = (t ++ rest)%string /\ all_chars p t = true.
Proof.
  revert t. induction s as [|c s IH]; intros t; cbn; [by intros [= <- <-]|]. destruct (p c) eqn:Ep; [|by intros [= <- <-]].
  destruct (lex_while p s) as [t' r'] eqn:E. intros [= <- <-]. destruct (IH _ eq_refl) as [-> H]. cbn. by rewrite Ep H.
Qed.
Lemma lex_while_app p t rest : all_chars p t = true -> (forall c r, rest = String c r -> p c = false) -> lex_while p (t ++ rest) = (t, rest).
Proof.
  intros Ht Hr. induction t as [|c t IH]; cbn in Ht |- *.
  - destruct rest as [|c r]; [done|]. cbn. by rewrite (Hr c r eq_refl).
  - apply andb_true_iff in Ht as [-> Ht]. by rewrite IH.
Qed.
Lemma all_chars_ext p q s : (forall c, p c = q c) -> all_chars p s = all_chars q s.
Proof. intros H. induction s as [|c s IH]; [done|]. cbn. by rewrite H IH. Qed.
Lemma lex_ident_sound s name rest : lex_ident s = (name, rest) -> name <> "" -> s = (name ++ rest)%string /\ identifier name.
Proof.
  rewrite /lex_ident. destruct s as [|c s]; [by intros [= <- _]|]. destruct (letter c) eqn:El; [|by intros [= <- _]]. intros H Hn.
  apply lex_while_split in H as [E Ha]. split; [done|]. destruct name as [|d name]; [done|]. injection E as -> _. exists d, name. split; [done|].
  rewrite -letter_iff. split; [done|]. cbn [all_chars] in Ha. apply andb_true_iff in Ha as [_ Ha]. rewrite (all_chars_ext _ ident_char); [|done]. intros x. by rewrite ident_char_iff.
Qed.
Lemma lex_ident_complete name c rest : identifier name -> c = rpar \/ c = spc -> lex_ident (name ++ String c rest) = (name, String c rest).
Proof.
  intros (d & r & -> & Hd & Hr) Hc. rewrite /lex_ident. change (String d r ++ String c rest)%string with (String d (r ++ String c rest)). cbn [append].
  rewrite letter_iff Hd. change (String d (r ++ String c rest)) with (String d r ++ String c rest)%string. apply lex_while_app.
  - cbn [all_chars]. rewrite ident_char_iff. apply andb_true_iff. split.
    + clear -Hd. revert Hd. destruct d as [[] [] [] [] [] [] [] []]; vm_compute; done.
    + rewrite (all_chars_ext ident_char _ _ ident_char_iff). exact Hr.
  - intros c' r' [= <- _]. destruct Hc as [-> | ->]; reflexivity.
Qed.

(** ** Reading is sound *)
Section sound.
Context (rs : mode -> string -> res (node * string)).
Context (Hrs : forall m s n rest, rs m s = Ok (n, rest) -> g_sub m s n rest).
Lemma items_sound f raw m s l rest : read_items rs f raw m s = Ok (l, rest) -> g_items raw m s l rest.
Proof using Hrs.
  revert s l. induction f as [|f IH]; [done|]. intros s l. cbn [read_items]. destruct (lex raw m false s) as [t s'] eqn:El. destruct t as [|x t].
  - destruct s as [|a [|b s]]; [by intros [= <- <-]; constructor..|]. destruct (Ascii.eqb_spec a dollar) as [->|]; [destruct (Ascii.eqb_spec b lpar) as [->|]|]; cbn [andb]; [|by intros [= <- <-]; constructor..].
    destruct (rs m s) as [[n s1]| |] eqn:Er; [|done..]. cbn. destruct (read_items rs f raw m s1) as [[l1 s2]| |] eqn:Ei; [|done..]. cbn. intros [= <- <-].
    change (String dollar (String lpar s)) with ("$(" ++ s)%string. apply (gi_sub _ _ _ _ s1); [by apply Hrs|by apply IH].
  - destruct (read_items rs f raw m s') as [[l1 s2]| |] eqn:Ei; [|done..]. cbn -[unescape]. intros [= <- <-]. rewrite (lex_split _ _ _ _ _ El). constructor; [|by apply IH].
    by apply (lex_some _ _ s).
Qed.
Lemma value_sound f m s l rest : value rs f m s = Ok (l, rest) -> g_value m s l rest.
Proof using Hrs.
  rewrite /value. set (plain := mbind _ _).
  assert (plain = Ok (l, rest) -> g_value m s l rest) as Hp.
  { unfold plain. destruct (read_items rs f true m s) as [[l1 s1]| |] eqn:Ei; [|done..]. cbn. destruct l1 as [|x l1]; [done|]. intros [= <- <-]. constructor; [done|]. by apply items_sound in Ei. }
  clearbody plain. destruct m; [|done..]. destruct s as [|c s]; [done|].
  assert (forall m' q, quote_of m' = Some q -> ('(l, rest) ← read_items rs f false m' s; match rest with String c rest' => if Ascii.eqb c q then Ok (l, rest') else Exn XRuntime | EmptyString => Exn XRuntime end) = Ok (l, rest) ->
     g_value MUnq (String q s) l rest) as Hq.
  { intros m' q Hq. destruct (read_items rs f false m' s) as [[l1 s1]| |] eqn:Ei; [|done..]. cbn. destruct s1 as [|c' s1]; [done|]. destruct (Ascii.eqb_spec c' q) as [->|]; [|done]. intros [= <- <-].
    apply (gv_quoted m'); [done|]. by apply items_sound in Ei. }
  destruct (Ascii.eqb_spec c squote) as [->|]; [by apply (Hq MSq)|]. destruct (Ascii.eqb_spec c dquote) as [->|]; [by apply (Hq MDq)|done].
Qed.
Lemma arguments_sound f vf m s vs rest : read_arguments rs f vf m s = Ok (vs, rest) -> g_args m s vs rest.
Proof using Hrs.
  revert s vs. induction f as [|f IH]; [done|]. intros s vs. cbn [read_arguments]. destruct (value rs vf m s) as [[v s1]| |] eqn:Ev; [|done..]. apply value_sound in Ev. cbn.
  destruct s1 as [|c s1]; [done|]. destruct (Ascii.eqb_spec c rpar) as [->|]; [intros [= <- <-]; by apply ga_last|]. destruct (Ascii.eqb_spec c spc) as [->|]; [|done].
  destruct (read_arguments rs f vf m s1) as [[vs1 s2]| |] eqn:Ea; [|done..]. cbn. intros [= <- <-]. apply (ga_more _ _ _ s1); [done|by apply IH].
Qed.
End sound.
Lemma substitution_sound f m s n rest : substitution f m s = Ok (n, rest) -> g_sub m s n rest.
Proof.
  revert m s n rest. induction f as [|f IH]; [done|]. intros m s n rest. cbn [substitution]. destruct (lex_ident s) as [name s1] eqn:El. destruct name as [|x name]; [done|].
  destruct s1 as [|c s1]; [done|]. destruct (lex_ident_sound _ _ _ El) as [-> Hn]; [done|].
  destruct (Ascii.eqb_spec c rpar) as [->|]; [intros [= <- <-]; by apply gs_none|]. destruct (Ascii.eqb_spec c spc) as [->|]; [|done].
  set (g := S (String.length _)). destruct (read_arguments (substitution f) g g m s1) as [[vs s2]| |] eqn:Ea; [|done..]. cbn. intros [= <- <-].
  apply (gs_args m (String x name) s1); [done|]. by apply arguments_sound in Ea.
Qed.

(** ** Lengths *)
Scheme gi_min := Minimality for g_items Sort Prop with gs_min := Minimality for g_sub Sort Prop
  with ga_min := Minimality for g_args Sort Prop with gv_min := Minimality for g_value Sort Prop.
Combined Scheme g_min from gi_min, gs_min, ga_min, gv_min.
Lemma len_app a b : String.length (a ++ b) = String.length a + String.length b.
Proof. induction a as [|c a IH]; [done|]. change (String c a ++ b)%string with (String c (a ++ b)). cbn. by rewrite IH. Qed.
Lemma len_pos t : t <> "" -> 0 < String.length t.
Proof. destruct t; [done|]. cbn. lia. Qed.
Lemma g_len :
  (forall raw m s l rest, g_items raw m s l rest -> String.length rest <= String.length s) /\
  (forall m s n rest, g_sub m s n rest -> String.length rest < String.length s) /\
  (forall m s vs rest, g_args m s vs rest -> String.length rest < String.length s) /\
  (forall m s l rest, g_value m s l rest -> String.length rest <= String.length s).
Proof.
  apply g_min; intros; repeat rewrite len_app; repeat match goal with H : context [String.length (_ ++ _)] |- _ => rewrite len_app in H end; cbn [String.length] in *; try lia.
Qed.

(** ** Reading is complete *)
Definition stopped (raw : bool) (m : mode) (rest : string) : Prop :=
  (forall c r, rest = String c r -> ~ allowed raw m None c (first_char r)) /\ (forall r, rest <> ("$(" ++ r)%string).
Lemma lex_none raw m rest : (forall c r, rest = String c r -> ~ allowed raw m None c (first_char r)) -> lex raw m false rest = ("", rest).
Proof. intros H. apply (lex_iff raw m rest None). split; [done|]. destruct rest as [|c r]; [done|]. by apply H. Qed.
Lemma items_stopped rs f raw m rest : stopped raw m rest -> read_items rs (S f) raw m rest = Ok ([], rest).
Proof.
  intros [H1 H2]. cbn [read_items]. rewrite (lex_none _ _ _ H1). destruct rest as [|a [|b r]]; [done..|].
  destruct (Ascii.eqb_spec a dollar) as [->|]; [|done]. destruct (Ascii.eqb_spec b lpar) as [->|]; [|done]. by destruct (H2 r).
Qed.
Lemma sub_not_allowed raw m r : ~ allowed raw m None dollar (first_char (String lpar r)).
Proof. intros [H _]. assert (None = Some backslash) as E; [|done]. apply H. by left. Qed.
Lemma stopped_arg m c r : c = rpar \/ c = spc -> stopped true m (String c r).
Proof.
  intros Hc. split.
  - intros c' r' [= <- <-] [H1 H2]. destruct Hc as [-> | ->]; [|by apply H2]. assert (None = Some backslash) as E; [|done]. apply H1. right. right. right. split; [done|]. by right.
  - intros r' E. destruct Hc as [-> | ->]; done.
Qed.
Lemma stopped_quote m q r : quote_of m = Some q -> stopped false m (String q r).
Proof.
  intros Hq. split.
  - intros c' r' [= <- <-] [H1 _]. assert (None = Some backslash) as E; [|done]. apply H1. destruct m; cbn in Hq; [done|injection Hq as <-..]; [right; left|right; right; left]; (split; [done|by left]).
  - intros r' E. destruct m; cbn in Hq; [done|injection Hq as <-..]; done.
Qed.
Lemma plain_no_quote s l rest q : quote_of MSq = Some q \/ quote_of MDq = Some q -> l <> [] -> g_items true MUnq (String q s) l rest -> False.
Proof.
  intros Hq Hl H. inversion H; subst; [done| |].
  - match goal with H0 : token _ _ _ _ |- _ => rename H0 into Ht end. match type of Ht with token _ _ ?t0 _ => destruct t0 as [|c t]; [by destruct Ht|] end.
    destruct Ht as (_ & Ht & _). specialize (Ht "" c t eq_refl) as [Ht _].
    match goal with E : (String _ _ ++ _)%string = _ |- _ => injection E as -> _ end.
    assert (None = Some backslash) as E; [|done]. apply Ht. destruct Hq as [[= <-]|[= <-]]; [right; left|right; right; left]; (split; [done|by right]).
  - destruct Hq as [Hq|Hq]; discriminate Hq.
Qed.
Lemma g_complete :
  (forall raw m s l rest, g_items raw m s l rest -> stopped raw m rest -> forall f g, String.length s < f -> String.length s < g -> read_items (substitution g) f raw m s = Ok (l, rest)) /\
  (forall m s n rest, g_sub m s n rest -> forall f, String.length s < f -> substitution f m s = Ok (n, rest)) /\
  (forall m s vs rest, g_args m s vs rest -> forall f vf g, String.length s < f -> String.length s < vf -> String.length s < g -> read_arguments (substitution g) f vf m s = Ok (vs, rest)) /\
  (forall m s l rest, g_value m s l rest -> forall c r, rest = String c r -> c = rpar \/ c = spc -> forall f g, String.length s < f -> String.length s < g -> value (substitution g) f m s = Ok (l, rest)).
Proof.
  apply g_min.
  - intros raw m s Hs f g Hf Hg. destruct f as [|f]; [lia|]. by apply items_stopped.
  - intros raw m t s l rest Ht _ IH Hs f g Hf Hg. rewrite len_app in Hf, Hg. assert (t <> "") as Hn by apply Ht. pose proof (len_pos t Hn) as Hp. destruct f as [|f]; [lia|].
    cbn [read_items]. rewrite (proj2 (lex_token raw m t s Hn) Ht). destruct t as [|c t]; [done|]. rewrite IH; [done|lia|lia|done].
  - intros raw m s n s' l rest H IHs _ IH Hs f g Hf Hg. destruct f as [|f]; [lia|]. change ("$(" ++ s)%string with (String dollar (String lpar s)) in *. cbn [String.length] in *. cbn [read_items].
    rewrite (lex_none raw m (String dollar (String lpar s))); [intros c r [= <- <-]; apply sub_not_allowed|]. cbn [Ascii.eqb dollar lpar Bool.eqb andb].
    rewrite IHs; [lia|]. cbn. apply (proj1 (proj2 g_len)) in H. rewrite IH; [done|lia|lia|done].
  - intros m name rest Hn f Hf. destruct f as [|f]; [lia|]. cbn [substitution]. change (")" ++ rest)%string with (String rpar rest). rewrite lex_ident_complete; [done|by left|].
    destruct Hn as (c & r & -> & _). done.
  - intros m name s vs rest Hn _ IH f Hf. destruct f as [|f]; [lia|]. rewrite len_app in Hf. cbn [substitution]. change (" " ++ s)%string with (String spc s) in *. rewrite lex_ident_complete; [done|by right|].
    destruct Hn as (c & r & -> & _). cbn [Ascii.eqb spc rpar Bool.eqb]. cbn [String.length] in Hf. rewrite IH; [| | |done]; rewrite ?len_app; cbn [String.length]; lia.
  - intros m s v rest _ IH f vf g Hf Hv Hg. destruct f as [|f]; [lia|]. cbn [read_arguments]. change (")" ++ rest)%string with (String rpar rest) in *. rewrite (IH rpar rest); [done|by left|lia|lia|done].
  - intros m s v s' vs rest H IH _ IHs f vf g Hf Hv Hg. destruct f as [|f]; [lia|]. cbn [read_arguments]. apply (proj2 (proj2 (proj2 g_len))) in H. change (" " ++ s')%string with (String spc s') in *. cbn [String.length] in H.
    rewrite (IH spc s'); [done|by right|lia|lia|]. cbn [mbind res_mbind res_bind Ascii.eqb spc rpar Bool.eqb]. rewrite IHs; [lia|lia|lia|done].
  - intros m s l rest Hl H IH c r -> Hc f g Hf Hg. unfold value. rewrite IH; [by apply stopped_arg|lia|lia|]. cbn. destruct l as [|n l]; [done|]. destruct m; [|done..]. destruct s as [|x s]; [done|].
    destruct (Ascii.eqb_spec x squote) as [->|]; [by destruct (plain_no_quote s (n :: l) (String c r) squote); [left|..]|].
    destruct (Ascii.eqb_spec x dquote) as [->|]; [by destruct (plain_no_quote s (n :: l) (String c r) dquote); [right|..]|done].
  - intros m q s l rest Hq _ IH c r -> Hc f g Hf Hg. cbn [String.length] in *. unfold value.
    assert (read_items (substitution g) f false m s = Ok (l, String q (String c r))) as E. { apply IH; [by apply stopped_quote|lia|lia]. }
    destruct m; [done|injection Hq as <-..]; cbn [Ascii.eqb squote dquote Bool.eqb]; rewrite E; done.
Qed.

(** ** Reading ends *)
Section total.
Context (rs : mode -> string -> res (node * string)) (N : nat).
Context (Hrs : forall m s n rest, rs m s = Ok (n, rest) -> g_sub m s n rest).
Context (Ht : forall m s, String.length s < N -> rs m s <> OutOfFuel).
Lemma items_total f raw m s : String.length s < f -> String.length s <= N -> read_items rs f raw m s <> OutOfFuel.
Proof using Hrs Ht.
  revert s. induction f as [|f IH]; intros s Hf HN; [lia|]. cbn [read_items]. destruct (lex raw m false s) as [t s'] eqn:El. destruct t as [|x t].
  - destruct s as [|a [|b s]]; [done..|]. destruct (Ascii.eqb a dollar && Ascii.eqb b lpar); [|done]. cbn [String.length] in *.
    specialize (Ht m s). destruct (rs m s) as [[n s1]| |] eqn:Er; [|done|by exfalso; apply Ht; [lia|]]. apply Hrs in Er. apply (proj1 (proj2 g_len)) in Er. cbn.
    specialize (IH s1). destruct (read_items rs f raw m s1) as [[l1 s2]| |] eqn:Ei; [done|done|]. exfalso. apply IH; [lia|lia|done].
  - apply lex_split in El as ->. rewrite len_app in Hf, HN. cbn [String.length] in *. specialize (IH s'). destruct (read_items rs f raw m s') as [[l1 s2]| |] eqn:Ei; [done|done|]. exfalso. apply IH; [lia|lia|done].
Qed.
Lemma value_total f m s : String.length s < f -> String.length s <= N -> value rs f m s <> OutOfFuel.
Proof using Hrs Ht.
  intros Hf HN. rewrite /value. set (plain := mbind _ _).
  assert (plain <> OutOfFuel) as Hp.
  { unfold plain. pose proof (items_total f true m s Hf HN) as H. destruct (read_items rs f true m s) as [[[|? ?] s1]| |] eqn:Ei; done. }
  clearbody plain. destruct m; [|done..]. destruct s as [|c s]; [done|]. cbn [String.length] in *.
  assert (forall m' q, ('(l, rest) ← read_items rs f false m' s; match rest with String c rest' => if Ascii.eqb c q then Ok (l, rest') else Exn XRuntime | EmptyString => Exn XRuntime end) <> OutOfFuel) as Hq.
  { intros m' q. assert (read_items rs f false m' s <> OutOfFuel) as H by (apply items_total; lia). destruct (read_items rs f false m' s) as [[l1 s1]| |] eqn:Ei; [|done..]. cbn. destruct s1 as [|c' s1]; [done|]. by destruct (Ascii.eqb c' q). }
  destruct (Ascii.eqb_spec c squote) as [->|]; [by apply Hq|]. destruct (Ascii.eqb_spec c dquote) as [->|]; [by apply Hq|done].
Qed.
Lemma arguments_total f vf m s : String.length s < f -> String.length s < vf -> String.length s <= N -> read_arguments rs f vf m s <> OutOfFuel.
Proof using Hrs Ht.
  revert s. induction f as [|f IH]; intros s Hf Hv HN; [lia|]. cbn [read_arguments]. pose proof (value_total vf m s Hv HN) as Hval. destruct (value rs vf m s) as [[v s1]| |] eqn:Ev; [|done..].
  apply value_sound in Ev; [|done]. apply (proj2 (proj2 (proj2 g_len))) in Ev. cbn. destruct s1 as [|c s1]; [done|]. cbn [String.length] in *. destruct (Ascii.eqb_spec c rpar) as [->|]; [done|]. destruct (Ascii.eqb_spec c spc) as [->|]; [|done].
  specialize (IH s1). destruct (read_arguments rs f vf m s1) as [[vs1 s2]| |] eqn:Ea; [done|done|]. exfalso. apply IH; [lia|lia|lia|done].
Qed.
End total.
Lemma substitution_total f m s : String.length s < f -> substitution f m s <> OutOfFuel.
Proof.
  revert m s. induction f as [|f IH]; intros m s Hf; [lia|]. cbn [substitution]. destruct (lex_ident s) as [name s1] eqn:El. destruct name as [|x name]; [done|].
  destruct s1 as [|c s1]; [done|]. destruct (lex_ident_sound _ _ _ El) as [-> Hn]; [done|]. rewrite len_app in Hf. cbn [String.length] in Hf.
  destruct (Ascii.eqb_spec c rpar) as [->|]; [done|]. destruct (Ascii.eqb_spec c spc) as [->|]; [|done]. set (g := S (String.length _)).
  assert (read_arguments (substitution f) g g m s1 <> OutOfFuel) as H.
  { apply (arguments_total _ f); [apply substitution_sound|apply IH| | |lia]; unfold g; rewrite len_app; cbn [String.length]; lia. }
  destruct (read_arguments (substitution f) g g m s1) as [[vs s2]| |] eqn:Ea; done.
Qed.
Lemma read_total s : read_text s <> OutOfFuel.
Proof.
  unfold read_text. destruct s as [|c s]; [done|]. set (t := String c s). set (N := S (String.length t)).
  assert (read_items (substitution N) N false MUnq t <> OutOfFuel) as H.
  { apply (items_total _ N); [apply substitution_sound|apply substitution_total|unfold N; lia|unfold N; lia]. }
  destruct (read_items (substitution N) N false MUnq t) as [[l [|? ?]]| |]; done.
Qed.
Lemma read_iff s l : s <> "" -> (read_text s = Ok l <-> g_items false MUnq s l "").
Proof.
  intros Hs. unfold read_text. destruct s as [|c s]; [done|]. set (t := String c s). set (N := S (String.length t)). split.
  - destruct (read_items (substitution N) N false MUnq t) as [[l' [|? ?]]| |] eqn:E; [|done..]. cbn. intros [= <-]. apply items_sound in E; [done|]. apply substitution_sound.
  - intros H. rewrite (proj1 g_complete _ _ _ _ _ H); [done|unfold N; lia|unfold N; lia|done].
Qed.

(** ** Unescaping *)
Lemma str_ind2 (P : string -> Prop) : P "" -> (forall a, P (String a "")) -> (forall a b s, P s -> P (String b s) -> P (String a (String b s))) -> forall s, P s.
Proof. intros H0 H1 H2 s. assert (P s /\ forall a, P (String a s)) as [? _]; [|done]. induction s as [|c s [IH1 IH2]]; split; auto. Qed.
Lemma unescape_cons a r : unescape (String a r) = if Ascii.eqb a backslash then match r with EmptyString => String a r | String b r' => if Ascii.eqb b nl then String a (String b (unescape r')) else String b (unescape r') end else String a (unescape r).
Proof. done. Qed.
Lemma unescape_nonempty t : t <> "" -> unescape t <> "".
Proof. destruct t as [|a t]; [done|]. intros _. rewrite unescape_cons. destruct (Ascii.eqb a backslash); [|done]. destruct t as [|b t]; [done|]. by destruct (Ascii.eqb b nl). Qed.
Lemma unescape_no_char c t : has_char c t = false -> has_char c (unescape t) = false.
Proof.
  induction t as [|a|a b s IH1 IH2] using str_ind2; [done| |].
  - rewrite unescape_cons. cbn [has_char unescape]. by destruct (Ascii.eqb a backslash).
  - rewrite unescape_cons. cbn [has_char] in *. intros [Ha [Hb Hs]%orb_false_iff]%orb_false_iff. destruct (Ascii.eqb a backslash).
    + destruct (Ascii.eqb b nl); cbn [has_char]; by rewrite ?Ha Hb IH1.
    + cbn [has_char]. rewrite Ha. apply IH2. by rewrite Hb Hs.
Qed.
Lemma last_char_cons a s : s <> "" -> last_char (String a s) = last_char s.
Proof. by destruct s. Qed.
Lemma unescape_ends t : ends_bs (unescape t) -> ends_bs t.
Proof.
  unfold ends_bs. induction t as [|a|a b s IH1 IH2] using str_ind2; [done| |].
  - rewrite unescape_cons. by destruct (Ascii.eqb a backslash).
  - rewrite unescape_cons. rewrite (last_char_cons a (String b s)) //. destruct (Ascii.eqb_spec a backslash) as [->|Ha].
    + destruct (String.eqb_spec s "") as [->|Hs]; [by destruct (Ascii.eqb b nl)|]. rewrite (last_char_cons b s) //. pose proof (unescape_nonempty s Hs) as Hu.
      destruct (Ascii.eqb b nl); rewrite ?last_char_cons //.
    + intros H. apply IH2. rewrite last_char_cons in H; [by apply unescape_nonempty|done].
Qed.

(** ** What is read can be written *)
Definition q_of (m : mode) : bool := match m with MUnq => false | _ => true end.
Lemma token_no_space m t rest : token true m t rest -> has_char spc t = false.
Proof.
  intros (_ & H & _). assert (forall a u, t = (a ++ u)%string -> has_char spc u = false) as G; [|by apply (G "")].
  intros a u. revert a. induction u as [|c u IH]; [done|]. intros a E. cbn [has_char]. destruct (H a c u E) as [_ Hc]. specialize (Hc eq_refl).
  destruct (Ascii.eqb_spec spc c) as [?|_]; [by subst|]. cbn. apply (IH (a ++ String c "")%string). by rewrite E str_app_assoc.
Qed.
Lemma allowed_none raw m c next b : allowed raw m None c next -> allowed raw m b c next.
Proof. intros [H1 H2]. split; [|done]. intros Hs%H1. done. Qed.
Lemma token_next_text raw m t t' s : token raw m t (t' ++ s) -> token raw m t' s -> False.
Proof.
  intros (_ & _ & H) (Hn & H' & _). destruct t' as [|c t']; [done|]. apply (H c (t' ++ s)%string eq_refl). apply allowed_none. by apply (H' "").
Qed.
Lemma token_next_sub raw m t s : token raw m t ("$(" ++ s) -> ~ ends_bs t.
Proof.
  intros (_ & _ & H) He. apply (H dollar (String lpar s) eq_refl). split; [|done]. intros _. exact He.
Qed.
Lemma bs_end_cons n l : l <> [] -> bs_end (n :: l) -> bs_end l.
Proof. intros Hl (l' & t & E & He). destruct l' as [|x l']; [by injection E as -> ->|]. injection E as -> ->. by exists l', t. Qed.
Lemma bs_end_text t : bs_end [NText t] <-> ends_bs t.
Proof. split; [|by exists [], t]. intros ([|x l'] & t' & E & He); [by injection E as ->|]. injection E as _ E. by destruct l'. Qed.
Lemma bs_end_sub name args : ~ bs_end [NSub name args].
Proof. intros ([|x l'] & t' & E & He); [done|]. injection E as _ E. by destruct l'. Qed.
Definition no_end (raw : bool) (m : mode) (l : list node) (rest : string) : Prop :=
  bs_end l -> forall c r, rest = String c r -> ~ allowed raw m (Some backslash) c (first_char r).
Lemma g_writable :
  (forall raw m s l rest, g_items raw m s l rest -> writable (q_of m) raw l /\ no_end raw m l rest) /\
  (forall m s n rest, g_sub m s n rest -> exists name args, n = NSub name args /\ identifier name /\ writable_args (q_of m) args) /\
  (forall m s vs rest, g_args m s vs rest -> vs <> [] /\ writable_args (q_of m) vs) /\
  (forall m s l rest, g_value m s l rest -> l <> [] /\ writable (q_of m) true l /\ no_end true m l rest \/ m = MUnq /\ writable true false l /\ ~ bs_end l).
Proof.
  apply g_min.
  - intros raw m s. split; [constructor|]. by intros ([] & ? & ? & _).
  - intros raw m t s l rest Ht Hg [IH1 IH2]. split.
    + constructor; [apply unescape_nonempty, Ht| | | |done].
      * intros ->. apply unescape_no_char. by apply token_no_space in Ht.
      * intros Hl He%unescape_ends. inversion Hg; subst; [done| |by apply token_next_sub in Ht]. by eapply token_next_text.
      * intros t' l' ->. inversion Hg as [|? ? t1 ? ? ? Ht1|? ? ? ? ? ? ? Hs1]; subst; [by eapply token_next_text|]. inversion Hs1.
    + destruct l as [|n l].
      * inversion Hg; subst. intros He%bs_end_text%unescape_ends c r E. destruct Ht as (_ & _ & Ht). specialize (Ht c r E). by rewrite He in Ht.
      * intros He%bs_end_cons; [|done]. by apply IH2.
  - intros raw m s n s' l rest _ (name & args & -> & Hn & Ha) _ [IH1 IH2]. split; [by constructor|]. destruct l as [|n l]; [by intros H%bs_end_sub|]. intros He%bs_end_cons; [|done]. by apply IH2.
  - intros m name rest Hn. exists name, []. split; [done|]. split; [done|]. constructor.
  - intros m name s vs rest Hn _ [_ IH]. by exists name, vs.
  - intros m s v rest _ IH. split; [done|]. destruct IH as [(Hv & Hw & He)|(-> & Hw & He)]; [|by apply wa_quoted; [..|constructor]]. apply wa_plain; [done|done| |constructor].
    intros _ H. apply (He H rpar rest eq_refl). by split.
  - intros m s v s' vs rest _ IH _ [Hn IHs]. split; [done|]. destruct IH as [(Hv & Hw & He)|(-> & Hw & He)]; [by apply wa_plain|by apply wa_quoted].
  - intros m s l rest Hl _ [IH1 IH2]. by left.
  - intros m q s l rest Hq _ [IH1 IH2]. right. split; [done|]. destruct m; [done|..]; (split; [done|]); intros He; apply (IH2 He q rest eq_refl); (split; [done|]); intros ?; done.
Qed.

(** ** What can be written is read *)
Lemma unescape_esc t : unescape (esc t) = t.
Proof.
  apply unescape_escaping. induction t as [|c t IH]; [constructor|]. cbn [esc]. destruct (needs c) eqn:En.
  - apply esc_esc; [|done]. intros ->. done.
  - apply esc_plain; [|done]. intros ->. done.
Qed.
Lemma needs_not c raw m next : needs c = false -> ~ special raw m c next.
Proof.
  intros En Hs. assert (c = dollar \/ c = squote \/ c = dquote \/ c = lpar \/ c = rpar) as [-> |[-> |[-> |[-> | ->]]]]; [unfold special in Hs; tauto|done..].
Qed.
Lemma esc_nonempty t : t <> "" -> esc t <> "".
Proof. destruct t as [|c t]; [done|]. cbn [esc]. by destruct (needs c). Qed.
Lemma run_esc raw m rest t : (raw = true -> has_char spc t = false) -> forall before,
  (forall c r, rest = String c r -> ~ allowed raw m (before_of before t) c (first_char r)) -> run_ok raw m before (esc t) rest.
Proof.
  assert (forall before x a, before_of before (String x a) = before_of (Some x) a) as Hb by (by intros before x []).
  induction t as [|c t IH]; intros Hs before H.
  - cbn. destruct rest as [|c r]; [done|]. by apply H.
  - assert (raw = true -> c <> spc /\ has_char spc t = false) as Hs'. { intros E. specialize (Hs E). cbn [has_char] in Hs. apply orb_false_iff in Hs as [Hc Hs]. split; [|done]. intros ->. done. }
    assert (run_ok raw m (Some c) (esc t) rest) as Hr. { apply IH; [intros E; by apply Hs'|]. intros c' r E. rewrite -(Hb before). by apply H. }
    cbn [esc]. destruct (needs c) eqn:En.
    + split; [|split; [|done]].
      * split; [|done]. intros [[? _]|[[? _]|[[? _]|[_ [?|?]]]]]; done.
      * split; [done|]. intros E. by apply Hs'.
    + split; [|done]. split; [by intros Hsp%needs_not|]. intros E. by apply Hs'.
Qed.
Lemma token_esc raw m t rest : t <> "" -> (raw = true -> has_char spc t = false) ->
  (forall c r, rest = String c r -> ~ allowed raw m (last_char t) c (first_char r)) -> token raw m (esc t) rest.
Proof. intros Ht Hs H. apply token_run. split; [by apply esc_nonempty|]. apply run_esc; [done|]. by destruct t. Qed.
Scheme w_min := Minimality for writable Sort Prop with wa_min := Minimality for writable_args Sort Prop.
Combined Scheme wr_min from w_min, wa_min.
Definition may_end (raw : bool) (m : mode) (l : list node) (rest : string) : Prop :=
  forall c r, rest = String c r -> forall b, (b = Some backslash -> bs_end l) -> ~ allowed raw m b c (first_char r).
Lemma app_str_cancel a b : (a ++ b)%string = b -> a = "".
Proof. intros E. apply (f_equal String.length) in E. rewrite len_app in E. destruct a; [done|]. cbn in E. lia. Qed.
Lemma bs_end_more n l : bs_end l -> bs_end (n :: l).
Proof. intros (l' & t & -> & He). by exists (n :: l'), t. Qed.
Lemma g_next raw m sr l rest : g_items raw m sr l rest ->
  l = [] /\ sr = rest \/ (exists t l', l = NText t :: l') \/ l <> [] /\ exists s1, sr = String dollar (String lpar s1).
Proof. destruct 1 as [|? ? t|? ? s]; [by left|right; left; eauto|right; right; split; [done|by exists s]]. Qed.
Lemma write_law :
  (forall q a l, writable q a l -> forall m, q_of m = q -> exists s, forall rest, may_end a m l rest -> g_items a m (s ++ rest) l rest) /\
  (forall q args, writable_args q args -> args <> [] -> forall m, q_of m = q -> exists s, forall rest, g_args m (s ++ rest) args rest).
Proof.
  apply wr_min.
  - intros q a m Hm. exists "". intros rest _. constructor.
  - intros q a t l Ht Hs Hl Hn _ IH m Hm. destruct (IH m Hm) as [s Hg]. exists (esc t ++ s)%string. intros rest Hr.
    assert (g_items a m (s ++ rest) l rest) as Hi. { apply Hg. intros c r E b Hb. apply (Hr c r E). intros E'. by apply bs_end_more, Hb. }
    rewrite str_app_assoc -{2}(unescape_esc t). apply gi_text; [|done]. apply token_esc; [done|done|]. intros c r E.
    destruct (g_next _ _ _ _ _ Hi) as [[-> E1]|[(t1 & l1 & ->)|[Hl1 [s1 E1]]]].
    + apply (Hr c r); [congruence|]. intros E'. by apply bs_end_text.
    + by edestruct Hn.
    + rewrite E1 in E. injection E as <- <-. intros [H _]. apply (Hl Hl1). apply H. by left.
  - intros q a name args l Hn _ IHa _ IH m Hm. destruct (IH m Hm) as [s Hg]. assert (forall rest, may_end a m (NSub name args :: l) rest -> may_end a m l rest) as Hme.
    { intros rest Hr c r E b Hb. apply (Hr c r E). intros E'. by apply bs_end_more, Hb. }
    destruct args as [|v vs].
    + exists ("$(" ++ (name ++ ")" ++ s))%string. intros rest Hr. rewrite !str_app_assoc. apply (gi_sub _ _ _ _ (s ++ rest)); [by constructor|]. by apply Hg, Hme.
    + destruct (IHa ltac:(done) m Hm) as [sa Ha]. exists ("$(" ++ (name ++ " " ++ (sa ++ s)))%string. intros rest Hr. rewrite !str_app_assoc. apply (gi_sub _ _ _ _ (s ++ rest)); [by apply gs_args|]. by apply Hg, Hme.
  - done.
  - intros q v vs Hv _ IHv He _ IH _ m Hm. destruct (IHv m Hm) as [sv Hg]. destruct vs as [|v' vs].
    + exists (sv ++ ")")%string. intros rest. rewrite str_app_assoc. apply ga_last, gv_plain; [done|]. apply Hg. intros c r [= <- <-] b Hb [H _]. apply (He eq_refl), Hb, H. right. right. right. split; [done|]. by right.
    + destruct (IH ltac:(done) m Hm) as [s Hs]. exists (sv ++ " " ++ s)%string. intros rest. rewrite !str_app_assoc. apply (ga_more _ _ _ (s ++ rest)); [|done]. apply gv_plain; [done|]. apply Hg. intros c r [= <- <-] b Hb [_ H]. by apply H.
  - intros v vs _ IHv He _ IH _ m Hm. destruct m; [|done..]. destruct (IHv MDq eq_refl) as [sv Hg].
    assert (forall rest, g_value MUnq (String dquote (sv ++ String dquote rest)) v rest) as Hv.
    { intros rest. apply (gv_quoted MDq); [done|]. apply Hg. intros c r [= <- <-] b Hb [H _]. apply He, Hb, H. right. right. left. split; [done|]. by left. }
    destruct vs as [|v' vs].
    + exists (String dquote (sv ++ String dquote ")"))%string. intros rest. apply ga_last. cbn [append]. rewrite str_app_assoc. apply Hv.
    + destruct (IH ltac:(done) MUnq Hm) as [s Hs]. exists (String dquote (sv ++ String dquote (" " ++ s)))%string. intros rest. apply (ga_more _ _ _ (s ++ rest)); [|done]. cbn [append]. rewrite str_app_assoc. apply Hv.
Qed.
Lemma app_str_nil' s : (s ++ "")%string = s.
Proof. induction s as [|c s IH]; [done|]. change (String c s ++ "")%string with (String c (s ++ "")). by rewrite IH. Qed.
Lemma writable_law l : (exists s, read_text s = Ok l) <-> l = [NText ""] \/ l <> [] /\ writable false false l.
Proof.
  split.
  - intros [s Hs]. destruct (String.eqb_spec s "") as [->|Hn]; [injection Hs as <-; by left|]. right. apply read_iff in Hs; [|done]. split; [|by apply (proj1 g_writable) in Hs as [? _]].
    intros ->. inversion Hs; subst; done.
  - intros [-> |[Hl Hw]]; [by exists ""|]. destruct (proj1 write_law _ _ _ Hw MUnq eq_refl) as [s Hs]. exists s. specialize (Hs ""). rewrite app_str_nil' in Hs.
    assert (g_items false MUnq s l "") as Hg by (by apply Hs). apply read_iff; [|done]. intros ->. inversion Hg as [|? ? t1 ? ? ? Ht1 ? E|]; subst; [done|]. destruct t1; [by destruct Ht1|done].
Qed.
Lemma plain_law s : s <> "" -> (forall a b, s = (a ++ "$(" ++ b)%string -> ends_bs a) -> read_text s = Ok [NText (unescape s)].
Proof.
  intros Hs H. apply read_iff; [done|]. rewrite -{1}(app_str_nil' s). apply gi_text; [|constructor]. split; [done|]. split; [|done].
  intros a c b ->. split; [|done]. intros [[-> Hn]|[[-> [?|[? ?]]]|[[-> [?|[? ?]]]|[? _]]]]; try done. rewrite app_str_nil' in Hn. destruct b as [|d b]; [done|]. injection Hn as ->. by apply (H a b).
Qed.
Lemma esc_law t : t <> "" -> read_text (esc t) = Ok [NText t].
Proof.
  intros Ht. apply read_iff; [by apply esc_nonempty|]. rewrite -{1}(app_str_nil' (esc t)) -{2}(unescape_esc t). apply gi_text; [|constructor]. by apply token_esc.
Qed.
Lemma writable_mid q a l1 t n l2 : writable q a (l1 ++ NText t :: n :: l2) -> ~ ends_bs t /\ exists name args, n = NSub name args.
Proof.
  induction l1 as [|x l1 IH]; cbn; intros H; inversion H; subst; [|by apply IH..].
  split; [naive_solver|]. destruct n as [t'|name args]; [|by exists name, args]. match goal with H : forall t' l', _ <> _ |- _ => by destruct (H t' l2) end.
Qed.
Lemma mid_law s l1 t n l2 : read_text s = Ok (l1 ++ NText t :: n :: l2) -> ~ ends_bs t /\ exists name args, n = NSub name args.
Proof.
  intros H. destruct (proj1 (writable_law (l1 ++ NText t :: n :: l2))) as [E|[_ Hw]]; [by exists s| |by apply writable_mid in Hw]. by destruct l1 as [|? [|? ?]].
Qed.
(** ** Looking up *)
Section node_rect.
Context (P : node -> Prop) (Ht : forall s, P (NText s)) (Hs : forall name args, Forall (Forall P) args -> P (NSub name args)).
Fixpoint node_ind' (n : node) : P n :=
  match n with
  | NText s => Ht s
  | NSub name args => Hs name args ((fix go (a : list (list node)) : Forall (Forall P) a :=
      match a with [] => List.Forall_nil _ | v :: a' => List.Forall_cons _ v a' ((fix go2 (l : list node) : Forall P l := match l with [] => List.Forall_nil _ | x :: l' => List.Forall_cons _ x l' (node_ind' x) (go2 l') end) v) (go a') end) args)
  end.
End node_rect.
Lemma mapm_iff {A B} (f : A -> res B) l ys : mapm f l = Ok ys <-> Forall2 (fun x y => f x = Ok y) l ys.
Proof.
  revert ys. induction l as [|x l IH]; intros ys; cbn; [split; [by intros [= <-]|by intros H%Forall2_nil_inv_l; subst]|]. split.
  - destruct (f x) as [y| |] eqn:Ef; [|done..]. cbn. destruct (mapm f l) as [ys'| |] eqn:Em; [|done..]. cbn. intros [= <-]. constructor; [done|]. by apply IH.
  - intros H. inversion H as [|? y ? ys' H1 H2]; subst. rewrite H1. cbn. apply IH in H2. by rewrite H2.
Qed.
Lemma Forall2_ext_in {A B} (R R' : A -> B -> Prop) l ys : Forall (fun x => forall y, R x y <-> R' x y) l -> (Forall2 R l ys <-> Forall2 R' l ys).
Proof. intros H. split; intros H2; revert H; induction H2 as [|x y l ys Hxy _ IH]; intros HF; inversion HF as [|? ? Hx Hl]; subst; constructor; [by apply Hx|by apply IH|by apply Hx|by apply IH]. Qed.
Section lookup.
Context {S : Type} (text : string -> S) (methods : string -> option (list (list S) -> res S)).
Lemma transform_iff n x : transform text methods n = Ok x <-> stands text methods n x.
Proof.
  revert x. induction n as [s|name args IH] using node_ind'; intros x; cbn [transform].
  - split; [intros [= <-]; constructor|by inversion 1].
  - assert (forall vs, mapm (fun v => mapm (transform text methods) v) args = Ok vs <-> Forall2 (Forall2 (stands text methods)) args vs) as Hm.
    { intros vs. rewrite mapm_iff. apply Forall2_ext_in. eapply Forall_impl; [exact IH|]. intros v Hv y. cbn. rewrite mapm_iff. apply Forall2_ext_in. exact Hv. }
    split.
    + destruct (mapm (fun v => mapm (transform text methods) v) args) as [vs| |] eqn:Em; [|done..]. cbn. unfold instantiate. destruct (methods name) as [f|] eqn:Ef; [|done].
      intros Hx. apply (st_sub _ _ _ _ vs f); [by apply Hm|done|done].
    + inversion 1 as [|? ? vs f ? Hv Hf Hx]; subst. apply Hm in Hv. rewrite Hv. cbn. by rewrite /instantiate Hf.
Qed.
Lemma lookup_law s xs : parse_substitution text methods s = Ok xs <-> exists l, read_text s = Ok l /\ Forall2 (stands text methods) l xs.
Proof.
  unfold parse_substitution. assert (forall l, mapm (transform text methods) l = Ok xs <-> Forall2 (stands text methods) l xs) as Hm.
  { intros l. rewrite mapm_iff. apply Forall2_ext_in. apply Forall_forall. intros n _ x. apply transform_iff. }
  destruct (read_text s) as [l| |] eqn:E; cbn.
  - rewrite Hm. split; [by exists l|]. by intros (? & [= <-] & ?).
  - split; [done|]. by intros (? & ? & _).
  - split; [done|]. by intros (? & ? & _).
Qed.
Lemma mentions_stuck name n x : mentions name n -> methods name = None -> stands text methods n x -> False.
Proof.
  intros Hm Hn. revert x. induction Hm as [args|name' args v n Hv Hi _ IH]; intros x Hx; inversion Hx as [|? ? vs f ? Ha Hf]; subst; [congruence|].
  apply elem_of_list_In, elem_of_list_lookup in Hv as [i Hv]. apply elem_of_list_In, elem_of_list_lookup in Hi as [j Hj].
  destruct (Forall2_lookup_l _ _ _ _ _ Ha Hv) as (w & _ & Hw). destruct (Forall2_lookup_l _ _ _ _ _ Hw Hj) as (y & _ & Hy). by apply (IH y).
Qed.
Lemma unknown_law s l n name xs : read_text s = Ok l -> In n l -> mentions name n -> methods name = None -> parse_substitution text methods s <> Ok xs.
Proof.
  intros Hr Hi Hm Hn (l' & Hl & Hx)%lookup_law. rewrite Hr in Hl. injection Hl as <-. apply elem_of_list_In, elem_of_list_lookup in Hi as [i Hi].
  destruct (Forall2_lookup_l _ _ _ _ _ Hx Hi) as (y & _ & Hy). by apply (mentions_stuck name n y).
Qed.
End lookup.

(** ** Values *)
Definition option_to_list {A} (o : option A) : list A := match o with Some x => [x] | None => [] end.
Section values.
Context {S A T : Type} (text : string -> S) (methods : string -> option (list (list S) -> res S)) (eqb_type : T -> T -> bool) (str : T) (type_of : A -> T) (text_of : S -> option string).
Context (Heq : forall t u, eqb_type t u = true <-> t = u).
Lemma parse_if_iff v o ts : parse_if text methods str type_of text_of v = Ok (o, ts) <-> becomes text methods text_of v o /\ ts = option_to_list (literal_type str type_of o).
Proof.
  destruct v as [s|a]; cbn; [|split; [intros [= <- <-]; by split; [constructor|]|intros [H ->]; by inversion H]].
  split.
  - destruct (parse_substitution text methods s) as [xs| |] eqn:E; [|done..]. cbn. destruct xs as [|x [|y xs]].
    + intros [= <- <-]. split; [|done]. by constructor.
    + destruct (text_of x) as [t|] eqn:Et; intros [= <- <-]; (split; [|done]); [by econstructor|]. constructor; [done|]. intros x' t [= <-]. congruence.
    + intros [= <- <-]. split; [|done]. by constructor.
  - intros [H ->]. inversion H as [? x t Hp Ht|? xs Hp Ht|]; subst; rewrite Hp; cbn; [by rewrite Ht|]. destruct xs as [|x [|y xs]]; [done| |done].
    destruct (text_of x) as [t|] eqn:Et; [|done]. by destruct (Ht x t).
Qed.
Definition types_of (os : list (oval (S := S) A)) : list T := concat (map (fun o => option_to_list (literal_type str type_of o)) os).
Lemma in_types os t : In t (types_of os) <-> exists o, In o os /\ literal_type str type_of o = Some t.
Proof.
  unfold types_of. rewrite in_concat. split.
  - intros (l & Hl & Ht). apply in_map_iff in Hl as (o & <- & Ho). exists o. split; [done|]. destruct (literal_type str type_of o); [|done]. by destruct Ht as [-> |].
  - intros (o & Ho & Ht). exists [t]. split; [|by left]. apply in_map_iff. exists o. by rewrite Ht.
Qed.
Lemma uniform_iff os : uniform str type_of os <-> match types_of os with [] => True | t :: ts => forallb (eqb_type t) ts = true end.
Proof using Heq.
  assert (uniform str type_of os <-> forall t u, In t (types_of os) -> In u (types_of os) -> t = u) as ->.
  { split.
    - intros H t u (o & Ho & Et)%in_types (o' & Ho' & Eu)%in_types. by apply (H o o').
    - intros H o o' t u Ho Ho' Et Eu. apply H; apply in_types; eauto. }
  destruct (types_of os) as [|t ts]; [done|]. rewrite forallb_forall. split.
  - intros H u Hu. apply Heq. apply H; [by left|by right].
  - intros H u v [<-|Hu] [<-|Hv]; [done|by apply Heq, H|symmetry; by apply Heq, H|]. transitivity t; [symmetry|]; by apply Heq, H.
Qed.
Lemma mapm_values vs outs : mapm (parse_if text methods str type_of text_of) vs = Ok outs <-> Forall2 (becomes text methods text_of) vs (map fst outs) /\ map snd outs = map (fun o => option_to_list (literal_type str type_of o)) (map fst outs).
Proof.
  rewrite mapm_iff. revert outs. induction vs as [|v vs IH]; intros outs; split.
  - intros H%Forall2_nil_inv_l. subst. split; [constructor|done].
  - intros [H _]. apply Forall2_nil_inv_l in H. destruct outs; [constructor|done].
  - intros H. inversion H as [|? [o ts] ? outs' H1 H2]; subst. apply IH in H2 as [H2 H3]. apply parse_if_iff in H1 as [H1 ->]. cbn. split; [by constructor|]. by rewrite H3.
  - intros [H1 H2]. destruct outs as [|[o ts] outs]; [by inversion H1|]. cbn in H1, H2. inversion H1; subst. injection H2 as -> H2. constructor; [by apply parse_if_iff|]. by apply IH.
Qed.
Lemma values_pairs vs os : Forall2 (becomes text methods text_of) vs os -> mapm (parse_if text methods str type_of text_of) vs = Ok (map (fun o => (o, option_to_list (literal_type str type_of o))) os).
Proof. intros H. apply mapm_values. by rewrite !map_map /= map_id. Qed.
Lemma values_law vs os : parse_values text methods eqb_type str type_of text_of vs = Ok os <-> Forall2 (becomes text methods text_of) vs os /\ uniform str type_of os.
Proof using Heq.
  unfold parse_values. rewrite uniform_iff /types_of. split.
  - destruct (mapm (parse_if text methods str type_of text_of) vs) as [outs| |] eqn:E; [|done..]. cbn. apply mapm_values in E as [H1 H2].
    rewrite H2. set (l := concat _). intros H. assert (map fst outs = os) as <-. { destruct l as [|t ts]; [by injection H|]. destruct (forallb (eqb_type t) ts); [by injection H|done]. }
    split; [done|]. fold l. destruct l as [|t ts]; [done|]. by destruct (forallb (eqb_type t) ts).
  - intros [H1 H2]. rewrite (values_pairs _ _ H1). cbn. rewrite !map_map /= map_id. destruct (concat _) as [|t ts]; [done|]. by rewrite H2.
Qed.
Lemma values_mixed vs os : Forall2 (becomes text methods text_of) vs os -> ~ uniform str type_of os -> parse_values text methods eqb_type str type_of text_of vs = Exn XValue.
Proof using Heq.
  intros H Hn. unfold parse_values. rewrite (values_pairs _ _ H). cbn. rewrite !map_map /= map_id. rewrite uniform_iff /types_of in Hn. destruct (concat _) as [|t ts]; [done|]. by destruct (forallb (eqb_type t) ts).
Qed.
Lemma value_law v o : parse_value text methods str type_of text_of v = Ok o <-> becomes text methods text_of v o.
Proof.
  unfold parse_value. split.
  - destruct (parse_if text methods str type_of text_of v) as [[o' ts]| |] eqn:E; [|done..]. cbn. intros [= <-]. by apply parse_if_iff in E as [? _].
  - intros H. assert (parse_if text methods str type_of text_of v = Ok (o, option_to_list (literal_type str type_of o))) as ->; [by apply parse_if_iff|done].
Qed.
End values.

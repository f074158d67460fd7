(** Lemmas about escapes and command lines (C51, C52). *)
From Coq Require Import ssreflect.
From Verif Require Import SpecCmdline.
#[local] Arguments String.append : simpl nomatch.

(** ** Escapes *)
Lemma unescape_escaping t u : escaping t u -> unescape u = t.
Proof.
  induction 1 as [|c t u Hc H IH|c t u Hc H IH]; [done| |].
  - cbn [unescape]. destruct (Ascii.eqb_spec c backslash) as [?|_]; [done|]. by rewrite IH.
  - change (unescape (String backslash (String c u))) with (if Ascii.eqb c nl then String backslash (String c (unescape u)) else String c (unescape u)).
    destruct (Ascii.eqb_spec c nl) as [?|_]; [done|]. by rewrite IH.
Qed.
Lemma unescape_plain s : has_char backslash s = false -> unescape s = s.
Proof.
  intros H. apply unescape_escaping. induction s as [|c s IH]; [constructor|]. revert H. cbn [has_char]. destruct (Ascii.eqb_spec backslash c) as [?|Hc]; [done|].
  simpl. intros H. constructor; [congruence|by apply IH].
Qed.
Lemma escaping_total t : exists u, escaping t u.
Proof.
  induction t as [|c t [u IH]]; [exists ""; constructor|]. destruct (Ascii.eqb_spec c backslash) as [->|Hc].
  - exists (String backslash (String backslash u)). by constructor.
  - exists (String c u). by constructor.
Qed.

(** ** shlex.split *)
Lemma app_str_assoc (a b c : string) : ((a ++ b) ++ c = a ++ b ++ c)%string.
Proof. induction a as [|x a IH]; simpl; [done|]. by rewrite IH. Qed.
Lemma app_str_nil (a : string) : (a ++ "" = a)%string.
Proof. induction a as [|x a IH]; simpl; [done|]. by rewrite IH. Qed.
Lemma snoc_app t c s : (snoc t c ++ s = t ++ String c s)%string.
Proof. by rewrite /snoc app_str_assoc. Qed.
Lemma sh_space_iff c : sh_space c = white c.
Proof. by destruct c as [[] [] [] [] [] [] [] []]. Qed.
Lemma ordinary_iff c : ordinary c = true -> sh_space c = false /\ Ascii.eqb c backslash = false /\ is_quote c = false.
Proof. rewrite sh_space_iff /ordinary /is_quote. by destruct (white c), (Ascii.eqb c backslash), (Ascii.eqb c squote), (Ascii.eqb c dquote). Qed.
Lemma run_gap_blank b s : blank b -> sh_run ShGap (b ++ s) = sh_run ShGap s.
Proof.
  induction b as [|c b IH]; [done|]. rewrite /blank. cbn [all_chars append sh_run]. intros [Hc Hb]%andb_prop. cbn [sh_step]. rewrite sh_space_iff Hc /=.
  rewrite IH //. by destruct (sh_run ShGap s).
Qed.
Lemma run_word x t s : all_chars ordinary x = true -> sh_run (ShWord t) (x ++ s) = sh_run (ShWord (t ++ x)) s.
Proof.
  revert t. induction x as [|c x IH]; intros t; [by rewrite /= app_str_nil|]. cbn [all_chars append sh_run]. intros [Hc Hx]%andb_prop. cbn [sh_step].
  apply ordinary_iff in Hc as (-> & -> & ->). rewrite IH // snoc_app.
  simpl. by destruct (sh_run _ s).
Qed.
Lemma run_gap_word x s : a_word x -> sh_run ShGap (x ++ s) = sh_run (ShWord x) s.
Proof.
  intros [Hn Hx]. destruct x as [|c x]; [done|]. revert Hx. cbn [all_chars append sh_run]. intros [Hc Hx]%andb_prop. cbn [sh_step].
  apply ordinary_iff in Hc as (-> & -> & ->). rewrite run_word //.
  by destruct (sh_run _ s).
Qed.
Lemma run_word_blank t b s : blank b -> b <> "" -> sh_run (ShWord t) (b ++ s) = res_bind (sh_run ShGap s) (fun ts => Ok (t :: ts)).
Proof.
  destruct b as [|c b]; [done|]. rewrite /blank. cbn [all_chars append sh_run]. intros [Hc Hb]%andb_prop _. cbn [sh_step]. rewrite sh_space_iff Hc. by rewrite run_gap_blank.
Qed.
Lemma split_spaced s ws : spaced s ws -> shlex_split s = Ok ws.
Proof.
  rewrite /shlex_split. induction 1 as [b Hb|b x e Hb Hx He|b x g s y ws Hb Hx Hg Hn Hs IH].
  - rewrite -(app_str_nil b) run_gap_blank //.
  - rewrite run_gap_blank // run_gap_word //. destruct e as [|c e]; [done|]. rewrite -(app_str_nil (String c e)) run_word_blank //.
  - rewrite run_gap_blank // run_gap_word // run_word_blank // IH //.
Qed.
(** Every text without quotes and backslashes is of this kind. *)
Lemma spaced_total s : all_chars (fun c => negb (Ascii.eqb c backslash || Ascii.eqb c squote || Ascii.eqb c dquote)) s = true -> exists ws, spaced s ws.
Proof.
  assert (forall c s ws, white c = true -> spaced s ws -> spaced (String c s) ws) as HB.
  { intros c s0 ws Hc H. inversion H as [b Hb|b x e Hb Hx He|b x g s1 y ws' Hb Hx Hg Hn Hs]; subst.
    - apply sp_nil. rewrite /blank /=. by rewrite Hc.
    - apply (sp_one (String c b)); try done. rewrite /blank /=. by rewrite Hc.
    - apply (sp_cons (String c b)); try done. rewrite /blank /=. by rewrite Hc. }
  induction s as [|c s IH]; [exists []; by apply (sp_nil "")|]. cbn [all_chars]. intros [Hc Hs]%andb_prop.
  destruct (IH Hs) as [ws H]. destruct (white c) eqn:Ec; [exists ws; by apply HB|].
  assert (ordinary c = true) as Ho by (rewrite /ordinary Ec; exact Hc).
  assert (a_word (String c "")) as Hw by (split; [done|by rewrite /= Ho]).
  inversion H as [b Hb|b x e Hb Hx He|b x g s1 y ws' Hb Hx Hg Hn Hs1]; subst.
  - exists [String c ""]. by apply (sp_one "" (String c "") s).
  - destruct b as [|d b].
    + exists [String c x]. apply (sp_one "" (String c x) e); try done. destruct Hx as [? Hx]. split; [done|]. by rewrite /= Ho.
    + exists [String c ""; x]. apply (sp_cons "" (String c "") (String d b) (x ++ e) x []); try done. by apply (sp_one "" x e).
  - destruct b as [|d b].
    + exists (String c x :: y :: ws'). apply (sp_cons "" (String c x) g s1 y ws'); try done. destruct Hx as [? Hx]. split; [done|]. by rewrite /= Ho.
    + exists (String c "" :: x :: y :: ws'). apply (sp_cons "" (String c "") (String d b) (x ++ g ++ s1) x (y :: ws')); try done. by apply (sp_cons "" x g s1).
Qed.
(** Quoted arguments come back. *)
Lemma run_quote_body x t s : sh_run (ShQuote squote t) (quote_body x ++ String squote s) = sh_run (ShWord (t ++ x)) s.
Proof.
  revert t. induction x as [|c x IH]; intros t.
  - rewrite app_str_nil. cbn [quote_body append sh_run sh_step]. simpl. by destruct (sh_run _ s).
  - cbn [quote_body]. destruct (Ascii.eqb_spec c squote) as [->|Hc].
    + cbn [append sh_run sh_step]. simpl. rewrite IH snoc_app. by destruct (sh_run _ s).
    + cbn [append sh_run sh_step]. destruct (Ascii.eqb_spec c squote) as [?|_]; [done|]. rewrite andb_false_r. rewrite IH snoc_app. simpl. by destruct (sh_run _ s).
Qed.
Lemma run_gap_quoted x s : sh_run ShGap (quoted x ++ s) = sh_run (ShWord x) s.
Proof.
  rewrite /quoted. cbn [append sh_run sh_step]. simpl. rewrite app_str_assoc run_quote_body. by destruct (sh_run _ s).
Qed.
Lemma split_quoted args : shlex_split (join space (map quoted args)) = Ok args.
Proof.
  rewrite /shlex_split. induction args as [|x args IH]; [done|]. destruct args as [|y args].
  - cbn [map join]. rewrite -(app_str_nil (quoted x)) run_gap_quoted //.
  - change (join space (map quoted (x :: y :: args))) with (quoted x ++ space ++ join space (map quoted (y :: args)))%string.
    rewrite run_gap_quoted run_word_blank // IH //.
Qed.

(** ** Command lines *)
Lemma args_app cur xs ps : arguments cur (map Item xs ++ ps) = arguments (cur ++ xs) ps.
Proof. revert cur. induction xs as [|x xs IH]; intros cur; simpl; [by rewrite app_nil_r|]. by rewrite IH -app_assoc. Qed.
Definition closed (cur : list subst) : list (list subst) := match cur with [] => [] | _ => [cur] end.
Lemma args_gap cur ps : arguments cur (Gap :: ps) = closed cur ++ arguments [] ps.
Proof. by destruct cur. Qed.
Lemma filter_closed cur : List.filter nonempty [cur] = closed cur.
Proof. by destruct cur. Qed.
Lemma args_tokens cur toks x ps : arguments cur (flat_map (fun x => [Gap; Item (SText x)]) (toks ++ [x]) ++ ps) =
  closed cur ++ map (fun x => [SText x]) toks ++ arguments [SText x] ps.
Proof.
  revert cur. induction toks as [|y toks IH]; intros cur; cbn [app flat_map map]; rewrite args_gap; [done|].
  cbn [arguments app]. by rewrite IH.
Qed.
Lemma cmd_text_spec t tokens out arg out' arg' ps : cmd_text t tokens out arg = (out', arg') ->
  List.filter nonempty out' ++ arguments arg' ps = List.filter nonempty out ++ arguments arg (text_pieces t tokens ++ ps).
Proof.
  rewrite /cmd_text /text_pieces. destruct tokens as [|tok more].
  - intros [= <- <-]. rewrite List.filter_app filter_closed -app_assoc. f_equal.
    destruct (first_space t), (last_space t); cbn [app]; rewrite ?args_gap /= ?app_nil_l; by rewrite ?args_gap /=.
  - cbn [flat_map tail app].
    set (p := if first_space t && _ then _ else _).
    assert (exists o2 a2, p = (o2, a2) /\ forall qs, List.filter nonempty o2 ++ arguments a2 qs = List.filter nonempty out ++ arguments arg ((if first_space t then [Gap] else []) ++ qs)) as (o2 & a2 & -> & H2).
    { rewrite /p. destruct (first_space t); [|by exists out, arg]. destruct arg as [|a arg]; [by exists out, []|].
      exists (out ++ [a :: arg]), []. split; [done|]. intros qs. rewrite List.filter_app -app_assoc. done. }
    try clear p. rewrite -!app_assoc -H2. clear H2. cbn [arguments app].
    set (p := match more with [] => _ | _ => _ end).
    assert (exists o3 a3, p = (o3, a3) /\ forall qs, List.filter nonempty o3 ++ arguments a3 qs =
      List.filter nonempty o2 ++ arguments (a2 ++ [SText tok]) (flat_map (fun x => [Gap; Item (SText x)]) more ++ qs)) as (o3 & a3 & -> & H3).
    { rewrite /p. destruct more as [|m more]; [by exists o2, (a2 ++ [SText tok])|]. eexists _, _. split; [done|]. intros qs.
      rewrite (app_removelast_last "" (l := m :: more)) //. rewrite args_tokens. rewrite List.filter_app -!app_assoc. f_equal.
      assert (forall (a : list subst) l, List.filter nonempty (a :: l) = closed a ++ List.filter nonempty l) as -> by (by intros [|? ?]).
      rewrite -!app_assoc. f_equal. rewrite removelast_last last_last. f_equal.
      generalize (removelast (m :: more)). intros l. induction l as [|z l IH]; [done|]. simpl. by rewrite IH. }
    try clear p. destruct (last_space t); intros [= <- <-].
    + rewrite -app_assoc -H3. cbn [app]. rewrite args_gap List.filter_app filter_closed -app_assoc. done.
    + rewrite -app_assoc -H3. done.
Qed.
Lemma cmd_loop_spec l ps : pieces l ps -> forall out arg r, cmd_loop l out arg = Ok r -> List.filter nonempty r = List.filter nonempty out ++ arguments arg ps.
Proof.
  induction 1 as [|t tokens l ps Ht H IH|x l ps Hx H IH]; intros out arg r.
  - cbn [cmd_loop]. intros [= <-]. destruct arg; [by rewrite /= app_nil_r|]. rewrite List.filter_app. done.
  - cbn [cmd_loop]. rewrite Ht. cbn [res_bind]. destruct (cmd_text t tokens out arg) as [o a] eqn:E. intros Hr. rewrite (IH _ _ _ Hr). by eapply cmd_text_spec.
  - assert (cmd_loop (x :: l) out arg = cmd_loop l out (arg ++ [x])) as -> by (destruct x; try done; by destruct (Hx s)).
    intros Hr. rewrite (IH _ _ _ Hr). done.
Qed.
Lemma pieces_total l out arg r : cmd_loop l out arg = Ok r -> exists ps, pieces l ps.
Proof.
  revert out arg. induction l as [|x l IH]; intros out arg; [exists []; constructor|].
  assert ((exists t, x = SText t) \/ (forall t, x <> SText t)) as [[t ->]|Hx] by (destruct x; by eauto).
  - cbn [cmd_loop]. destruct (shlex_split t) as [tokens| |] eqn:E; try done. cbn [res_bind]. destruct (cmd_text t tokens out arg) as [o a]. intros [ps H]%IH.
    eexists. by constructor.
  - assert (cmd_loop (x :: l) out arg = cmd_loop l out (arg ++ [x])) as -> by (destruct x; try done; by destruct (Hx s)).
    intros [ps H]%IH. eexists. by constructor.
Qed.
Lemma pieces_fails l : (exists r, parse_cmdline l = Ok r) <-> exists ps, pieces l ps.
Proof.
  split; [intros [r H]; by eapply pieces_total|]. intros [ps H]. rewrite /parse_cmdline. generalize (@nil (list subst)) (@nil subst).
  induction H as [|t tokens l ps Ht H IH|x l ps Hx H IH]; intros out arg.
  - by eexists.
  - cbn [cmd_loop]. rewrite Ht. cbn [res_bind]. destruct (cmd_text t tokens out arg). apply IH.
  - assert (cmd_loop (x :: l) out arg = cmd_loop l out (arg ++ [x])) as -> by (destruct x; try done; by destruct (Hx s)). apply IH.
Qed.
Lemma cmdline_spec l r : parse_cmdline l = Ok r -> exists ps, pieces l ps /\ List.filter nonempty r = arguments [] ps.
Proof. intros H. destruct (pieces_total _ _ _ _ H) as [ps Hp]. exists ps. split; [done|]. by rewrite (cmd_loop_spec l ps Hp _ _ _ H). Qed.
Lemma concat_args ps cur : concat (arguments cur ps) = cur ++ items ps.
Proof.
  revert cur. induction ps as [|[x|] ps IH]; intros cur; simpl.
  - destruct cur; [done|]. by rewrite /= !app_nil_r.
  - by rewrite IH -app_assoc.
  - destruct cur; [by rewrite IH|]. simpl. by rewrite IH.
Qed.
Lemma items_app a b : items (a ++ b) = items a ++ items b.
Proof. induction a as [|[x|] a IH]; simpl; [done|by rewrite IH|done]. Qed.
Lemma items_text t tokens : items (text_pieces t tokens) = map SText tokens.
Proof.
  rewrite /text_pieces !items_app. assert (forall b : bool, items (if b then [Gap] else []) = []) as -> by (by intros []).
  assert (forall b : bool, items (if b then [Gap] else []) = []) as -> by (by intros []). rewrite app_nil_r /=. destruct tokens as [|x l]; [done|].
  simpl. f_equal. induction l as [|y l IH]; [done|]. simpl. by rewrite IH.
Qed.
Lemma concat_nonempty {A} (l : list (list A)) : concat (List.filter nonempty l) = concat l.
Proof. induction l as [|[|x a] l IH]; simpl; [done|done|by rewrite IH]. Qed.
Lemma pieces_expands l ps : pieces l ps -> expands l (items ps).
Proof.
  induction 1 as [|t tokens l ps Ht H IH|x l ps Hx H IH]; [constructor| |].
  - rewrite items_app items_text. by constructor.
  - constructor; [|done]. destruct x; try done. by destruct (Hx s).
Qed.
Lemma cmdline_order l r : parse_cmdline l = Ok r -> expands l (concat r).
Proof.
  intros (ps & Hp & E)%cmdline_spec. rewrite -concat_nonempty E concat_args. by apply pieces_expands.
Qed.
Lemma expands_others l xs : expands l xs -> List.filter (fun x => negb (is_text x)) xs = List.filter (fun x => negb (is_text x)) l.
Proof.
  induction 1 as [|t tokens l xs Ht H IH|x l xs Hx H IH]; [done| |].
  - rewrite List.filter_app IH /=. assert (List.filter (fun x => negb (is_text x)) (map SText tokens) = []) as ->; [|done]. clear. by induction tokens.
  - by rewrite /= Hx /= IH.
Qed.
Lemma cmdline_substitutions l r : parse_cmdline l = Ok r ->
  List.filter (fun x => negb (is_text x)) (concat r) = List.filter (fun x => negb (is_text x)) l.
Proof. intros H%cmdline_order. by apply expands_others. Qed.

(** Empty arguments come only from a blank at the very beginning. *)
Lemma ne_map (l : list string) : Forall (fun a => a <> []) (map (fun x => [SText x]) l).
Proof. apply Forall_map, Forall_true. done. Qed.
Lemma cmd_text_grows t tokens out arg out' arg' : cmd_text t tokens out arg = (out', arg') -> (tokens = [] -> arg <> []) ->
  exists r, out' = out ++ r /\ Forall (fun a => a <> []) r.
Proof.
  rewrite /cmd_text. destruct tokens as [|tok more].
  - intros [= <- <-] H. exists [arg]. split; [done|]. constructor; [by apply H|done].
  - intros E _. destruct (first_space t && negb (Nat.eqb (length arg) 0)) eqn:Ef.
    + assert (arg <> []) as Ha by (intros ->; by rewrite andb_false_r in Ef).
      destruct more as [|m more]; destruct (last_space t); injection E as <- <-; rewrite -?app_assoc; cbn [app]; eexists; (split; [done|]);
        repeat first [apply ne_map | apply Forall_cons; split | apply Forall_nil | apply Forall_app; split]; done.
    + assert (arg ++ [SText tok] <> []) as Ha by (by destruct arg).
      destruct more as [|m more]; destruct (last_space t); injection E as <- <-; rewrite -?app_assoc; cbn [app].
      * eexists; split; [done|]. by constructor.
      * exists []. by rewrite app_nil_r.
      * eexists; split; [done|]. repeat first [apply ne_map | apply Forall_cons; split | apply Forall_nil | apply Forall_app; split]; done.
      * eexists; split; [done|]. repeat first [apply ne_map | apply Forall_cons; split | apply Forall_nil | apply Forall_app; split]; done.
Qed.
Lemma cmd_loop_grows l out arg r : cmd_loop l out arg = Ok r -> merged l -> (arg = [] -> starts_with_text l = false) ->
  exists r', r = out ++ r' /\ Forall (fun a => a <> []) r'.
Proof.
  revert out arg. induction l as [|x l IH]; intros out arg.
  - cbn [cmd_loop]. intros [= <-] _ _. destruct arg; [exists []; by rewrite app_nil_r|]. eexists. split; [done|]. by constructor.
  - intros H [Hx Hm] Hs. assert ((exists t, x = SText t) \/ is_text x = false) as [[t ->]|Hx'] by (destruct x; by eauto).
    + revert H. cbn [cmd_loop]. destruct (shlex_split t) as [tokens| |] eqn:E; try done. cbn [res_bind]. destruct (cmd_text t tokens out arg) as [o a] eqn:Ec. intros Hr.
      destruct (cmd_text_grows _ _ _ _ _ _ Ec) as (r1 & -> & H1). { intros _ Ha. by specialize (Hs Ha). }
      destruct (IH _ _ Hr Hm) as (r2 & -> & H2). { intros _. by apply Hx. }
      exists (r1 ++ r2). rewrite app_assoc. split; [done|]. by apply Forall_app.
    + assert (cmd_loop (x :: l) out arg = cmd_loop l out (arg ++ [x])) as HE by (by destruct x). rewrite HE in H.
      apply (IH _ _ H Hm). by destruct arg.
Qed.
Lemma cmdline_empty l r : parse_cmdline l = Ok r -> merged l ->
  (exists t l', l = SText t :: l' /\ shlex_split t = Ok [] /\ exists r', r = [] :: r' /\ Forall (fun a => a <> []) r')
  \/ ((forall t l', l = SText t :: l' -> shlex_split t <> Ok []) /\ Forall (fun a => a <> []) r).
Proof.
  rewrite /parse_cmdline. destruct l as [|x l].
  - intros [= <-] _. right. split; [done|constructor].
  - intros H Hm. assert ((exists t, x = SText t) \/ is_text x = false) as [[t ->]|Hx'] by (destruct x; by eauto).
    + destruct Hm as [Hx Hm]. revert H. cbn [cmd_loop]. destruct (shlex_split t) as [[|tok more]| |] eqn:E; try done; cbn [res_bind].
      * intros H. left. exists t, l. split; [done|]. split; [done|]. apply (cmd_loop_grows _ _ _ _ H Hm). intros _. by apply Hx.
      * destruct (cmd_text t (tok :: more) [] []) as [o a] eqn:Ec. intros H. right. split; [intros t' l' [= <- <-]; by rewrite E|].
        destruct (cmd_text_grows _ _ _ _ _ _ Ec) as (r1 & -> & H1); [done|].
        destruct (cmd_loop_grows _ _ _ _ H Hm) as (r2 & -> & H2). { intros _. by apply Hx. }
        by apply Forall_app.
    + right. split; [by intros t l' [= -> _]|]. destruct (cmd_loop_grows _ _ _ _ H Hm) as (r2 & -> & H2); [by intros _|done].
Qed.

(** A command line without substitutions. *)
Lemma first_space_quoted args : first_space (join space (map quoted args)) = false.
Proof. destruct args as [|x [|y args]]; done. Qed.
Lemma last_space_app a b : b <> "" -> last_space (a ++ b) = last_space b.
Proof. intros Hb. induction a as [|c a IH]; [done|]. cbn [append last_space]. destruct (a ++ b)%string eqn:E; [|done]. destruct a; by simpl in E; subst. Qed.
Lemma last_space_quoted args : last_space (join space (map quoted args)) = false.
Proof.
  assert (forall x, last_space (quoted x) = false) as Hq.
  { intros x. rewrite /quoted. change (String squote (quote_body x ++ String squote ""))%string with (String squote (quote_body x) ++ String squote "")%string. by rewrite last_space_app. }
  assert (forall x, quoted x <> "") as Hn by done.
  induction args as [|x args IH]; [done|]. destruct args as [|y args]; [by apply Hq|].
  change (join space (map quoted (x :: y :: args))) with (quoted x ++ space ++ join space (map quoted (y :: args)))%string.
  assert (join space (map quoted (y :: args)) <> "") as Hj. { destruct args; [by apply Hn|]. done. }
  rewrite last_space_app; [by destruct (join space _)|]. rewrite last_space_app //.
Qed.
Lemma cmdline_quoted args : args <> [] -> parse_cmdline [SText (join space (map quoted args))] = Ok (map (fun a => [SText a]) args).
Proof.
  intros Hn. rewrite /parse_cmdline. cbn [cmd_loop]. rewrite split_quoted. cbn [res_bind]. rewrite /cmd_text first_space_quoted last_space_quoted.
  destruct args as [|x [|y args]]; [done|done|]. cbn [andb app cmd_loop map]. f_equal. f_equal.
  change ([SText y] :: map (fun a => [SText a]) args) with (map (fun a => [SText a]) (y :: args)).
  rewrite [in RHS](app_removelast_last "" (l := y :: args)) //. by rewrite map_app.
Qed.

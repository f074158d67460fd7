(** Lemmas about the substitutions that can be written in text and those that use the world outside. *)
From Coq Require Import ssreflect.
From Verif Require Import SpecExposed SubstTextFacts SubstFacts NumFacts StrFacts.

(** ** Names with commas between *)
Lemma app_cons c a b : (String c a ++ b)%string = String c (a ++ b)%string.
Proof. done. Qed.
Lemma len_app (a b : string) : String.length (a ++ b)%string = (String.length a + String.length b)%nat.
Proof. induction a as [|c a IH]; [done|]. rewrite app_cons. cbn. by rewrite IH. Qed.
Lemma last_char s : s = "" \/ exists r c, s = (r ++ String c "")%string.
Proof.
  induction s as [|a s [->|(r & c & ->)]]; [by left|right; by exists "", a|right; by exists (String a r), c].
Qed.
Lemma strip_stripped t : stripped (strip t).
Proof.
  rewrite /strip. assert (HL : forall s c r, lstrip s = String c r -> is_space c = false).
  { induction s as [|a s IH]; intros c r; [done|]. cbn [lstrip]. destruct (is_space a) eqn:Ea; [apply IH|]. by intros [= <- _]. }
  assert (HR : forall s c r, rstrip s = (r ++ String c "")%string -> is_space c = false).
  { induction s as [|a s IH]; intros c r; [by destruct r|]. cbn [rstrip]. destruct (rstrip s) as [|b u] eqn:E.
    - destruct (is_space a) eqn:Ea; [by destruct r|]. destruct r as [|x r]; [by intros [= <-]|]. intros [= _ E2]. by destruct r.
    - destruct r as [|x r]; [by intros [= _ ?]|]. intros [= _ E2]. by apply (IH c r). }
  split; [|by apply HR]. intros c r. generalize (HL t). destruct (lstrip t) as [|a s]; [done|]. intros H. specialize (H a s eq_refl). cbn [rstrip].
  destruct (rstrip s); [rewrite H|]; by intros [= <- _].
Qed.
Lemma strip_iff t m : strip t = m <-> exists p q, t = (p ++ m ++ q)%string /\ blank p /\ blank q /\ stripped m.
Proof.
  split.
  - intros <-. destruct (strip_split t) as (p & q & E & Hp & Hq). exists p, q. split; [done|]. split; [done|]. split; [done|]. apply strip_stripped.
  - intros (p & q & -> & Hp & Hq & [Hl Hr]). destruct (last_char m) as [->|(r & c & Em)].
    + cbn [append]. rewrite /strip. change ("" ++ q)%string with q. assert (H : forall p, blank p -> lstrip (p ++ q) = lstrip q).
      { clear p Hp. induction p as [|a p IH]; intros H; [done|]. destruct H as [Ha H]. change (String a p ++ q)%string with (String a (p ++ q)). cbn [lstrip]. rewrite Ha. by apply IH. }
      rewrite H //. assert (Hb : blank (lstrip q)) by (clear -Hq; induction q as [|a q IH]; [done|]; destruct Hq as [Ha Hq]; cbn [lstrip]; rewrite Ha; by apply IH). by apply rstrip_blank.
    + apply strip_solid; [done|done| |].
      * destruct m as [|a m]; [by destruct r|]. exists a, m. split; [done|]. by apply (Hl a m).
      * exists c, r. split; [done|]. by apply (Hr c r).
Qed.
Lemma split_plain cur s : no_comma s -> split_at "," cur s = [(cur ++ s)%string].
Proof.
  revert cur. induction s as [|c s IH]; intros cur H; cbn [split_at]; [by rewrite str_app_nil|]. destruct (Ascii.eqb_spec c ",") as [->|Hc]; [by destruct (H "" s)|].
  rewrite IH; [by intros a b E; apply (H (String c a) b); rewrite E|]. by rewrite str_app_assoc.
Qed.
Lemma split_comma cur s t : no_comma s -> split_at "," cur (s ++ String "," t) = (cur ++ s)%string :: split_at "," "" t.
Proof.
  revert cur. induction s as [|c s IH]; intros cur H; [by rewrite str_app_nil|]. rewrite app_cons. cbn [split_at]. destruct (Ascii.eqb_spec c ",") as [->|Hc]; [by destruct (H "" s)|].
  rewrite IH; [by intros a b E; apply (H (String c a) b); rewrite E|]. by rewrite str_app_assoc.
Qed.
Lemma comma_cut s : no_comma s \/ exists a b, s = (a ++ String "," b)%string /\ no_comma a.
Proof.
  induction s as [|c s IH]; [left; by intros [|] b|]. destruct (Ascii.eqb_spec c ",") as [->|Hc]; [right; exists "", s; split; [done|]; by intros [|] b|].
  destruct IH as [H|(a & b & -> & H)].
  - left. intros [|x a] b [= E1 E2]; [done|]. by apply (H a b).
  - right. exists (String c a), b. split; [done|]. intros [|x a'] b' [= E1 E2]; [done|]. by apply (H a' b').
Qed.
Lemma module_names_iff t ms : module_names t = ms <-> comma_separated t ms.
Proof.
  rewrite /module_names. split.
  - remember (String.length t) as n eqn:Hn. revert t ms Hn. induction n as [n IH] using lt_wf_ind. intros t ms -> <-. destruct (comma_cut t) as [H|(a & b & -> & H)].
    + rewrite split_plain //. cbn [append map]. destruct (proj1 (strip_iff t _) eq_refl) as (p & q & E & Hp & Hq & Hm). rewrite {1}E. rewrite {1}E in H. by constructor.
    + rewrite split_comma //. cbn [append map]. destruct (proj1 (strip_iff a _) eq_refl) as (p & q & E & Hp & Hq & Hm). change ("" ++ a)%string with a. rewrite {1}E. rewrite {1}E in H. apply cs_more; [done..|].
      apply (IH (String.length b)); [|done|done]. rewrite len_app. cbn [String.length]. lia.
  - induction 1 as [p m q Hp Hq Hm H|p m q t ms Hp Hq Hm H _ IH].
    + rewrite split_plain //. cbn [append map]. f_equal. apply strip_iff. by exists p, q.
    + rewrite split_comma //. cbn [append map]. rewrite IH. f_equal. apply strip_iff. by exists p, q.
Qed.

(** ** The table *)
Lemma parse_eval_iff vs x : parse_eval vs = Ok x <-> writes "eval" vs x.
Proof.
  split.
  - destruct vs as [|e [|ms [|? ?]]]; try done; cbn; [intros [= <-]; constructor|]. destruct ms as [|[] ?]; try done; intros [= <-]; [constructor|]. constructor. by apply module_names_iff.
  - inversion 1; try done; subst. cbn. by match goal with H : comma_separated _ _ |- _ => apply module_names_iff in H; rewrite H end.
Qed.
Lemma exposed_iff name vs x : (exists f, exposed name = Some f /\ f vs = Ok x) <-> writes name vs x.
Proof.
  split.
  - intros (f & E & H). revert E. rewrite /exposed. cbn [List.find fst].
    repeat (match goal with |- context [String.eqb ?a name] => destruct (String.eqb_spec a name) as [<-|_] end;
      [cbn [option_map snd]; intros [= <-]; first [by apply parse_eval_iff|destruct vs as [|? [|? [|? [|? ?]]]]; first [discriminate H|injection H as <-; constructor]]|]). done.
  - intros H. destruct (String.eqb_spec name "eval") as [->|Hne]; [exists parse_eval; split; [done|by apply parse_eval_iff]|]. by destruct H; try (eexists; split; [reflexivity|reflexivity]).
Qed.
Lemma Forall2_means args vs : Forall (Forall (fun n => forall x, stands SText exposed n x <-> means n x)) args ->
  Forall2 (Forall2 (stands SText exposed)) args vs <-> Forall2 (Forall2 means) args vs.
Proof.
  intros H. revert vs. induction H as [|a args Ha _ IH]; intros vs; [split; inversion 1; constructor|].
  assert (HA : forall v, Forall2 (stands SText exposed) a v <-> Forall2 means a v).
  { clear IH. induction Ha as [|n a Hn _ IH]; intros v; [split; inversion 1; constructor|]. split; inversion 1; subst; constructor; try (by apply Hn); by apply IH. }
  split; inversion 1; subst; constructor; try (by apply HA); by apply IH.
Qed.
Fixpoint node_rect' (P : node -> Prop) (HT : forall s, P (NText s)) (HS : forall name args, Forall (Forall P) args -> P (NSub name args)) (n : node) : P n :=
  match n with
  | NText s => HT s
  | NSub name args => HS name args ((fix go l : Forall (Forall P) l := match l with [] => List.Forall_nil _ | v :: l' => List.Forall_cons _ _ _ ((fix gi m : Forall P m := match m with [] => List.Forall_nil _ | x :: m' => List.Forall_cons _ _ _ (node_rect' P HT HS x) (gi m') end) v) (go l') end) args)
  end.
Lemma stands_means n x : stands SText exposed n x <-> means n x.
Proof.
  revert x. induction n as [s|name args IH] using node_rect'; intros x; [split; inversion 1; constructor|]. split.
  - inversion 1 as [|? ? vs f ? Hvs Hf Hx]; subst. apply me_sub with vs; [by apply Forall2_means|]. apply exposed_iff. by exists f.
  - inversion 1 as [|? ? vs ? Hvs Hw]; subst. apply exposed_iff in Hw as (f & Hf & Hx). apply st_sub with vs f; [by apply Forall2_means|done|done].
Qed.
Lemma parse_text_law s xs : parse_text s = Ok xs <-> exists l, read_text s = Ok l /\ Forall2 means l xs.
Proof.
  rewrite /parse_text lookup_law. split; intros (l & Hl & HF); exists l; (split; [done|]); (eapply Forall2_impl; [exact HF|]); intros ??; apply stands_means.
Qed.
Lemma unwritten name : (forall vs x, ~ writes name vs x) -> forall n x, mentions name n -> ~ means n x.
Proof.
  intros H n x Hm. revert x. induction Hm as [args|name' args v n Hv Hn Hm IH]; intros x; inversion 1 as [|? ? vs ? Hvs Hw]; subst; [by apply (H vs x)|].
  apply elem_of_list_In, elem_of_list_lookup in Hv as [i Hi]. destruct (Forall2_lookup_l _ _ _ _ _ Hvs Hi) as (u & _ & Hu).
  apply elem_of_list_In, elem_of_list_lookup in Hn as [j Hj]. destruct (Forall2_lookup_l _ _ _ _ _ Hu Hj) as (y & _ & Hy). by apply (IH y).
Qed.
Lemma unwritten_text name s l n xs : (forall vs x, ~ writes name vs x) -> read_text s = Ok l -> In n l -> mentions name n -> parse_text s <> Ok xs.
Proof.
  intros H Hl Hn Hm (l' & Hl' & HF)%parse_text_law. rewrite Hl in Hl'. injection Hl' as <-.
  apply elem_of_list_In, elem_of_list_lookup in Hn as [i Hi]. destruct (Forall2_lookup_l _ _ _ _ _ HF Hi) as (x & _ & Hx). by apply (unwritten name H n x).
Qed.
Lemma exposed_none name : exposed name = None <-> ~ In name ["anon"; "not"; "and"; "or"; "any"; "all"; "command"; "env"; "equals"; "file-content"; "find-exec"; "if"; "var"; "launch_log_dir"; "log_dir"; "not-equals"; "eval"; "filename"; "dirname"].
Proof.
  rewrite /exposed. cbn [List.find fst].
  repeat (match goal with |- context [String.eqb ?a name] => destruct (String.eqb_spec a name) as [<-|?] end;
    [split; [done|intros H; exfalso; apply H; cbn; tauto]|]). split; [|done]. intros _ H. cbn in H. tauto.
Qed.

(** ** Commands *)
Lemma universal_eq s : universal s = match s with
  | EmptyString => EmptyString
  | String a r => if Ascii.eqb a cr then match r with String b r' => if Ascii.eqb b nl then String nl (universal r') else String nl (universal r) | EmptyString => String nl "" end else String a (universal r) end.
Proof.
  rewrite /universal. destruct s as [|a r]; [done|]. cbn [replace_crlf]. destruct r as [|b r']; [cbn; by destruct (Ascii.eqb a cr)|].
  destruct (Ascii.eqb a cr) eqn:Ea; cbn [andb]; [destruct (Ascii.eqb_spec b nl) as [->|_]; [done|]|]; cbn [replace_cr]; by rewrite Ea.
Qed.
Lemma newlines_iff s t : universal s = t <-> newlines s t.
Proof.
  split.
  - intros <-. remember (String.length s) as n eqn:Hn. revert s Hn. induction n as [n IH] using lt_wf_ind. intros s ->. rewrite universal_eq.
    destruct s as [|a r]; [constructor|]. destruct (Ascii.eqb_spec a cr) as [->|Ha].
    + destruct r as [|b r']; [apply nt_cr; [done|constructor]|]. destruct (Ascii.eqb_spec b nl) as [->|Hb].
      * apply nt_crlf. apply (IH (String.length r')); [cbn; lia|done].
      * apply nt_cr; [by intros r [= ? _]|]. apply (IH (String.length (String b r'))); [cbn; lia|done].
    + apply nt_other; [done|]. apply (IH (String.length r)); [cbn; lia|done].
  - induction 1 as [|s t _ IH|s t Hs _ IH|c s t Hc _ IH]; [done|by rewrite universal_eq /= IH| |].
    + rewrite universal_eq. cbn [Ascii.eqb]. replace (Ascii.eqb cr cr) with true by done. destruct s as [|b r]; [by rewrite -IH|]. destruct (Ascii.eqb_spec b nl) as [->|_]; [by destruct (Hs r)|]. by rewrite IH.
    + rewrite universal_eq. destruct (Ascii.eqb_spec c cr); [done|]. by rewrite IH.
Qed.
Lemma universal_empty s : universal s = "" <-> s = "".
Proof.
  split; [|by intros ->]. rewrite universal_eq. destruct s as [|a r]; [done|]. destruct (Ascii.eqb a cr); [destruct r as [|b ?]; [done|by destruct (Ascii.eqb b nl)]|done].
Qed.
Lemma concat_cons a l : String.concat "" (a :: l) = (a ++ String.concat "" l)%string.
Proof. destruct l; cbn; [by rewrite str_app_nil|done]. Qed.
Lemma piped_out capture out s : piped (fun err => negb err || capture) out = s <-> output capture out s.
Proof.
  split.
  - intros <-. rewrite /piped. induction out as [|[err t] out IH]; [constructor|]. cbn [List.filter fst]. destruct err; cbn [negb orb].
    + destruct capture; cbn [map snd]; [rewrite concat_cons|]; exact (op_err _ t _ _ IH).
    + cbn [map snd]. rewrite concat_cons. by constructor.
  - rewrite /piped. induction 1 as [|t out s _ IH|t out s _ IH]; [done| |]; cbn [List.filter fst negb orb].
    + cbn [map snd]. by rewrite concat_cons IH.
    + destruct capture; [cbn [map snd]; by rewrite concat_cons IH|done].
Qed.
Lemma piped_err capture out : piped (fun err => err && negb capture) out <> "" <-> capture = false /\ complains out.
Proof.
  rewrite /piped /complains. induction out as [|[err t] out IH]; cbn [List.filter fst]; [split; [done|intros (_ & t & [] & _)]|].
  destruct capture; cbn [negb]; [rewrite !andb_false_r; split; [intros H; apply IH in H as [? _]; done|intros [? _]; done]|]. rewrite andb_true_r. destruct err.
  - cbn [map snd]. rewrite concat_cons. destruct t as [|c t].
    + split; [intros [? (t & H & Ht)]%IH; split; [done|]; exists t; split; [by right|done]|intros [_ (t & [[= <-]|H] & Ht)]; [done|apply IH; split; [done|by exists t]]].
    + split; [|done]. intros _. split; [done|]. exists (String c t). split; [by left|done].
  - split; [intros [? (t' & H & Ht)]%IH; split; [done|]; exists t'; split; [by right|done]|intros [_ (t' & [?|H] & Ht)]; [done|apply IH; split; [done|by exists t']]].
Qed.
Section command.
Context (w : world) (prog : list string -> ran) (decodes : string -> bool).
Notation perform_command := (perform_command w prog decodes).
Notation run_command := (run_command prog decodes).
Lemma ready_run command on_stderr c c' argv mode : ready w command on_stderr c c' argv mode -> perform_command command on_stderr c = (c', run_command argv mode).
Proof. intros (c1 & t & H1 & H2 & H3). by rewrite /Exposed.perform_command H1 H2 H3. Qed.
Lemma command_cases command on_stderr c c' d : perform_command command on_stderr c = (c', d) ->
  (exists argv mode, ready w command on_stderr c c' argv mode /\ d = run_command argv mode) \/
  (cm_runs d = [] /\ cm_warned d = false /\ forall s, cm_result d <> Ok s) /\ forall c2 argv mode, ~ ready w command on_stderr c c2 argv mode.
Proof.
  rewrite /Exposed.perform_command. intros H. destruct (perform_substitutions w command c) as [c1 [t|e|]] eqn:E1.
  2,3: injection H as <- <-; right; split; [done|]; intros c2 argv mode (? & ? & E & _); by rewrite E1 in E.
  destruct (shlex_split t) as [argv|e|] eqn:E2.
  2,3: injection H as <- <-; right; split; [done|]; intros c2 argv mode (? & ? & E & E' & _); rewrite E1 in E; injection E as <- <-; by rewrite E2 in E'.
  destruct (perform_substitutions w on_stderr c1) as [c2 [m|e|]] eqn:E3.
  - injection H as <- <-. left. exists argv, m. split; [by exists c1, t|done].
  - injection H as <- <-; right; split; [done|]; intros c3 argv' mode (? & ? & E & E' & E''); rewrite E1 in E; injection E as <- <-; by rewrite E3 in E''.
  - injection H as <- <-; right; split; [done|]; intros c3 argv' mode (? & ? & E & E' & E''); rewrite E1 in E; injection E as <- <-; by rewrite E3 in E''.
Qed.
Lemma mode_iff mode : existsb (String.eqb mode) ["fail"; "ignore"; "warn"; "capture"] = true <-> In mode modes.
Proof. rewrite existsb_exists. split; [intros (x & Hx & E); apply String.eqb_eq in E; by subst x|intros H; exists mode; split; [done|apply String.eqb_refl]]. Qed.
Context (Hd : forall s, decodes s = true).
Lemma run_ok argv mode d : run_command argv mode = d -> (exists s, cm_result d = Ok s) <->
  In mode modes /\ argv <> [] /\ exists out, prog argv = RExits 0 out /\ (mode = "fail" -> ~ complains out).
Proof.
  intros <-. rewrite /Exposed.run_command. destruct (existsb _ _) eqn:Em; [apply mode_iff in Em|split; [by intros []|intros (H & _)]; apply mode_iff in H; by rewrite H in Em].
  destruct argv as [|a l]; [split; [by intros []|by intros (_ & ? & _)]|]. destruct (prog (a :: l)) as [|e|code out]; [split; [by intros []|by intros (_ & _ & ? & ? & _)]..|].
  rewrite !Hd. cbn [andb]. destruct (Z.eqb_spec code 0) as [->|Hc]; cbn [negb]; [|split; [by intros []|intros (_ & _ & ? & [= ? _] & _); done]].
  destruct (String.eqb_spec (universal (piped (fun err => err && negb (String.eqb mode "capture")) out)) "") as [Eu|Eu].
  - split; [|by eexists]. intros _. split; [done|]. split; [done|]. exists out. split; [done|]. intros -> Hc. apply (proj1 (universal_empty _)) in Eu. apply (piped_err false out); [by split|done].
  - destruct (String.eqb_spec mode "fail") as [->|Hf].
    + split; [by intros []|]. intros (_ & _ & out' & [= <-] & H). exfalso. apply (H eq_refl). apply (piped_err false out). by rewrite -universal_empty.
    + split; [|by eexists]. intros _. split; [done|]. split; [done|]. by exists out.
Qed.
Lemma run_done argv mode out : In mode modes -> argv <> [] -> prog argv = RExits 0 out -> (mode = "fail" -> ~ complains out) ->
  exists t warned, run_command argv mode = {| cm_runs := [(argv, String.eqb mode "capture")]; cm_warned := warned; cm_result := Ok (universal t) |} /\
    output (String.eqb mode "capture") out t /\ (warned = true <-> mode = "warn" /\ complains out).
Proof.
  intros Hm Ha Hp Hf. exists (piped (fun err => negb err || String.eqb mode "capture") out). rewrite /Exposed.run_command. apply mode_iff in Hm. rewrite Hm Hp !Hd. cbn [andb negb Z.eqb].
  destruct argv as [|a l]; [done|]. destruct (String.eqb_spec (universal (piped (fun err => err && negb (String.eqb mode "capture")) out)) "") as [Eu|Eu].
  - exists false. split; [done|]. split; [by apply piped_out|]. split; [done|]. intros [-> Hc]. exfalso. apply (proj1 (universal_empty _)) in Eu. by apply (proj2 (piped_err false out)).
  - rewrite universal_empty in Eu. apply piped_err in Eu as [Ec Hc]. destruct (String.eqb_spec mode "fail") as [E|_]; [by destruct (Hf E)|]. exists (String.eqb mode "warn"). split; [done|]. split; [by apply piped_out|].
    rewrite String.eqb_eq. tauto.
Qed.
Lemma command_ok command on_stderr c c' runs warned s :
  perform_command command on_stderr c = (c', {| cm_runs := runs; cm_warned := warned; cm_result := Ok s |}) <->
  exists argv mode out t, ready w command on_stderr c c' argv mode /\ In mode modes /\ argv <> [] /\ prog argv = RExits 0 out /\ (mode = "fail" -> ~ complains out) /\
    output (String.eqb mode "capture") out t /\ newlines t s /\ runs = [(argv, String.eqb mode "capture")] /\ (warned = true <-> mode = "warn" /\ complains out).
Proof.
  split.
  - intros H. apply command_cases in H as [(argv & mode & Hr & E)|[(_ & _ & H) _]]; [|by destruct (H s)].
    destruct (proj1 (run_ok argv mode _ eq_refl)) as (Hm & Ha & out & Hp & Hf); [rewrite -E; by exists s|]. destruct (run_done argv mode out Hm Ha Hp Hf) as (t & wd & E' & Ho & Hw).
    rewrite E' in E. injection E as -> -> ->. exists argv, mode, out, t. repeat (split; [done|]). split; [by apply newlines_iff|]. split; [done|done].
  - intros (argv & mode & out & t & Hr & Hm & Ha & Hp & Hf & Ho & Hn & -> & Hw). rewrite (ready_run _ _ _ _ _ _ Hr). destruct (run_done argv mode out Hm Ha Hp Hf) as (t' & wd & -> & Ho' & Hw').
    apply newlines_iff in Hn. apply piped_out in Ho, Ho'. rewrite -Ho' Ho Hn. f_equal. f_equal. destruct wd, warned; try done; [symmetry; by apply Hw, Hw'|by apply Hw', Hw].
Qed.
Lemma command_fails command on_stderr c c' argv mode : ready w command on_stderr c c' argv mode ->
  ~ In mode modes \/ In mode modes /\ argv <> [] /\ (prog argv = RNotFound \/ exists code out, prog argv = RExits code out /\ (code <> 0%Z \/ mode = "fail" /\ complains out)) ->
  exists runs, perform_command command on_stderr c = (c', {| cm_runs := runs; cm_warned := false; cm_result := Exn XSubst |}) /\ (~ In mode modes -> runs = []).
Proof.
  intros Hr H. rewrite (ready_run _ _ _ _ _ _ Hr) /Exposed.run_command. destruct H as [H|(Hm & Ha & H)].
  - destruct (existsb _ _) eqn:Em; [by apply mode_iff in Em|]. by exists [].
  - pose proof Hm as Hm'. apply mode_iff in Hm. rewrite Hm. destruct argv as [|a l]; [done|]. exists [(a :: l, String.eqb mode "capture")]. split; [|done]. f_equal.
    destruct H as [->|(code & out & -> & H)]; [done|]. rewrite !Hd. cbn [andb]. destruct (Z.eqb_spec code 0) as [->|Hc]; [|done]. cbn [negb]. destruct H as [?|[-> Hc]]; [done|].
    assert (E : universal (piped (fun err => err && negb (String.eqb "fail" "capture")) out) <> "") by (rewrite universal_empty; by apply (piped_err false out)).
    destruct (String.eqb_spec (universal (piped (fun err => err && negb (String.eqb "fail" "capture")) out)) ""); [done|]. done.
Qed.
End command.
Lemma command_runs w prog decodes command on_stderr c c' d : perform_command w prog decodes command on_stderr c = (c', d) ->
  (exists argv mode, ready w command on_stderr c c' argv mode /\ In mode modes /\ argv <> [] /\ cm_runs d = [(argv, String.eqb mode "capture")]) \/
  cm_runs d = [] /\ cm_warned d = false /\ forall s, cm_result d <> Ok s.
Proof.
  intros H. apply command_cases in H as [(argv & mode & Hr & ->)|[? _]]; [|by right]. rewrite /run_command. destruct (existsb _ _) eqn:Em; [apply mode_iff in Em|by right].
  destruct argv as [|a l]; [by right|]. left. exists (a :: l), mode. split; [done|]. split; [done|]. split; [done|]. destruct (prog (a :: l)) as [| |code out]; [done..|].
  repeat match goal with |- context [if ?b then _ else _] => destruct b end; done.
Qed.

(** ** Expressions *)
Lemma each_performed w l c c' ts : perform_modules w l c = (c', Ok ts) <-> performed w l c c' ts.
Proof.
  revert c ts. induction l as [|x l IH]; intros c ts; cbn [perform_modules]; [split; [intros [= <- <-]; constructor|by inversion 1]|]. split.
  - destruct (perform w x c) as [c1 [t|e|]] eqn:E; cbn; [|by intros [=]|by intros [=]]. destruct (perform_modules w l c1) as [c2 [us|e|]] eqn:E2; rewrite /mbind /res_mbind /=; [|by intros [=]|by intros [=]]. intros [= <- <-]. econstructor; [done|]. by apply IH.
  - inversion 1 as [|? ? ? c1 ? t us H1 H2]; subst. rewrite H1. apply IH in H2. by rewrite H2.
Qed.
Lemma mapm_Forall2 {A B} (f : A -> res B) l l' : mapm f l = Ok l' <-> Forall2 (fun x y => f x = Ok y) l l'.
Proof.
  revert l'. induction l as [|x l IH]; intros l'; [split; [intros [= <-]; constructor|by inversion 1]|]. change (mapm f (x :: l)) with (y ← f x; ys ← mapm f l; Ok (y :: ys)). split.
  - rewrite /mbind /res_mbind. destruct (f x) as [y|e|] eqn:E; cbn; [|done|done]. destruct (mapm f l) as [ys|e|] eqn:E2; cbn; [|done|done]. intros [= <-]. constructor; [done|]. by apply IH.
  - inversion 1 as [|? y ? ys H1 H2]; subst. rewrite H1. apply IH in H2. by rewrite H2.
Qed.
Lemma gives_fun {V} (m : pmodule V) n v v' : gives m n v -> gives m n v' -> v = v'.
Proof. intros [[-> ->]|(H & _ & E)] [[? ->]|(H' & _ & E')]; congruence. Qed.
Lemma locals_visible {V} (ms : list (pmodule V)) n v : expression_locals ms !! n = Some v <-> visible ms n v.
Proof.
  rewrite /expression_locals -fold_left_rev_right. rewrite -{2}(rev_involutive ms). revert v. induction (rev ms) as [|m l IH]; intros v.
  - cbn. rewrite lookup_empty. split; [done|]. intros (pre & m & post & E & _). by destruct pre.
  - cbn [fold_right rev]. set (L := fold_right _ _ l) in *.
    assert (Hg : (<[pm_name V m := pm_self V m]> (if String.eqb (pm_name V m) "math" then pm_vars V m ∪ L else L)) !! n = Some v <-> gives m n v \/ (forall v', ~ gives m n v') /\ L !! n = Some v).
    { destruct (decide (n = pm_name V m)) as [->|Hn].
      - rewrite lookup_insert. split; [intros [= <-]; left; by left|]. intros [[[_ ->]|(? & _)]|[H _]]; [done|done|]. destruct (H (pm_self V m)). by left.
      - rewrite lookup_insert_ne //. destruct (String.eqb_spec (pm_name V m) "math") as [Em|Em].
        + rewrite lookup_union_Some_raw. split.
          * intros [Eu|[Eu H]]; [left; by right|]. right. split; [|done]. intros v' [[? _]|(_ & _ & E)]; [done|congruence].
          * intros [[[? _]|(_ & _ & E)]|[Hno H]]; [done|by left|]. right. split; [|done]. destruct (pm_vars V m !! n) as [u|] eqn:Eu; [|done]. destruct (Hno u). by right.
        + split; [intros H; right; split; [|done]; intros v' [[? _]|(_ & ? & _)]; done|]. intros [[[? _]|(_ & ? & _)]|[_ H]]; done. }
    rewrite Hg. split.
    + intros [H|[Hno H]]; [exists (rev l), m, []; split; [done|]; split; [done|]; by intros ? ? []|]. apply IH in H as (pre & m0 & post & E & Hm0 & Hpost). exists pre, m0, (post ++ [m]). split; [rewrite E -app_assoc //|]. split; [done|].
      intros m' v' [Hi|[<-|[]]]%in_app_iff; [by apply Hpost|apply Hno].
    + intros (pre & m0 & post & E & Hm0 & Hpost). destruct post as [|y post _] using rev_ind.
      * apply app_inj_tail in E as [_ ->]. by left.
      * rewrite app_comm_cons app_assoc in E. apply app_inj_tail in E as [E ->]. right. split; [intros v' Hv; apply (Hpost y v'); [apply in_app_iff; right; by left|done]|].
        apply IH. exists pre, m0, post. split; [done|]. split; [done|]. intros m' v' Hi. apply Hpost. apply in_app_iff. by left.
Qed.
Lemma mapm_fail {A B} (f : A -> res B) pre n post ms e : Forall2 (fun x y => f x = Ok y) pre ms -> f n = Exn e -> mapm f (pre ++ n :: post) = Exn e.
Proof.
  intros H Hn. induction H as [|x y pre ms Hx _ IH].
  - change (mapm f ([] ++ n :: post)) with (res_bind (f n) (fun y => res_bind (mapm f post) (fun ys => Ok (y :: ys)))). by rewrite Hn.
  - change (mapm f ((x :: pre) ++ n :: post)) with (res_bind (f x) (fun y => res_bind (mapm f (pre ++ n :: post)) (fun ys => Ok (y :: ys)))). by rewrite Hx /= IH.
Qed.

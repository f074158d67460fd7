(** Proofs of the laws of substitutions and conditions stated in PropsSubst.v. *)
From Coq Require Import ssreflect.
From Coq Require Import QArith Qabs Qminmax.
From Verif Require Import SpecSubst CtxFacts SubstFacts.
#[local] Arguments String.append : simpl nomatch.

(** ** Strings *)
Lemma list_ascii_app s t :
  list_ascii_of_string (s ++ t) = list_ascii_of_string s ++ list_ascii_of_string t.
Proof. induction s as [|a s IH]; [done|]. simpl. by rewrite IH. Qed.
Lemma str_app_assoc (a b c : string) : (a ++ b ++ c = (a ++ b) ++ c)%string.
Proof. induction a as [|x a IH]; [done|]. simpl. by rewrite IH. Qed.
Lemma str_app_nil (a : string) : (a ++ "" = a)%string.
Proof. induction a as [|x a IH]; [done|]. simpl. by rewrite IH. Qed.

Lemma lstrip_spec s : exists pre, s = (pre ++ lstrip s)%string /\ all_space pre /\
  match lstrip s with String c _ => is_space c = false | EmptyString => True end.
Proof.
  induction s as [|c s (pre & E & Hp & Hn)]; simpl.
  - exists "". by split_and!; [|constructor|].
  - destruct (is_space c) eqn:Ec.
    + exists (String c pre). split_and!; [by rewrite {1}E|by constructor|done].
    + exists "". split_and!; [done|constructor|done].
Qed.
Lemma rstrip_spec s : exists post, s = (rstrip s ++ post)%string /\ all_space post.
Proof.
  induction s as [|c s (post & E & Hp)]; simpl.
  - exists "". split; [done|constructor].
  - destruct (rstrip s) as [|c' r] eqn:Er.
    + destruct (is_space c) eqn:Ec.
      * exists (String c post). split; [by rewrite {1}E|by constructor].
      * exists post. split; [by rewrite {1}E|done].
    + exists post. split; [by rewrite {1}E|done].
Qed.
Lemma strip_spec s : exists pre post, s = (pre ++ strip s ++ post)%string /\ all_space pre /\ all_space post.
Proof.
  destruct (lstrip_spec s) as (pre & E1 & H1 & _).
  destruct (rstrip_spec (lstrip s)) as (post & E2 & H2).
  exists pre, post. split_and!; [|done|done]. by rewrite {1}E1 {1}E2.
Qed.

(** Stripping recovers a core that has no white space at its ends. *)
Definition no_space (s : string) : Prop := Forall (fun c => is_space c = false) (list_ascii_of_string s).
Lemma lstrip_app pre s : all_space pre -> lstrip (pre ++ s) = lstrip s.
Proof.
  rewrite /all_space. induction pre as [|c pre IH]; intros H; [done|]. simpl in *.
  inversion H as [|?? Hc Hr]; subst. rewrite Hc. by apply IH.
Qed.
Lemma rstrip_all_space s : all_space s -> rstrip s = "".
Proof.
  rewrite /all_space. induction s as [|c s IH]; intros H; [done|]. simpl in *.
  inversion H as [|?? Hc Hr]; subst. by rewrite IH // Hc.
Qed.
Lemma lstrip_all_space s : all_space s -> lstrip s = "".
Proof. intros H. rewrite -(str_app_nil s) lstrip_app //. Qed.
Lemma rstrip_core s post : no_space s -> all_space post -> rstrip (s ++ post) = s.
Proof.
  rewrite /no_space. induction s as [|c s IH]; intros H Hp; simpl in *; [by apply rstrip_all_space|].
  inversion H as [|?? Hc Hr]; subst. rewrite IH //. destruct s; [by rewrite Hc|done].
Qed.
Lemma strip_core pre s post :
  all_space pre -> no_space s -> all_space post -> strip (pre ++ s ++ post) = s.
Proof.
  intros H1 H2 H3. rewrite /strip lstrip_app //.
  destruct s as [|c s].
  - simpl. by rewrite lstrip_all_space.
  - inversion H2 as [|?? Hc Hr]; subst. simpl. rewrite Hc.
    change (rstrip (String c s ++ post) = String c s). by apply rstrip_core.
Qed.

Lemma lower_ascii_ci c : ci_char c (lower_ascii c).
Proof.
  rewrite /ci_char /lower_ascii. destruct ((65 <=? nat_of_ascii c)%nat && _) eqn:E; [|by left].
  apply andb_prop in E as [E1%Nat.leb_le E2%Nat.leb_le]. right. split; [done|].
  rewrite nat_ascii_embedding; lia.
Qed.
Lemma ci_lower s : ci_equal s (lower s).
Proof. rewrite /ci_equal. induction s; simpl; constructor; auto using lower_ascii_ci. Qed.
Lemma ci_char_lower c d : ci_char c d -> lower_ascii d = d -> lower_ascii c = d.
Proof.
  intros [->|[H1 H2]] Hd; [done|]. rewrite /lower_ascii.
  assert ((65 <=? nat_of_ascii c)%nat && (nat_of_ascii c <=? 90)%nat = true) as ->.
  { apply andb_true_intro. rewrite !Nat.leb_le. lia. }
  rewrite -H2. apply ascii_nat_embedding.
Qed.
Lemma ci_equal_lower s t : ci_equal s t -> lower t = t -> lower s = t.
Proof.
  rewrite /ci_equal. revert t. induction s as [|c s IH]; intros [|d t] H Ht; simpl in *; inversion H; subst; [done|].
  injection Ht as Hd Ht. f_equal; [by apply ci_char_lower|by apply IH].
Qed.
Definition all_ascii : list ascii := map ascii_of_nat (seq 0 256).
Lemma ascii_in c : In c all_ascii.
Proof.
  rewrite /all_ascii in_map_iff. exists (nat_of_ascii c). split; [apply ascii_nat_embedding|].
  apply in_seq. pose proof (nat_ascii_bounded c). lia.
Qed.
(** lower-casing does not change whether a character is white space *)
Lemma lower_space c : is_space (lower_ascii c) = is_space c.
Proof.
  assert (forallb (fun c => Bool.eqb (is_space (lower_ascii c)) (is_space c)) all_ascii = true) as H by (vm_compute; done).
  rewrite forallb_forall in H. apply eqb_prop, H, ascii_in.
Qed.
Lemma lower_no_space s : no_space (lower s) -> no_space s.
Proof.
  rewrite /no_space. induction s as [|c s IH]; intros H; [done|]. simpl in *.
  inversion H as [|?? Hc Hr]; subst. constructor; [by rewrite -lower_space|by apply IH].
Qed.

Lemma word_no_space b x : In x (words b) -> no_space x /\ lower x = x.
Proof.
  destruct b; simpl; intros [<-|[<-|[]]]; (split; [|done]); rewrite /no_space; simpl; by repeat constructor.
Qed.
Lemma denotes_lower t b : denotes t b <-> In (lower (strip t)) (words b).
Proof.
  split.
  - intros (pre & core & post & x & -> & H1 & H2 & Hx & Hc).
    destruct (word_no_space b x Hx) as [Hns Hl]. apply ci_equal_lower in Hc; [|done].
    rewrite strip_core //; [|by rewrite Hc]. apply lower_no_space. by rewrite Hc.
  - intros H. destruct (strip_spec t) as (pre & post & E & H1 & H2).
    exists pre, (strip t), post, (lower (strip t)). split_and!; try done. apply ci_lower.
Qed.
Lemma evaluate_text_spec t b : evaluate_expression_text t = Ok b <-> denotes t b.
Proof.
  rewrite denotes_lower /evaluate_expression_text. set (x := lower (strip t)).
  destruct (String.eqb_spec x "true") as [E|E1]; simpl.
  { rewrite E. destruct b; simpl; split; intros H; auto; try done. by destruct H as [?|[?|[]]]. }
  destruct (String.eqb_spec x "1") as [E|E2]; simpl.
  { rewrite E. destruct b; simpl; split; intros H; auto; try done. by destruct H as [?|[?|[]]]. }
  destruct (String.eqb_spec x "false") as [E|E3]; simpl.
  { rewrite E. destruct b; simpl; split; intros H; auto; try done. by destruct H as [?|[?|[]]]. }
  destruct (String.eqb_spec x "0") as [E|E4]; simpl.
  { rewrite E. destruct b; simpl; split; intros H; auto; try done. by destruct H as [?|[?|[]]]. }
  destruct b; simpl; split; intros H; try done; destruct H as [?|[?|[]]]; congruence.
Qed.
Lemma evaluate_text_raises t : (forall b, ~ denotes t b) <-> evaluate_expression_text t = Exn XCond.
Proof.
  split.
  - intros H. destruct (evaluate_expression_text t) as [b|e|] eqn:E.
    + by apply evaluate_text_spec, H in E.
    + revert E. rewrite /evaluate_expression_text. repeat case_match; congruence.
    + revert E. rewrite /evaluate_expression_text. repeat case_match; congruence.
  - intros E b H%evaluate_text_spec. congruence.
Qed.

Lemma if_unless w l c c' t :
  perform_substitutions w l c = (c', Ok t) ->
  (forall b, evaluate w (CIf l) c = (c', Ok b) <-> denotes t b) /\
  (forall b, evaluate w (CUnless l) c = (c', Ok b) <-> denotes t (negb b)) /\
  ((forall b, ~ denotes t b) <-> evaluate w (CIf l) c = (c', Exn XCond)) /\
  ((forall b, ~ denotes t b) <-> evaluate w (CUnless l) c = (c', Exn XCond)).
Proof.
  intros H. rewrite /= /evaluate_condition_expression /bindS H /liftS /retS.
  split_and!.
  - intros b. rewrite -evaluate_text_spec. split; congruence.
  - intros b. rewrite -evaluate_text_spec.
    destruct (evaluate_expression_text t) as [x|e|]; split; intros E; simplify_eq; rewrite ?negb_involutive //.
  - rewrite evaluate_text_raises. split; congruence.
  - rewrite evaluate_text_raises. destruct (evaluate_expression_text t); split; congruence.
Qed.
Lemma if_unless_error w l c c' e :
  perform_substitutions w l c = (c', Exn e) ->
  evaluate w (CIf l) c = (c', Exn e) /\ evaluate w (CUnless l) c = (c', Exn e).
Proof. intros H. by rewrite /= /evaluate_condition_expression /bindS H. Qed.

(** ** Boolean substitutions *)
Definition yaml_bool (w : world) (t : string) : res bool :=
  match w_yaml w t with Some (PBool b) => Ok b | _ => Exn XValue end.
Lemma coerce_bool_eq w t :
  coerce_bool w t =
    if String.eqb t "1" then yaml_bool w "true"
    else if String.eqb t "0" then yaml_bool w "false"
    else if String.eqb t "" then Exn XValue else yaml_bool w t.
Proof.
  rewrite /coerce_bool /= /convert_as_yaml /yaml_bool.
  assert (forall t, res_bind (res_bind
     match w_yaml w t with
     | Some out => if is_instance_of_valid_type false out then Ok out else Exn XValue
     | None => Exn XValue
     end (fun out : pv subst => if isinstance_or_str false TBool out then Ok out else Exn XValue)) pv_bool
     = match w_yaml w t with Some (PBool b) => Ok b | _ => Exn XValue end) as Hy.
  { intros u. destruct (w_yaml w u) as [[]|]; try done. simpl.
    destruct l; [done|]. by destruct (match member_type _ with Some _ => _ | None => _ end). }
  destruct (String.eqb_spec t "1") as [->|H1]; [by rewrite -Hy|].
  destruct (String.eqb_spec t "0") as [->|H0]; [by rewrite -Hy|].
  destruct (String.eqb_spec t "") as [->|He]; [done|]. by rewrite -Hy.
Qed.
Lemma yaml_bool_spec w t b : yaml_bool w t = Ok b <-> w_yaml w t = Some (PBool b).
Proof. rewrite /yaml_bool. destruct (w_yaml w t) as [[]|]; split; intros; simplify_eq; done. Qed.
Lemma coerce_bool_spec w t b : coerce_bool w t = Ok b <-> bool_text w t b.
Proof.
  rewrite coerce_bool_eq /bool_text.
  destruct (String.eqb_spec t "1") as [->|H1]; [apply yaml_bool_spec|].
  destruct (String.eqb_spec t "0") as [->|H0]; [apply yaml_bool_spec|].
  destruct (String.eqb_spec t "") as [->|He]; [split; [done|by intros []]|].
  rewrite yaml_bool_spec. tauto.
Qed.
Lemma coerce_bool_err w t : (forall b, ~ bool_text w t b) ->
  exists e, coerce_bool w t = Exn e /\ is_type_or_value_error e = true.
Proof.
  intros H. exists XValue. split; [|done].
  assert (forall b, coerce_bool w t <> Ok b) as Hn by (intros b Hb%coerce_bool_spec; by eapply H).
  revert Hn. rewrite coerce_bool_eq /yaml_bool. intros Hn. repeat case_match; try done; exfalso; by eapply Hn.
Qed.

Lemma operand_iff w l c c' b : perform_bool w l c = (c', Ok b) <-> operand w l c c' b.
Proof.
  rewrite /perform_bool /as_failure /bindS /liftS /operand.
  destruct (perform_substitutions w l c) as [c1 [t|e|]] eqn:E.
  - destruct (coerce_bool w t) as [b'|e|] eqn:Eb; split.
    + intros [= <- <-]. exists t. split; [done|by apply coerce_bool_spec].
    + intros (t' & [= <- <-] & Ht%coerce_bool_spec). congruence.
    + done.
    + intros (t' & [= <- <-] & Ht%coerce_bool_spec). congruence.
    + done.
    + intros (t' & [= <- <-] & Ht%coerce_bool_spec). congruence.
  - split; [done|]. by intros (t' & ? & _).
  - split; [done|]. by intros (t' & ? & _).
Qed.
Lemma caught_iff e e0 : (caught e0 /\ e = XSubst \/ ~ caught e0 /\ e = e0) <-> e = (if is_type_or_value_error e0 then XSubst else e0).
Proof. rewrite /caught. destruct e0; naive_solver. Qed.
Lemma operand_fails_iff w l c c' e :
  perform_bool w l c = (c', Exn e) <-> operand_fails w l c c' e.
Proof.
  rewrite /perform_bool /as_failure /bindS /liftS /operand_fails.
  destruct (perform_substitutions w l c) as [c1 [t|e0|]] eqn:E.
  - destruct (coerce_bool w t) as [b'|e0|] eqn:Eb; split.
    + done.
    + intros [(?&?&_)|(t' & [= <- <-] & Ht & _)]; [done|]. by apply coerce_bool_spec, Ht in Eb.
    + intros [= <- <-]. right. exists t. split; [done|].
      assert (forall b, ~ bool_text w t b) as Hn by (intros b Hb%coerce_bool_spec; congruence).
      split; [done|]. destruct (coerce_bool_err w t Hn) as (e' & He & Hb).
      rewrite He in Eb. injection Eb as <-. by rewrite Hb.
    + intros [(?&?&_)|(t' & [= <- <-] & Ht & ->)]; [done|].
      destruct (coerce_bool_err w t Ht) as (e' & He & Hb). rewrite He in Eb. injection Eb as <-. by rewrite Hb.
    + done.
    + intros [(?&?&_)|(t' & [= <- <-] & Ht & ->)]; [done|].
      destruct (coerce_bool_err w t Ht) as (e' & He & Hb). congruence.
  - split.
    + intros [= <- <-]. left. exists e0. split; [done|]. by apply caught_iff.
    + by intros [(e1 & [= <- <-] & ->%caught_iff)|(?&?&_)].
  - split; [done|]. by intros [(e1 & ? & ?)|(?&?&_)].
Qed.
Lemma operands_inv w l ls c c' bs : operands w (l :: ls) c c' bs ->
  exists c1 b bs', bs = b :: bs' /\ operand w l c c1 b /\ operands w ls c1 c' bs'.
Proof. inversion 1; subst; eauto 10. Qed.
Lemma operands_iff w ls c c' bs : perform_bools w ls c = (c', Ok bs) <-> operands w ls c c' bs.
Proof.
  revert c bs. induction ls as [|l ls IH]; intros c bs; simpl.
  - split; [intros [= <- <-]; constructor|]. by inversion 1.
  - rewrite /bindS /retS. split.
    + destruct (perform_bool w l c) as [c1 [b|e|]] eqn:E; [|done..].
      destruct (perform_bools w ls c1) as [c2 [bs'|e|]] eqn:E2; intros H; simplify_eq.
      econstructor; [by apply operand_iff|]. by apply IH.
    + intros (c1 & b & bs' & -> & Ho%operand_iff & Hos%IH)%operands_inv. by rewrite Ho Hos.
Qed.
Lemma operands_fail_1 w ls c c' e : operands_fail w ls c c' e -> perform_bools w ls c = (c', Exn e).
Proof.
  intros (before & l & after & c1 & bs & -> & Hb & Hf). revert Hf. induction Hb as [c|l0 ls c c0 c2 b bs Ho Hos IH]; intros Hf; simpl.
  - rewrite /bindS. apply operand_fails_iff in Hf. by rewrite Hf.
  - apply operand_iff in Ho. rewrite /bindS Ho. by rewrite IH.
Qed.
Lemma operands_fail_2 w ls c c' e : perform_bools w ls c = (c', Exn e) -> operands_fail w ls c c' e.
Proof.
  revert c. induction ls as [|l ls IH]; intros c; simpl; [done|].
  rewrite /bindS /retS. destruct (perform_bool w l c) as [c1 [b|e1|]] eqn:E.
  - destruct (perform_bools w ls c1) as [c2 [bs'|e2|]] eqn:E2; intros H; simplify_eq.
    destruct (IH c1 E2) as (before & l0 & after & c2 & bs & -> & Hb & Hf).
    exists (l :: before), l0, after, c2, (b :: bs). split_and!; [done| |done].
    econstructor; [by apply operand_iff|done].
  - intros [= <- <-]. exists [], l, ls, c, []. split_and!; [done|constructor|by apply operand_fails_iff].
  - done.
Qed.
Lemma operands_fail_iff w ls c c' e : perform_bools w ls c = (c', Exn e) <-> operands_fail w ls c c' e.
Proof. split; [apply operands_fail_2|apply operands_fail_1]. Qed.

Lemma any_ok w ls c c' bs : operands w ls c c' bs ->
  perform w (SAny ls) c = (c', Ok (bool_str (existsb (fun b => b) bs))) /\
  perform w (SAll ls) c = (c', Ok (bool_str (forallb (fun b => b) bs))).
Proof. intros H%operands_iff. by rewrite !perform_unfold /= /bindS H. Qed.
Lemma any_fail w ls c c' e : operands_fail w ls c c' e ->
  perform w (SAny ls) c = (c', Exn e) /\ perform w (SAll ls) c = (c', Exn e).
Proof. intros H%operands_fail_iff. by rewrite !perform_unfold /= /bindS H. Qed.
Lemma bools_total w ls c :
  (exists c' bs, operands w ls c c' bs) \/ (exists c' e, operands_fail w ls c c' e)
  \/ (exists c', (perform_bools w ls c) = (c', OutOfFuel)).
Proof.
  destruct (perform_bools w ls c) as [c' [bs|e|]] eqn:E.
  - left. exists c', bs. by apply operands_iff.
  - right; left. exists c', e. by apply operands_fail_iff.
  - right; right. by eexists.
Qed.
Lemma and_or_ok w l r c c' a b : operands w [l; r] c c' [a; b] ->
  perform w (SAnd l r) c = (c', Ok (bool_str (a && b))) /\
  perform w (SOr l r) c = (c', Ok (bool_str (a || b))).
Proof.
  intros H%operands_iff. rewrite !perform_unfold /=. simpl in H. rewrite /bindS /retS in H |- *.
  destruct (perform_bool w l c) as [c1 [x|e|]]; simplify_eq.
  destruct (perform_bool w r c1) as [c2 [y|e|]]; simplify_eq. done.
Qed.
Lemma and_or_fail w l r c c' e : operands_fail w [l; r] c c' e ->
  perform w (SAnd l r) c = (c', Exn e) /\ perform w (SOr l r) c = (c', Exn e).
Proof.
  intros H%operands_fail_iff. rewrite !perform_unfold /=. simpl in H. rewrite /bindS /retS in H |- *.
  destruct (perform_bool w l c) as [c1 [x|e1|]]; simplify_eq; [|done].
  destruct (perform_bool w r c1) as [c2 [y|e2|]]; simplify_eq. done.
Qed.
Lemma not_ok w l c c' b : operand w l c c' b -> perform w (SNot l) c = (c', Ok (bool_str (negb b))).
Proof. intros H%operand_iff. by rewrite perform_unfold /= /bindS H. Qed.
Lemma not_fail w l c c' e : operand_fails w l c c' e -> perform w (SNot l) c = (c', Exn e).
Proof. intros H%operand_fails_iff. by rewrite perform_unfold /= /bindS H. Qed.
Lemma if_else_ok w cnd i e c c' b : operand w cnd c c' b ->
  perform w (SIfElse cnd i e) c = perform_substitutions w (if b then i else e) c'.
Proof. intros H%operand_iff. rewrite perform_unfold /= /bindS H. by destruct b. Qed.
Lemma if_else_fail w cnd i e c c' x : operand_fails w cnd c c' x ->
  perform w (SIfElse cnd i e) c = (c', Exn x).
Proof. intros H%operand_fails_iff. by rewrite perform_unfold /= /bindS H. Qed.

(** ** Equals *)
Lemma isclose_sym a b : isclose a b = isclose b a.
Proof.
  destruct a as [|x|p], b as [|y|q]; try done; simpl.
  - by destruct x, y.
  - assert (forall u v, (u == v)%Q -> forall z, Qle_bool u z = Qle_bool v z) as Hle.
    { intros u v Huv z. apply eq_true_iff_eq. rewrite !Qle_bool_iff. by rewrite Huv. }
    assert (Qabs (q - p) == Qabs (p - q))%Q as Habs.
    { rewrite -Qabs_opp. apply Qabs_wd. ring. }
    rewrite !(Hle _ _ Habs).
    assert (Qeq_bool p q = Qeq_bool q p) as ->.
    { apply eq_true_iff_eq. rewrite !Qeq_bool_iff. split; intros ->; done. }
    f_equal. apply orb_comm.
Qed.
Lemma equals_sym l r : equals_result l r = equals_result r l.
Proof.
  rewrite /equals_result (andb_comm (str_is_bool l)).
  destruct (str_is_bool r && str_is_bool l); [by destruct (str_true l), (str_true r)|].
  destruct (py_float l) as [a|], (py_float r) as [b|]; try apply String.eqb_sym. apply isclose_sym.
Qed.
Lemma isclose_refl a : a <> FNan -> isclose a a = true.
Proof.
  destruct a as [|x|q]; [done|by destruct x|]. intros _. simpl.
  assert (Qeq_bool q q = true) as ->; [by apply Qeq_bool_iff|done].
Qed.
Lemma equals_refl_iff t : equals_result t t = true <-> (py_float t <> Some FNan \/ str_is_bool t = true).
Proof.
  rewrite /equals_result. destruct (str_is_bool t); simpl.
  { split; [by right|]. by destruct (str_true t). }
  destruct (py_float t) as [a|].
  - split.
    + intros H. left. intros [= ->]. done.
    + intros [H|H]; [|done]. apply isclose_refl. congruence.
  - rewrite String.eqb_refl. split; [by left|done].
Qed.
Lemma equals_perform w l r c c1 c2 a b :
  perform_substitutions w l c = (c1, Ok a) -> perform_substitutions w r c1 = (c2, Ok b) ->
  perform w (SEquals l r) c = (c2, Ok (bool_str (equals_result a b))) /\
  perform w (SNotEquals l r) c = (c2, Ok (bool_str (negb (equals_result a b)))).
Proof.
  intros H1 H2. rewrite !perform_unfold /= /bindS H1 H2 /retS. split; [done|].
  by destruct (equals_result a b).
Qed.

Lemma bool_word_lower t b : bool_word t b <-> In (lower t) (words b).
Proof.
  split.
  - intros (x & Hx & Hc). destruct (word_no_space b x Hx) as [_ Hl].
    by rewrite (ci_equal_lower _ _ Hc Hl).
  - intros H. exists (lower t). split; [done|apply ci_lower].
Qed.
Lemma str_is_bool_spec t : str_is_bool t = true <-> bool_word t (str_true t).
Proof.
  rewrite bool_word_lower /str_is_bool /str_true. simpl.
  destruct (String.eqb_spec (lower t) "true") as [->|H1]; simpl; [by split; auto|].
  destruct (String.eqb_spec (lower t) "1") as [->|H2]; simpl; [by split; auto|].
  destruct (String.eqb_spec (lower t) "false") as [->|H3]; simpl; [by split; auto|].
  destruct (String.eqb_spec (lower t) "0") as [->|H4]; simpl; [by split; auto|].
  split; [done|]. intros [?|[?|[]]]; congruence.
Qed.
Lemma bool_word_det t b : bool_word t b -> str_is_bool t = true /\ str_true t = b.
Proof.
  rewrite bool_word_lower /str_is_bool /str_true.
  destruct b; simpl; intros [<-|[<-|[]]]; done.
Qed.
Lemma isclose_spec x y : isclose x y = true <-> close x y.
Proof.
  destruct x as [|m|p], y as [|n|q]; try done.
  { by rewrite /= Bool.eqb_true_iff. }
  rewrite /isclose /close.
  rewrite !orb_true_iff !Qle_bool_iff Qeq_bool_iff !Qabs_Qmult.
  assert (Qabs (1 # 1000000000) == 1 # 1000000000)%Q as -> by done.
  assert (Qabs (q - p) == Qabs (p - q))%Q as ->.
  { rewrite -Qabs_opp. apply Qabs_wd. ring. }
  assert ((1 # 1000000000) * Qmax (Qabs p) (Qabs q) == Qmax ((1 # 1000000000) * Qabs p) ((1 # 1000000000) * Qabs q))%Q as ->.
  { symmetry. apply Q.max_monotone; [by intros u v ->|]. intros u v Huv. by apply Qmult_le_l. }
  rewrite Q.max_le_iff. split; [intros [H|[H|H]]|intros [H|H]]; auto.
  left. rewrite H. assert (Qabs (q - q) == 0)%Q as ->.
  { assert (q - q == 0)%Q as -> by ring. done. }
  apply Qmult_le_0_compat; [done|apply Qabs_nonneg].
Qed.
Lemma equals_spec a b : equals_result a b = true <-> texts_equal a b.
Proof.
  rewrite /equals_result.
  destruct (str_is_bool a && str_is_bool b) eqn:Eb.
  - apply andb_true_iff in Eb as [Ea Eb]. split.
    + intros H%Bool.eqb_prop. apply str_is_bool_spec in Ea, Eb. rewrite H in Ea. by eapply te_bool.
    + intros [p Ha Hb|x y Hn _ _ _|Hn _ _].
      * apply bool_word_det in Ha as [_ ->], Hb as [_ ->]. by destruct p.
      * apply str_is_bool_spec in Ea, Eb. by exfalso; eapply Hn.
      * apply str_is_bool_spec in Ea, Eb. by exfalso; eapply Hn.
  - assert (forall p q, bool_word a p -> bool_word b q -> False) as Hn.
    { intros p q [H1 _]%bool_word_det [H2 _]%bool_word_det. by rewrite H1 H2 in Eb. }
    destruct (py_float a) as [x|] eqn:Ex, (py_float b) as [y|] eqn:Ey.
    + rewrite isclose_spec. split; [intros H; by eapply te_num|].
      intros [p Ha Hb|x' y' _ Hx' Hy' H|_ [H|H] _]; try congruence. by exfalso; eapply Hn.
    + rewrite String.eqb_eq. split; [intros H; apply te_text; auto|].
      intros [p Ha Hb|x' y' _ Hx' Hy' H|_ _ H]; try congruence. by exfalso; eapply Hn.
    + rewrite String.eqb_eq. split; [intros H; apply te_text; auto|].
      intros [p Ha Hb|x' y' _ Hx' Hy' H|_ _ H]; try congruence. by exfalso; eapply Hn.
    + rewrite String.eqb_eq. split; [intros H; apply te_text; auto|].
      intros [p Ha Hb|x' y' _ Hx' Hy' H|_ _ H]; try congruence. by exfalso; eapply Hn.
Qed.
Lemma equals_performs w l r c c1 c2 a b :
  perform_substitutions w l c = (c1, Ok a) -> perform_substitutions w r c1 = (c2, Ok b) ->
  exists p : bool, (p = true <-> texts_equal a b)
    /\ perform w (SEquals l r) c = (c2, Ok (bool_str p))
    /\ perform w (SNotEquals l r) c = (c2, Ok (bool_str (negb p))).
Proof.
  intros H1 H2. exists (equals_result a b). split; [apply equals_spec|by eapply equals_perform].
Qed.
Lemma texts_equal_sym a b : texts_equal a b -> texts_equal b a.
Proof. rewrite -!equals_spec. by rewrite equals_sym. Qed.
Lemma sign_cases s : (sign s).2 = s \/ s = String "+" (sign s).2 \/ s = String "-" (sign s).2.
Proof.
  destruct s as [|c s]; [by left|]. rewrite /sign.
  destruct (Ascii.eqb_spec c "-") as [->|]; [by right; right|].
  destruct (Ascii.eqb_spec c "+") as [->|]; [by right; left|by left].
Qed.
Lemma bind_fin {A} (x : option A) (f : A -> pyfloat) (r : pyfloat) :
  (forall a, f a <> r) -> (a ← x; Some (f a)) <> Some r.
Proof. intros H. destruct x as [a|]; [|done]. intros [= E]. by apply (H a). Qed.
Lemma py_float_nan s : py_float s = Some FNan ->
  lower (strip s) = "nan" \/ lower (strip s) = "+nan" \/ lower (strip s) = "-nan".
Proof.
  intros H. assert (lower (sign (strip s)).2 = "nan") as Hn.
  { revert H. rewrite /py_float. destruct (sign (strip s)) as [neg u]. simpl.
    destruct (String.eqb (lower u) "inf" || _); [done|].
    destruct (String.eqb_spec (lower u) "nan") as [->|_]; [done|]. intros H. exfalso. revert H.
    destruct (digitpart u) as [[[v n] rest]|].
    - destruct rest as [|c rest]; [done|]. destruct (Ascii.eqb c ".").
      + destruct (digitpart rest); [|by apply bind_fin].
        destruct (digits_more v 0 rest) as [[v' n'] r']. by apply bind_fin.
      + by apply bind_fin.
    - destruct u as [|c u]; [done|]. destruct (Ascii.eqb c "."); [|done].
      destruct (digitpart u) as [[[v n] r]|]; [|done]. by apply bind_fin. }
  destruct (sign_cases (strip s)) as [E|[E|E]].
  - left. by rewrite -E.
  - right; left. rewrite E /=. by rewrite Hn.
  - right; right. rewrite E /=. by rewrite Hn.
Qed.
Lemma texts_equal_refl a : texts_equal a a <-> py_float a <> Some FNan.
Proof.
  rewrite -equals_spec equals_refl_iff. split; [|by left]. intros [H|H]; [done|].
  apply str_is_bool_spec, bool_word_lower in H. revert H. generalize (str_true a). intros b H Hf.
  apply py_float_nan in Hf.
  assert (strip a = a) as Hs.
  { destruct (word_no_space b (lower a) H) as [Hns _]. apply lower_no_space in Hns.
    rewrite -{1}(str_app_nil a). change (a ++ "")%string with ("" ++ a ++ "")%string.
    apply strip_core; [constructor|done|constructor]. }
  rewrite Hs in Hf. destruct Hf as [Hf|[Hf|Hf]]; rewrite Hf in H; by destruct b, H as [?|[?|[]]].
Qed.

(** ** Launch configurations and environment variables *)
Lemma launch_config_cases w name d c c1 n :
  perform_substitutions w name c = (c1, Ok n) ->
  perform w (SLaunchConfig name d) c =
    match lc c1 !! n, d with
    | Some v, _ => (c1, Ok v)
    | None, Some dflt => perform_substitutions w dflt c1
    | None, None => (c1, Exn XSubst)
    end.
Proof.
  intros H. rewrite perform_unfold /= /bindS H. destruct (lc c1 !! n); [by destruct d|done].
Qed.
Lemma env_var_cases_none w name c c1 n :
  perform_substitutions w name c = (c1, Ok n) ->
  perform w (SEnvVar name None) c =
    match env c1 !! n with Some v => (c1, Ok v) | None => (c1, Exn XSubst) end.
Proof. intros H. rewrite perform_unfold /= /bindS /retS H. by destruct (env c1 !! n). Qed.
Lemma env_var_cases_some w name d c c0 c1 n dv :
  perform_substitutions w d c = (c0, Ok dv) ->
  perform_substitutions w name c0 = (c1, Ok n) ->
  perform w (SEnvVar name (Some d)) c =
    match env c1 !! n with Some v => (c1, Ok v) | None => (c1, Ok dv) end.
Proof. intros H1 H. rewrite perform_unfold /= /bindS H1 /retS H. by destruct (env c1 !! n). Qed.

(** ** Concatenation *)
Lemma performed_inv w x l c c' ts : performed w (x :: l) c c' ts ->
  exists c1 t ts', ts = t :: ts' /\ perform w x c = (c1, Ok t) /\ performed w l c1 c' ts'.
Proof. inversion 1; subst; eauto 10. Qed.
Lemma performed_iff w l c c' t :
  perform_substitutions w l c = (c', Ok t) <-> exists ts, performed w l c c' ts /\ t = concat_str ts.
Proof.
  revert c t. induction l as [|x l IH]; intros c t; simpl.
  - split.
    + intros [= <- <-]. exists []. split; [constructor|done].
    + intros (ts & H & ->). inversion H; subst. done.
  - rewrite /bindS /retS. split.
    + destruct (perform w x c) as [c1 [a|e|]] eqn:E; [|done..].
      destruct (perform_substitutions w l c1) as [c2 [b|e|]] eqn:E2; intros H; simplify_eq.
      apply IH in E2 as (ts & H & ->). exists (a :: ts). split; [by econstructor|done].
    + intros (ts & (c1 & a & ts' & -> & Hx & Hl)%performed_inv & ->). rewrite Hx.
      assert (perform_substitutions w l c1 = (c', Ok (concat_str ts'))) as Hc by (apply IH; eauto).
      by rewrite Hc.
Qed.
Lemma performs_app w l1 l2 c :
  perform_substitutions w (l1 ++ l2) c =
  (a <-- perform_substitutions w l1 ;; b <-- perform_substitutions w l2 ;; retS (a ++ b)%string) c.
Proof.
  revert c. induction l1 as [|x l1 IH]; intros c; simpl.
  - rewrite /bindS /retS. by destruct (perform_substitutions w l2 c) as [c1 [?|?|]].
  - rewrite /bindS /retS. destruct (perform w x c) as [c1 [a|e|]]; try done.
    rewrite IH /bindS /retS. destruct (perform_substitutions w l1 c1) as [c2 [b|e|]]; try done.
    destruct (perform_substitutions w l2 c2) as [c3 [d|e|]]; try done. by rewrite str_app_assoc.
Qed.
Lemma split_text w l1 l2 s t c :
  perform_substitutions w (l1 ++ SText (s ++ t) :: l2) c =
  perform_substitutions w (l1 ++ SText s :: SText t :: l2) c.
Proof.
  rewrite !performs_app /bindS. destruct (perform_substitutions w l1 c) as [c1 [a|e|]]; try done.
  simpl. rewrite /bindS /retS. destruct (perform_substitutions w l2 c1) as [c2 [b|e|]]; try done.
  by rewrite !str_app_assoc.
Qed.

(** ** AnonName *)
Lemma anon_cases w name c c1 n :
  perform_substitutions w name c = (c1, Ok n) ->
  exists c2 v, perform w (SAnonName name) c = (c2, Ok v)
    /\ lc c2 = <[("anon" ++ n)%string := v]> (lc c1)
    /\ (forall v0, lc c1 !! ("anon" ++ n)%string = Some v0 -> v = v0 /\ c2 = c1).
Proof.
  intros H. rewrite perform_unfold /= /bindS H.
  destruct (lc c1 !! _) as [v|] eqn:E.
  - exists c1, v. split_and!; [done|by rewrite insert_id|]. intros v0 [= <-]. done.
  - eexists _, _. split_and!; [done|done|]. done.
Qed.

Lemma kept_levels k v os c :
  lc c !! k = Some v ->
  (forall p q, os = p ++ q -> pops StLC p <= pushes StLC p)%nat ->
  existsb (changes_lc k) os = false ->
  exists n, length n = (pushes StLC os - pops StLC os)%nat /\
    exists rest, lc_stack (history os c) = n ++ rest /\
    Forall (fun d => d !! k = Some v) (lc (history os c) :: n).
Proof.
  intros Hc. induction os as [|o os IH] using rev_ind; intros Hm Hch.
  { exists []. split; [done|]. exists (lc_stack c). split; [done|]. by repeat constructor. }
  rewrite existsb_app orb_false_iff /= orb_false_r in Hch. destruct Hch as [Hch Ho].
  destruct IH as (n & Hlen & rest & Hst & HF); [|done|].
  { intros p q Hpq. apply (Hm p (q ++ [o])). by rewrite app_assoc -Hpq. }
  pose proof (Hm (os ++ [o]) []) as Hfull. rewrite app_nil_r in Hfull. specialize (Hfull eq_refl).
  rewrite pushes_app pops_app in Hfull. rewrite pushes_app pops_app history_snoc.
  pose proof (Hm os [o] eq_refl) as Hos.
  inversion HF as [|?? HF1 HF2]; subst.
  destruct o; simpl in *; rewrite ?/pushes ?/pops /= in Hlen Hfull Hos |- *.
  - exists (lc (history os c) :: n). split; [simpl; lia|]. exists rest. split; [by rewrite Hst|].
    by repeat constructor.
  - destruct n as [|d n]; [simpl in Hlen; lia|]. rewrite /pop_lc Hst /=.
    inversion HF2; subst. exists n. split; [simpl in Hlen; lia|]. exists rest. split; [done|].
    by constructor.
  - exists n. split; [lia|]. exists rest. split; [done|]. constructor; [|done].
    rewrite lookup_insert_ne //. by apply String.eqb_neq.
  - exists n. split; [lia|]. exists rest. split; [done|]. constructor; [|done].
    rewrite lookup_delete_ne //. by apply String.eqb_neq.
  - exists n. split; [lia|]. by exists rest.
  - exists n. split; [lia|]. exists rest. rewrite /pop_env; by case_match.
  - exists n. split; [lia|]. by exists rest.
  - exists n. split; [lia|]. by exists rest.
  - exists n. split; [lia|]. by exists rest.
  - exists n. split; [lia|]. by exists rest.
  - exists n. split; [lia|]. exists rest. rewrite /pop_locals; by case_match.
  - exists n. split; [lia|]. by exists rest.
  - exists n. split; [lia|]. by exists rest.
  - exists n. split; [lia|]. exists rest. rewrite /get_combined_locals; by case_match.
Qed.
Lemma anon_stable w w' name name' n v c c1 c2 c3 c4 os :
  perform_substitutions w name c = (c1, Ok n) ->
  perform w (SAnonName name) c = (c2, Ok v) ->
  (forall p q, os = p ++ q -> pops StLC p <= pushes StLC p)%nat ->
  existsb (changes_lc ("anon" ++ n)) os = false ->
  c3 = history os c2 ->
  perform_substitutions w' name' c3 = (c4, Ok n) ->
  perform w' (SAnonName name') c3 = (c4, Ok v).
Proof.
  intros Hn Hp Hm Hch -> Hn'.
  destruct (anon_cases w name c c1 n Hn) as (c2' & v' & Hp' & Hlc & _). rewrite Hp in Hp'. simplify_eq.
  assert (lc c2' !! ("anon" ++ n)%string = Some v') as Hk by (by rewrite Hlc lookup_insert).
  destruct (kept_levels _ _ os c2' Hk Hm Hch) as (nn & Hnn & rr & Hrr & HF).
  inversion HF as [|?? HF1 _]; subst.
  pose proof (perform_substitutions_frames w' name' _ _ _ Hn') as Hfr.
  assert (lc c4 !! ("anon" ++ n)%string = Some v') as H4.
  { eapply lookup_weaken; [exact HF1|apply Hfr]. }
  destruct (anon_cases w' name' _ c4 n Hn') as (c5 & v5 & Hp5 & _ & Hsame).
  destruct (Hsame _ H4) as [-> ->]. done.
Qed.
Lemma anon_stable_perform w w' name name' l n v c c1 c2 c3 c4 r :
  perform_substitutions w name c = (c1, Ok n) ->
  perform w (SAnonName name) c = (c2, Ok v) ->
  perform_substitutions w' l c2 = (c3, r) ->
  perform_substitutions w' name' c3 = (c4, Ok n) ->
  perform w' (SAnonName name') c3 = (c4, Ok v).
Proof.
  intros Hn Hp Hl Hn'.
  destruct (anon_cases w name c c1 n Hn) as (c2' & v' & Hp' & Hlc & _). rewrite Hp in Hp'. simplify_eq.
  assert (lc c2' !! ("anon" ++ n)%string = Some v') as Hk by (by rewrite Hlc lookup_insert).
  pose proof (perform_substitutions_frames w' l _ _ _ Hl) as Hf1.
  pose proof (perform_substitutions_frames w' name' _ _ _ Hn') as Hf2.
  assert (lc c4 !! ("anon" ++ n)%string = Some v') as H4.
  { eapply lookup_weaken; [|apply Hf2]. eapply lookup_weaken; [exact Hk|apply Hf1]. }
  destruct (anon_cases w' name' _ c4 n Hn') as (c5 & v5 & Hp5 & _ & Hsame).
  destruct (Hsame _ H4) as [-> ->]. done.
Qed.

Lemma bool_str_true b : bool_str b = "true" <-> b = true.
Proof. by destruct b. Qed.
Lemma bool_str_false b : bool_str b = "false" <-> b = false.
Proof. by destruct b. Qed.
Lemma existsb_id bs : existsb (fun b => b) bs = true <-> In true bs.
Proof. rewrite existsb_exists. split; [by intros (? & ? & ->)|]. intros H. by exists true. Qed.
Lemma forallb_id bs : forallb (fun b => b) bs = false <-> In false bs.
Proof.
  induction bs as [|[] bs IH]; simpl; [done| |by split; auto].
  rewrite IH. split; [by right|by intros [?|?]].
Qed.
Lemma any_all_in w ls c c' bs :
  operands w ls c c' bs ->
  (exists x, perform w (SAny ls) c = (c', Ok x) /\ (x = "true" <-> In true bs) /\ (x = "false" <-> ~ In true bs)) /\
  (exists x, perform w (SAll ls) c = (c', Ok x) /\ (x = "true" <-> ~ In false bs) /\ (x = "false" <-> In false bs)).
Proof.
  intros [-> ->]%any_ok. split; eexists; (split; [done|]); rewrite bool_str_true bool_str_false.
  - rewrite -existsb_id. by destruct (existsb _ bs).
  - rewrite -forallb_id. by destruct (forallb _ bs).
Qed.
Lemma perform_frame_facts w l c c' r :
  perform_substitutions w l c = (c', r) ->
  env c' = env c /\ env_stack c' = env_stack c /\ lc_stack c' = lc_stack c
  /\ locals c' = locals c /\ globals c' = globals c /\ locals_stack c' = locals_stack c
  /\ handlers c' = handlers c /\ queue c' = queue c
  /\ (forall k v, lc c !! k = Some v -> lc c' !! k = Some v)
  /\ (forall k v, lc c !! k = None -> lc c' !! k = Some v -> exists n, k = ("anon" ++ n)%string).
Proof.
  intros [E Hs Hn _ _]%perform_substitutions_frames. split_and!; try by rewrite E.
  - intros k v H. by eapply lookup_weaken.
  - intros k v H1 H2. apply (Hn k H1). by exists v.
Qed.
Lemma and_or_table w l r c c' a b :
  operands w [l; r] c c' [a; b] ->
  perform w (SAnd l r) c = (c', Ok (if a then (if b then "true" else "false") else "false")) /\
  perform w (SOr l r) c = (c', Ok (if a then "true" else if b then "true" else "false")).
Proof. intros [-> ->]%and_or_ok. by destruct a, b. Qed.
Lemma not_table w l c c' b :
  operand w l c c' b -> perform w (SNot l) c = (c', Ok (if b then "false" else "true")).
Proof. intros ->%not_ok. by destruct b. Qed.
Lemma failures w l r ls c c' e :
  (operand_fails w l c c' e -> perform w (SNot l) c = (c', Exn e)) /\
  (operands_fail w [l; r] c c' e ->
     perform w (SAnd l r) c = (c', Exn e) /\ perform w (SOr l r) c = (c', Exn e)) /\
  (operands_fail w ls c c' e ->
     perform w (SAny ls) c = (c', Exn e) /\ perform w (SAll ls) c = (c', Exn e)).
Proof. split_and!; [apply not_fail|apply and_or_fail|apply any_fail]. Qed.
Lemma if_else_branch w cnd i e c c' b :
  operand w cnd c c' b ->
  perform w (SIfElse cnd i e) c = if b then perform_substitutions w i c' else perform_substitutions w e c'.
Proof. intros ->%(if_else_ok w cnd i e). by destruct b. Qed.
Lemma regroup w l1 l2 c :
  perform_substitutions w (l1 ++ l2) c =
  match perform_substitutions w l1 c with
  | (c1, Ok a) => match perform_substitutions w l2 c1 with
                  | (c2, Ok b) => (c2, Ok (a ++ b)%string)
                  | (c2, Exn e) => (c2, Exn e)
                  | (c2, OutOfFuel) => (c2, OutOfFuel)
                  end
  | (c1, Exn e) => (c1, Exn e)
  | (c1, OutOfFuel) => (c1, OutOfFuel)
  end.
Proof.
  rewrite performs_app /bindS /retS.
  by destruct (perform_substitutions w l1 c) as [c1 [a|e|]].
Qed.
Lemma nan_refuted : exists a : string, ~ texts_equal a a.
Proof. exists "nan". rewrite texts_equal_refl. intros H. apply H. vm_compute. reflexivity. Qed.
Lemma trans_refuted : exists a b c : string,
  texts_equal a b /\ texts_equal b c /\ ~ texts_equal a c.
Proof.
  exists "10", "10.000000009", "10.000000018". rewrite -!equals_spec. vm_compute. split_and!; done.
Qed.

(** Properties of substitutions and conditions: C37-C42. *)
From Coq Require Import QArith.
From Verif Require Import SpecSubst SubstFacts SubstLaws ExWorld.

(** C37: if the expression can be performed, giving text [t], IfCondition evaluates to
    [b] exactly if [t] denotes [b], and raises InvalidConditionExpressionError exactly
    if it denotes nothing; UnlessCondition evaluates to the opposite and raises in the
    same cases. *)
Theorem C37_condition_expressions : forall (w : world) (l : list subst) (c c' : ctx) (t : string),
  perform_substitutions w l c = (c', Ok t) ->
  (forall b, evaluate w (CIf l) c = (c', Ok b) <-> denotes t b) /\
  (forall b, evaluate w (CUnless l) c = (c', Ok b) <-> denotes t (negb b)) /\
  ((forall b, ~ denotes t b) <-> evaluate w (CIf l) c = (c', Exn XCond)) /\
  ((forall b, ~ denotes t b) <-> evaluate w (CUnless l) c = (c', Exn XCond)).
Proof. exact if_unless. Qed.
Print Assumptions C37_condition_expressions.

(** C37: both fail together when the expression cannot be performed. *)
Theorem C37_failing_expressions : forall (w : world) (l : list subst) (c c' : ctx) (e : exn),
  perform_substitutions w l c = (c', Exn e) ->
  evaluate w (CIf l) c = (c', Exn e) /\ evaluate w (CUnless l) c = (c', Exn e).
Proof. exact if_unless_error. Qed.
Print Assumptions C37_failing_expressions.

Example C37_example :
  denotes (" TrUe" ++ String nl "")%string true /\
  evaluate w0 (CUnless [SText " T"; SText "rUe "]) c0 = (c0, Ok false) /\
  evaluate w0 (CIf [SText "yes"]) c0 = (c0, Exn XCond) /\
  perform_substitutions w0 [SLaunchConfig [SText "a"] None] c0 = (c0, Exn XSubst).
Proof.
  repeat split; try reflexivity.
  exists " ", "TrUe", (String nl ""), "true". split; [reflexivity|].
  split; [repeat constructor|]. split; [repeat constructor|]. split; [left; reflexivity|].
  repeat constructor; (left; reflexivity) || (right; vm_compute; split; [lia|reflexivity]).
Qed.

(** C38: And, Or. *)
Theorem C38_and_or : forall (w : world) (l r : list subst) (c c' : ctx) (a b : bool),
  operands w [l; r] c c' [a; b] ->
  perform w (SAnd l r) c = (c', Ok (if a then (if b then "true" else "false") else "false")) /\
  perform w (SOr l r) c = (c', Ok (if a then "true" else if b then "true" else "false")).
Proof. exact and_or_table. Qed.
Print Assumptions C38_and_or.

(** C38: Not. *)
Theorem C38_not : forall (w : world) (l : list subst) (c c' : ctx) (b : bool),
  operand w l c c' b -> perform w (SNot l) c = (c', Ok (if b then "false" else "true")).
Proof. exact not_table. Qed.
Print Assumptions C38_not.

(** C38: Any is true exactly if some operand is, All exactly if no operand is false;
    all operands are evaluated in both (the context is threaded through all of them). *)
Theorem C38_any_all : forall (w : world) (ls : list (list subst)) (c c' : ctx) (bs : list bool),
  operands w ls c c' bs ->
  (exists x, perform w (SAny ls) c = (c', Ok x) /\ (x = "true" <-> In true bs) /\ (x = "false" <-> ~ In true bs)) /\
  (exists x, perform w (SAll ls) c = (c', Ok x) /\ (x = "true" <-> ~ In false bs) /\ (x = "false" <-> In false bs)).
Proof. exact any_all_in. Qed.
Print Assumptions C38_any_all.

(** C38: an operand that cannot be evaluated, or is not a boolean, makes the whole
    substitution fail with that error (SubstitutionFailure for a non-boolean), whatever
    the other operands are. *)
Theorem C38_failures : forall (w : world) (l r : list subst) (ls : list (list subst)) (c c' : ctx) (e : exn),
  (operand_fails w l c c' e -> perform w (SNot l) c = (c', Exn e)) /\
  (operands_fail w [l; r] c c' e ->
     perform w (SAnd l r) c = (c', Exn e) /\ perform w (SOr l r) c = (c', Exn e)) /\
  (operands_fail w ls c c' e ->
     perform w (SAny ls) c = (c', Exn e) /\ perform w (SAll ls) c = (c', Exn e)).
Proof. exact failures. Qed.
Print Assumptions C38_failures.

(** C38: IfElseSubstitution performs only the selected branch. *)
Theorem C38_if_else : forall (w : world) (cnd i e : list subst) (c c' : ctx) (b : bool),
  operand w cnd c c' b ->
  perform w (SIfElse cnd i e) c = if b then perform_substitutions w i c' else perform_substitutions w e c'.
Proof. exact if_else_branch. Qed.
Print Assumptions C38_if_else.

Example C38_example :
  let yes := [SText "y"; SText "es"] in let no := [SText "0"] in
  operands w0 [no; yes] c0 c0 [false; true] /\
  operands_fail w0 [no; [SText "maybe"]; yes] c0 c0 XSubst /\
  perform w0 (SAny [no; yes]) c0 = (c0, Ok "true") /\
  perform w0 (SAll []) c0 = (c0, Ok "true") /\ perform w0 (SAny []) c0 = (c0, Ok "false") /\
  perform w0 (SAny [yes; [SText "maybe"]]) c0 = (c0, Exn XSubst).
Proof.
  simpl. repeat split; try reflexivity.
  - econstructor; [exists "0"; split; reflexivity|].
    econstructor; [exists "yes"; split; [reflexivity|vm_compute; split; [discriminate|reflexivity]]|constructor].
  - exists [[SText "0"]], [SText "maybe"], [[SText "y"; SText "es"]], c0, [false].
    split; [reflexivity|]. split.
    + econstructor; [exists "0"; split; reflexivity|constructor].
    + right. exists "maybe". split; [reflexivity|]. split; [|reflexivity].
      intros b. vm_compute. intros [_ H]. discriminate.
Qed.

(** C39: EqualsSubstitution gives 'true' or 'false' according to whether the two texts
    are equal as booleans, numbers or text; NotEqualsSubstitution gives the opposite. *)
Theorem C39_equals_not_equals : forall (w : world) (l r : list subst) (c c1 c2 : ctx) (a b : string),
  perform_substitutions w l c = (c1, Ok a) -> perform_substitutions w r c1 = (c2, Ok b) ->
  exists p : bool, (p = true <-> texts_equal a b)
    /\ perform w (SEquals l r) c = (c2, Ok (bool_str p))
    /\ perform w (SNotEquals l r) c = (c2, Ok (bool_str (negb p))).
Proof. exact equals_performs. Qed.
Print Assumptions C39_equals_not_equals.

Theorem C39_symmetric : forall a b : string, texts_equal a b -> texts_equal b a.
Proof. exact texts_equal_sym. Qed.
Print Assumptions C39_symmetric.

(** C39: it is reflexive exactly outside of the spellings of nan. *)
Theorem C39_reflexive_iff : forall a : string, texts_equal a a <-> py_float a <> Some FNan.
Proof. exact texts_equal_refl. Qed.
Print Assumptions C39_reflexive_iff.

(** C39 (finding): it is not an equivalence. *)
Theorem C39_reflexive_refuted : exists a : string, ~ texts_equal a a.
Proof. exact nan_refuted. Qed.
Print Assumptions C39_reflexive_refuted.

Theorem C39_transitive_refuted : exists a b c : string,
  texts_equal a b /\ texts_equal b c /\ ~ texts_equal a c.
Proof. exact trans_refuted. Qed.
Print Assumptions C39_transitive_refuted.

Example C39_example :
  texts_equal "TRUE" "1" /\ ~ texts_equal "true" "1.0" /\ texts_equal "2" " 2.0e0 " /\ ~ texts_equal "a" "A".
Proof. rewrite <- !equals_spec. vm_compute. repeat split; discriminate. Qed.

(** C40: LaunchConfiguration. *)
Theorem C40_launch_configuration : forall (w : world) (name : list subst) (d : option (list subst))
    (c c1 : ctx) (n : string),
  perform_substitutions w name c = (c1, Ok n) ->
  perform w (SLaunchConfig name d) c =
    match lc c1 !! n, d with
    | Some v, _ => (c1, Ok v)
    | None, Some dflt => perform_substitutions w dflt c1
    | None, None => (c1, Exn XSubst)
    end.
Proof. exact launch_config_cases. Qed.
Print Assumptions C40_launch_configuration.

(** C40: EnvironmentVariable (its default is performed first, even if not needed). *)
Theorem C40_environment_variable : forall (w : world) (name : list subst) (c c1 : ctx) (n : string),
  perform_substitutions w name c = (c1, Ok n) ->
  perform w (SEnvVar name None) c =
    match env c1 !! n with Some v => (c1, Ok v) | None => (c1, Exn XSubst) end.
Proof. exact env_var_cases_none. Qed.
Print Assumptions C40_environment_variable.

Theorem C40_environment_variable_default : forall (w : world) (name d : list subst)
    (c c0 c1 : ctx) (n dv : string),
  perform_substitutions w d c = (c0, Ok dv) ->
  perform_substitutions w name c0 = (c1, Ok n) ->
  perform w (SEnvVar name (Some d)) c =
    match env c1 !! n with Some v => (c1, Ok v) | None => (c1, Ok dv) end.
Proof. exact env_var_cases_some. Qed.
Print Assumptions C40_environment_variable_default.

(** C40: performing any substitution whatever (including those nested in names and
    defaults) changes neither the environment nor an existing launch configuration, nor
    anything else observable of the context: it can only add reserved 'anon...' keys. *)
Theorem C40_performing_changes_nothing : forall (w : world) (l : list subst) (c c' : ctx) (r : res string),
  perform_substitutions w l c = (c', r) ->
  env c' = env c /\ env_stack c' = env_stack c /\ lc_stack c' = lc_stack c
  /\ locals c' = locals c /\ globals c' = globals c /\ locals_stack c' = locals_stack c
  /\ handlers c' = handlers c /\ queue c' = queue c
  /\ (forall k v, lc c !! k = Some v -> lc c' !! k = Some v)
  /\ (forall k v, lc c !! k = None -> lc c' !! k = Some v -> exists n, k = ("anon" ++ n)%string).
Proof. exact perform_frame_facts. Qed.
Print Assumptions C40_performing_changes_nothing.

Example C40_example :
  perform w0 (SLaunchConfig [SText "a"] (Some [SLaunchConfig [SText "b"] None])) (set_lc "b" "x" c0)
    = (set_lc "b" "x" c0, Ok "x") /\
  perform w0 (SEnvVar [SText "HOME"] (Some [SText "d"])) c0 = (c0, Ok "/root").
Proof. split; reflexivity. Qed.

(** C41: AnonName returns the value stored under the reserved key, which it sets if
    needed; no other launch configuration changes. *)
Theorem C41_anon_value : forall (w : world) (name : list subst) (c c1 : ctx) (n : string),
  perform_substitutions w name c = (c1, Ok n) ->
  exists c2 v, perform w (SAnonName name) c = (c2, Ok v)
    /\ lc c2 = <[("anon" ++ n)%string := v]> (lc c1)
    /\ (forall v0, lc c1 !! ("anon" ++ n)%string = Some v0 -> v = v0 /\ c2 = c1).
Proof. exact anon_cases. Qed.
Print Assumptions C41_anon_value.

(** C41: once AnonName of a name has given [v], every AnonName of that name gives [v]
    after any history of context operations that does not pop the scope in which it
    was created and does not set or delete the reserved key itself. *)
Theorem C41_anon_stable : forall (w w' : world) (name name' : list subst) (n v : string)
    (c c1 c2 c3 c4 : ctx) (os : list cop),
  perform_substitutions w name c = (c1, Ok n) ->
  perform w (SAnonName name) c = (c2, Ok v) ->
  (forall p q, os = p ++ q -> pops StLC p <= pushes StLC p)%nat ->
  existsb (changes_lc ("anon" ++ n)) os = false ->
  c3 = history os c2 ->
  perform_substitutions w' name' c3 = (c4, Ok n) ->
  perform w' (SAnonName name') c3 = (c4, Ok v).
Proof. exact anon_stable. Qed.
Print Assumptions C41_anon_stable.

(** C41: performing other substitutions in between does not change it either. *)
Theorem C41_anon_stable_perform : forall (w w' : world) (name name' l : list subst) (n v : string)
    (c c1 c2 c3 c4 : ctx) (r : res string),
  perform_substitutions w name c = (c1, Ok n) ->
  perform w (SAnonName name) c = (c2, Ok v) ->
  perform_substitutions w' l c2 = (c3, r) ->
  perform_substitutions w' name' c3 = (c4, Ok n) ->
  perform w' (SAnonName name') c3 = (c4, Ok v).
Proof. exact anon_stable_perform. Qed.
Print Assumptions C41_anon_stable_perform.

Example C41_example :
  let c2 := (perform w0 (SAnonName [SText "node"]) c0).1 in
  (perform w0 (SAnonName [SText "node"]) c0).2 = Ok "node_0" /\
  let os := [CPushLC; CSetLC "x" "1"; CPopLC; CPushLC] in
  (forall p q, os = p ++ q -> pops StLC p <= pushes StLC p)%nat /\
  existsb (changes_lc "anonnode") os = false /\
  (perform w0 (SAnonName [SText "no"; SText "de"]) (history os c2)).2 = Ok "node_0".
Proof.
  simpl. split; [reflexivity|]. split; [|split; reflexivity].
  intros p q H. do 5 (destruct p as [|? p]; [vm_compute; lia|]; simplify_eq/=).
Qed.

(** C42: performing a list performs its members one after the other in the context left
    by the previous one and concatenates the results. *)
Theorem C42_concatenation : forall (w : world) (l : list subst) (c c' : ctx) (t : string),
  perform_substitutions w l c = (c', Ok t) <->
  exists ts, performed w l c c' ts /\ t = concat_str ts.
Proof. exact performed_iff. Qed.
Print Assumptions C42_concatenation.

(** C42: regrouping. *)
Theorem C42_regroup : forall (w : world) (l1 l2 : list subst) (c : ctx),
  perform_substitutions w (l1 ++ l2) c =
  match perform_substitutions w l1 c with
  | (c1, Ok a) => match perform_substitutions w l2 c1 with
                  | (c2, Ok b) => (c2, Ok (a ++ b)%string)
                  | (c2, Exn e) => (c2, Exn e)
                  | (c2, OutOfFuel) => (c2, OutOfFuel)
                  end
  | (c1, Exn e) => (c1, Exn e)
  | (c1, OutOfFuel) => (c1, OutOfFuel)
  end.
Proof. exact regroup. Qed.
Print Assumptions C42_regroup.

(** C42: splitting literal text anywhere changes nothing. *)
Theorem C42_split_text : forall (w : world) (l1 l2 : list subst) (s t : string) (c : ctx),
  perform_substitutions w (l1 ++ SText (s ++ t) :: l2) c =
  perform_substitutions w (l1 ++ SText s :: SText t :: l2) c.
Proof. exact split_text. Qed.
Print Assumptions C42_split_text.

Example C42_example :
  performed w0 [SText "a"; SLaunchConfig [SText "b"] None] (set_lc "b" "x" c0) (set_lc "b" "x" c0) ["a"; "x"].
Proof. repeat econstructor. Qed.

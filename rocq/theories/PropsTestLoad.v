(** C78: loading launch tests, their runs and what they are given. *)
From Coq Require Import ssreflect Permutation.
From Verif Require Import StrFacts TestLoadFacts SpecTestLoad.

(** C78, runs: a description with [parametrize] has one run for each value, in order.  It calls the
    function under the decorator; a parameter has the last value of its position, and no others exist. *)
Theorem C78_runs : forall V (show : V -> string) f cs below text values above names modname classes,
  splits cs below (text, values) above -> names_in text names ->
  Forall2 (fun x r => lr_desc r = decorated f below /\ List.NoDup (map fst (lr_args r)) /\ forall n v, maps (lr_args r) n v <-> pairs names (to_tuple x) n v)
          values (load_module show modname (decorated f cs) classes).
Proof.
  intros V show f cs below text values above names modname classes [-> Ha] Hn. apply names_iff in Hn as <-. destruct (decorate_above f below (text, values) above Ha) as [own Hd]. rewrite Hd. cbn [load_module runs fst snd]. rewrite /load_module. cbn [runs].
  rewrite !map_map. induction values as [|x values IH]; [constructor|]. cbn [map]. constructor.
  - split; [done|]. split; [apply dupdate_keys; constructor|]. intros n v. apply args_iff.
  - clear IH Hd own. induction values as [|y values IH]; [constructor|]. cbn [map]. constructor; [|done]. split; [done|]. split; [apply dupdate_keys; constructor|]. intros n v. apply args_iff.
Qed.
Print Assumptions C78_runs.
(** C78, plain: without [parametrize] there is one run, without arguments. *)
Theorem C78_plain : forall V (show : V -> string) f cs modname classes, plain cs -> exists r,
  load_module show modname (decorated f cs) classes = [r] /\ lr_desc r = decorated f cs /\ lr_args r = [] /\ lr_name r = modname.
Proof. intros V show f cs modname classes H. destruct (decorated_plain f cs H) as [a ->]. eexists. split; [reflexivity|]. split_and!; [done..|]. apply StrFacts.str_app_nil. Qed.
Print Assumptions C78_plain.
(** C78, attributes: every run has the last timeout given to the function it calls, or 15 seconds,
    and is kept alive exactly if that function is marked so. *)
Theorem C78_attributes : forall V (show : V -> string) f cs modname classes r, In r (load_module show modname (decorated f cs) classes) ->
  exists below, ((plain cs /\ below = cs) \/ exists p above, splits cs below p above) /\ last_timeout below (lr_timeout r) /\ (lr_keep r = true <-> In KKeepAlive below).
Proof.
  intros V show f cs modname classes r Hr.
  assert (Hs : plain cs \/ exists below p above, splits cs below p above).
  { clear. induction cs as [|c cs IH] using rev_ind; [left; intros a vs []|]. destruct c as [n| |a vs].
    - destruct IH as [H|(b & p & ab & -> & Hn)]; [left|right]; [intros a vs Hi; apply in_app_or in Hi as [Hi|[Hi|[]]]; [by apply (H a vs)|done]|]. exists b, p, (ab ++ [KTimeout n]). split; [by rewrite -app_assoc|]. intros a vs Hi. apply in_app_or in Hi as [Hi|[Hi|[]]]; [by apply (Hn a vs)|done].
    - destruct IH as [H|(b & p & ab & -> & Hn)]; [left|right]; [intros a vs Hi; apply in_app_or in Hi as [Hi|[Hi|[]]]; [by apply (H a vs)|done]|]. exists b, p, (ab ++ [KKeepAlive]). split; [by rewrite -app_assoc|]. intros a vs Hi. apply in_app_or in Hi as [Hi|[Hi|[]]]; [by apply (Hn a vs)|done].
    - right. exists cs, (a, vs), []. split; [done|intros ? ? []]. }
  assert (Hm : forall below args, r = make_run show modname classes (decorated f below, args) -> last_timeout below (lr_timeout r) /\ (lr_keep r = true <-> In KKeepAlive below)).
  { intros below args ->. cbn. split; [apply attrs_timeout|apply attrs_keep]. }
  destruct Hs as [Hp|(below & p & above & Hs)].
  - exists cs. split; [by left|]. destruct (decorated_plain f cs Hp) as [a E]. rewrite /load_module E in Hr. cbn in Hr. destruct Hr as [<-|[]]. apply (Hm cs []). by rewrite E.
  - exists below. split; [right; by exists p, above|]. pose proof Hs as [-> Ha]. destruct (decorate_above f below p above Ha) as [own E]. rewrite /load_module E in Hr. cbn [runs] in Hr. rewrite map_map in Hr. apply in_map_iff in Hr as (v & <- & _). by eapply Hm.
Qed.
Print Assumptions C78_attributes.
(** C78: a timeout and a mark written above [parametrize] are lost. *)
Theorem C78_above_refuted : exists (f : func nat) cs, In (KTimeout 60) cs /\ In KKeepAlive cs /\
  forall show modname classes r, In r (load_module show modname (decorated f cs) classes) -> lr_timeout r = 15 /\ lr_keep r = false.
Proof.
  exists {| fn_params := [{| fp_name := "a"; fp_default := None |}]; fn_varkw := false; fn_body := fun _ => Ok (FLd []) |}, [KParametrize "a" [AOne 1; AOne 2]; KTimeout 60; KKeepAlive].
  split; [right; by left|]. split; [right; right; by left|]. intros show modname classes r Hr. cbn in Hr. destruct Hr as [<-|[<-|[]]]; done.
Qed.
Print Assumptions C78_above_refuted.
(** C78, validation: the runs of a description that is parametrized once are accepted exactly if
    each value gives exactly the arguments of the function. *)
Theorem C78_validate : forall V (f : func V) cs below text values above names, splits cs below (text, values) above -> plain below -> names_in text names ->
  (validate (runs (decorated f cs)) = Ok tt <-> forall x, In x values -> forall n, In n (map fp_name (fn_params f)) <-> exists v, pairs names (to_tuple x) n v).
Proof.
  intros V f cs below text values above names [-> Ha] Hp Hn. apply names_iff in Hn as <-. destruct (decorate_above f below (text, values) above Ha) as [own ->]. destruct (decorated_plain f below Hp) as [a ->].
  rewrite validate_all. cbn [runs fst snd]. split.
  - intros H x Hx n. rewrite -keys_pairs. revert n. apply (validate_fun a). apply H. apply in_map_iff. exists (to_tuple x). split; [done|by apply in_map].
  - intros H r Hr. apply in_map_iff in Hr as (l & <- & Hl). apply in_map_iff in Hl as (x & <- & Hx). apply validate_fun. intros n. rewrite keys_pairs. by apply H.
Qed.
Print Assumptions C78_validate.
(** C78, called: a run that was accepted calls the function with the value of its position for
    every parameter, and with nothing else. *)
Theorem C78_called : forall V (f : func V) cs below text values above names x, splits cs below (text, values) above -> plain below -> names_in text names ->
  validate (runs (decorated f cs)) = Ok tt -> In x values ->
  exists args, In (decorated f below, dupdate [] (combine names (to_tuple x))) (runs (decorated f cs)) /\
    call (decorated f below) (dupdate [] (combine names (to_tuple x))) = fn_body f args /\
    Forall2 (fun p kv => fst kv = fp_name p /\ pairs names (to_tuple x) (fp_name p) (snd kv)) (fn_params f) args.
Proof.
  intros V f cs below text values above names x Hs Hp Hn Hv Hx. pose proof (proj1 (C78_validate V f cs below text values above names Hs Hp Hn) Hv x Hx) as Hk.
  destruct Hs as [-> Ha]. apply names_iff in Hn as <-. destruct (decorate_above f below (text, values) above Ha) as [own ->]. destruct (decorated_plain f below Hp) as [a ->].
  destruct (call_fun a f (dupdate [] (combine (arg_names text) (to_tuple x)))) as (args & E & Hc); [intros n; by rewrite keys_pairs|]. exists args. split; [cbn [runs fst snd]; apply in_map_iff; exists (to_tuple x); split; [done|by apply in_map]|]. split; [done|].
  assert (Hin : forall p, In p (fn_params f) -> exists v, pairs (arg_names text) (to_tuple x) (fp_name p) v) by (intros p Hp'; apply Hk; by apply in_map).
  clear -Hc Hin. rewrite /called in Hc. induction Hc as [|p kv ps args [H1 H2] Hc IH]; [constructor|]. constructor; [|apply IH; intros; apply Hin; by right]. split; [done|]. destruct H2 as [H2|[H2 _]]; [by apply args_iff|]. exfalso.
  destruct (Hin p (or_introl eq_refl)) as [v Hv]. apply (H2 v). by apply args_iff.
Qed.
Print Assumptions C78_called.
(** C78: of a value with more parts than names, the others are dropped silently. *)
Theorem C78_surplus_refuted : exists f : func nat, let d := decorated f [KParametrize "a" [ATuple [1; 2]]] in
  validate (runs d) = Ok tt /\ map snd (runs d) = [[("a", 1)]].
Proof. by exists {| fn_params := [{| fp_name := "a"; fp_default := None |}]; fn_varkw := false; fn_body := fun _ => Ok (FLd []) |}. Qed.
Print Assumptions C78_surplus_refuted.
(** C78: a function with a further argument that has a default is rejected, although it could be called. *)
Theorem C78_defaults_refuted : exists (f : func nat) cs, validate (runs (decorated f cs)) <> Ok tt /\
  forall d kw, In (d, kw) (runs (decorated f cs)) -> exists es, call d kw = Ok (FLd es).
Proof.
  exists {| fn_params := [{| fp_name := "a"; fp_default := Some 7 |}]; fn_varkw := false; fn_body := fun _ => Ok (FLd []) |}, [].
  split; [done|]. intros d kw [H|[]]. injection H as <- <-. by exists [].
Qed.
Print Assumptions C78_defaults_refuted.
(** C78: a description that is parametrized twice can never be run. *)
Theorem C78_twice_refuted : forall V (f : func V) cs below p above, splits cs below p above -> ~ plain below ->
  forall d kw, In (d, kw) (runs (decorated f cs)) -> validate_run (d, kw) <> Ok tt \/ describe d kw = Exn XAttr.
Proof.
  intros V f cs below p above [-> Ha] Hp d kw Hr. destruct (decorate_above f below p above Ha) as [own E]. rewrite E in Hr. cbn [runs] in Hr. apply in_map_iff in Hr as (v & Hv & _). injection Hv as <- <-.
  assert (Hi : exists o i n vs, decorated f below = DParam o i n vs).
  { clear -Hp. assert (Hs : forall cs : list (deco V), plain cs \/ exists o i n vs, decorated f cs = DParam o i n vs).
    { clear. induction cs as [|c cs IH] using rev_ind; [left; intros a vs []|]. rewrite decorated_app. destruct c as [n| |a vs].
      - destruct IH as [H|(o & i & n' & vs & ->)]; [left; intros a vs Hi; apply in_app_or in Hi as [Hi|[Hi|[]]]; [by apply (H a vs)|done]|right; by repeat eexists].
      - destruct IH as [H|(o & i & n' & vs & ->)]; [left; intros a vs Hi; apply in_app_or in Hi as [Hi|[Hi|[]]]; [by apply (H a vs)|done]|right; by repeat eexists].
      - right. by repeat eexists. }
    by destruct (Hs below). }
  destruct Hi as (o & i & n & vs & ->). destruct (dupdate [] (combine (arg_names (fst p)) v)) as [|kv kw]; [right; done|left]. rewrite /validate_run. cbn [can_call fst snd]. destruct (forallb _ _); [|done]. by destruct (forallb _ _).
Qed.
Print Assumptions C78_twice_refuted.
(** C78, tests: a run has every test exactly once: after the shutdown those of the classes that are
    marked or derived from a marked class, before it the others. *)
Theorem C78_tests : forall V (show : V -> string) modname d classes r, In r (load_module show modname d classes) ->
  (forall post m, In m (if post then lr_post r else lr_pre r) <-> exists c m', In c classes /\ In m' (class_tests c) /\ m = extend_name show (lr_args r) m' /\ (post = true <-> post_class c)) /\
  Permutation (lr_pre r ++ lr_post r) (map (extend_name show (lr_args r)) (concat (map class_tests classes))).
Proof.
  intros V show modname d classes r Hr. rewrite /load_module in Hr. apply in_map_iff in Hr as ([x args] & <- & _). cbn [make_run lr_pre lr_post lr_args snd]. split.
  - intros post m. assert (E : (if post then map (extend_name show args) (load_tests true classes) else map (extend_name show args) (load_tests false classes)) = map (extend_name show args) (load_tests post classes)) by (by destruct post). rewrite E. rewrite in_map_iff. split.
    + intros (m' & <- & Hm). apply tests_iff in Hm as (c & H1 & H2 & H3). by exists c, m'.
    + intros (c & m' & H1 & H2 & -> & H3). exists m'. split; [done|]. apply tests_iff. by exists c.
  - rewrite -map_app. apply Permutation_map, tests_partition.
Qed.
Print Assumptions C78_tests.
(** C78, test names: with arguments of distinct names and as many values, the names of the run and
    of its tests are followed by the values in brackets. *)
Theorem C78_test_names : forall V (show : V -> string) names (vals : list V) m, List.NoDup names -> length vals = length names -> vals <> [] ->
  let suffix := ("[" ++ comma_join (map show vals) ++ "]")%string in
  format_params show (dupdate [] (combine names vals)) = suffix /\ tm_name (extend_name show (dupdate [] (combine names vals)) m) = (tm_name m ++ suffix)%string /\
  tm_class (extend_name show (dupdate [] (combine names vals)) m) = tm_class m /\ tm_params (extend_name show (dupdate [] (combine names vals)) m) = tm_params m.
Proof.
  intros V show names vals m Hn Hl Hv suffix. assert (Hf : map fst (combine names vals) = names /\ map snd (combine names vals) = vals).
  { clear -Hl. revert vals Hl. induction names as [|n names IH]; intros [|v vals] Hl; try done. cbn in Hl |- *. destruct (IH vals) as [-> ->]; [lia|done]. }
  rewrite dupdate_fresh; [by rewrite /= (proj1 Hf)|]. cbn [app]. assert (E : format_params show (combine names vals) = suffix).
  { destruct Hf as [_ Hf]. assert (Es : map (fun kv => show (snd kv)) (combine names vals) = map show vals) by (rewrite -(map_map snd show) Hf //). rewrite /suffix -Es /format_params. revert Hf. by destruct (combine names vals) as [|kv l]; [intros E; cbn in E; congruence|]. }
  split; [done|]. rewrite -E. destruct (combine names vals); done.
Qed.
Print Assumptions C78_test_names.
(** C78, ready: the run waits for the first ReadyToTest action of the description, in the order in
    which the entities are written; without one it fails. *)
Theorem C78_ready : forall V (d : desc V) kw r es ctx, call d kw = Ok r -> (r = FLd es /\ ctx = []) \/ r = FPair es ctx ->
  (forall es' ctx' a, describe d kw = Ok (es', ctx', a) <-> es' = es /\ ctx' = ctx /\ first_in es a) /\
  ((forall a, ~ has_ready es a) -> describe d kw = Exn XRuntime).
Proof.
  intros V d kw r es ctx Hc Hr. assert (E : describe d kw = match concat (map ready_actions es) with a :: _ => Ok (es, ctx, a) | [] => Exn XRuntime end) by (rewrite /describe Hc; by destruct Hr as [[-> ->]| ->]).
  rewrite E. split.
  - intros es' ctx' a. rewrite -first_iff. destruct (concat (map ready_actions es)) as [|b l]; split; [done|intros (_ & _ & ? & ?); done|intros [= <- <- <-]; eauto|intros (-> & -> & l' & [= -> _]); done].
  - intros H. destruct (concat (map ready_actions es)) as [|b l] eqn:E'; [done|]. exfalso. apply (H b), LaunchPytestFacts.has_ready_iff. rewrite E'. by left.
Qed.
Print Assumptions C78_ready.
(** C78, given: a test gets for each of its parameters the object of launch_testing of that name,
    or else the argument of the run, or else the item of the test context, or else its default. *)
Theorem C78_given : forall V post (g : given V) ctx args ps r, List.NoDup (map fst args) ->
  (test_call ps (injected post g ctx args) = Some r <-> called ps (injects (fixed_names post g) args ctx) r) /\
  (test_call ps (injected post g ctx args) = None <-> exists p, In p ps /\ fp_default p = None /\ forall v, ~ injects (fixed_names post g) args ctx (fp_name p) v).
Proof.
  intros V post g ctx args ps r Hn. assert (He : forall k v, maps (injected post g ctx args) k v <-> injects (fixed_names post g) args ctx k v).
  { intros k v. rewrite -dget_maps injected_iff. assert (Hm : forall k v, maps (rev args) k v <-> maps args k v) by (intros ? ?; by rewrite -!dget_maps nodup_rev_get).
    assert (Hi : In k (map fst (rev args)) <-> In k (map fst args)) by (rewrite map_rev -in_rev; done).
    split; intros [H|H1 H2|H1 H2 H3]; [by apply in_fixed|apply in_args; [done|by apply Hm]|apply in_ctx; [done|by rewrite -Hi|done]|by apply in_fixed|apply in_args; [done|by apply Hm]|apply in_ctx; [done|by rewrite Hi|done]]. }
  split.
  - rewrite test_call_iff. split; apply called_ext; intros k v _; by rewrite He.
  - rewrite test_call_none. split; intros (p & H1 & H2 & H3); exists p; split_and!; try done; intros v Hv; apply (H3 v); by apply He.
Qed.
Print Assumptions C78_given.

(** ** Concrete cases *)
Definition func_ex : func nat := {| fn_params := [{| fp_name := "a"; fp_default := None |}; {| fp_name := "b"; fp_default := Some 9 |}]; fn_varkw := false;
  fn_body := fun args => Ok (FPair [TEnt 1 false [TEnt 2 false [] [[TEnt 3 true [] []]]] []; TEnt 4 true [] []] [("x", length args); ("b", 77)]) |}.
Definition decos_ex : list (deco nat) := [KTimeout 30; KKeepAlive; KParametrize " b, ,a" [ATuple [1; 2]; ATuple [3; 4]]; KTimeout 60].
Definition classes_ex : list (tclass nat) := let base := TClass 1 true None [("test_x", [])] in [base; TClass 2 false (Some base) [("test_y", [])]; TClass 3 false None [("test_z", [{| fp_name := "a"; fp_default := None |}; {| fp_name := "proc_info"; fp_default := None |}]); ("test_w", [])]].
Example C78_ex_runs : map (fun r => (lr_args r, lr_timeout r, lr_keep r, map tm_name (lr_pre r), map tm_name (lr_post r))) (load_module (fun v => match v with 1 => "1" | _ => "n" end) "m" (decorated func_ex decos_ex) classes_ex) =
  [([("b", 1); ("a", 2)], 30, true, ["test_z[1, n]"; "test_w[1, n]"], ["test_x[1, n]"; "test_y[1, n]"]);
   ([("b", 3); ("a", 4)], 30, true, ["test_z[n, n]"; "test_w[n, n]"], ["test_x[n, n]"; "test_y[n, n]"])].
Proof. reflexivity. Qed.
Example C78_ex_splits : splits decos_ex [KTimeout 30; KKeepAlive] (" b, ,a", [ATuple [1; 2]; ATuple [3; 4]]) [KTimeout 60] /\ plain (V := nat) [KTimeout 30; KKeepAlive] /\ names_in " b, ,a" ["b"; "a"].
Proof.
  split; [split; [done|intros a vs [?|[]]; done]|]. split; [intros a vs [?|[?|[]]]; done|]. apply names_iff. reflexivity.
Qed.
Example C78_ex_validate : validate (runs (decorated func_ex decos_ex)) = Ok tt /\ validate (runs (decorated func_ex [KParametrize "a" [AOne 1]])) = Exn XRuntime /\
  validate (runs (decorated func_ex [KParametrize "a,b,c" [ATuple [1; 2; 3]]])) = Exn XRuntime /\ validate (runs (decorated func_ex [KParametrize "a,b" [ATuple [1; 2]; AOne 5]])) = Exn XRuntime.
Proof. done. Qed.
Example C78_ex_describe : match runs (decorated func_ex decos_ex) with (d, kw) :: _ => describe d kw = Ok ([TEnt 1 false [TEnt 2 false [] [[TEnt 3 true [] []]]] []; TEnt 4 true [] []], [("x", 2); ("b", 77)], 3) | [] => False end.
Proof. reflexivity. Qed.
Example C78_ex_given : let g := {| gv_service := 100; gv_info := 101; gv_output := 102; gv_args := 103; gv_info_after := 104; gv_output_after := 105 |} in
  let ctx := injected true g [("x", 2); ("b", 77); ("proc_info", 78)] [("b", 1); ("a", 2)] in
  test_call [{| fp_name := "proc_info"; fp_default := None |}; {| fp_name := "b"; fp_default := None |}; {| fp_name := "x"; fp_default := None |}; {| fp_name := "y"; fp_default := Some 0 |}] ctx
    = Some [("proc_info", 104); ("b", 1); ("x", 2); ("y", 0)] /\
  test_call [{| fp_name := "launch_service"; fp_default := None |}] ctx = None.
Proof. done. Qed.
Example C78_ex_twice : map validate_run (runs (decorated func_ex [KParametrize "a" [AOne 1]; KParametrize "b" [AOne 2]])) = [Exn XRuntime].
Proof. reflexivity. Qed.

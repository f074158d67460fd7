(** Theorems about running launch tests: which tests run when, what the results and the exit
    code say, what the report holds (C66), and the arguments given to the tests (C67).
    Statements use TestRun.v and SpecTestRun.v. *)
From Verif Require Import SpecTestRun TestRunFacts.

(** * C66 *)
(** A run whose result is decided: the ready action, the active tests, the end of the launch and
    the tests after it happened in this order, and the result is made of exactly the reports of
    both kinds of tests; it is a success exactly when none of them is bad. *)
Theorem C66_verdict : forall l r, wk_main (wk_run l) = MEnd (WResults r) ->
  exists a p rc, let log := wk_log (wk_run l) in
    earlier BReady BActive log /\ earlier BActive (BActiveEnd (Some a)) log /\ earlier (BActiveEnd (Some a)) (BPost (Some p)) log /\ earlier (BLaunchEnd rc) (BPost (Some p)) log /\
    (forall y, In (BActiveEnd y) log -> y = Some a) /\ (forall y, In (BPost y) log -> y = Some p) /\
    r = tr_of (a ++ p) /\ (tr_success r = true <-> all_good (a ++ p)).
Proof. exact verdict_law. Qed.
(** What a result says about the reports it is made of. *)
Theorem C66_results : forall l, let r := tr_of l in
  tr_cases r = first_actions (starts l) /\ tr_run r = length (starts l) /\ tr_failures r = with_outcome OFailure l /\ tr_errors r = with_outcome OError l /\
  tr_skipped r = with_outcome OSkip l /\ tr_expected r = with_outcome OExpected l /\ tr_unexpected r = with_outcome OUnexpected l.
Proof. exact tr_of_law. Qed.
(** A run that died: the launch ended, and the tests for after it were not run. *)
Theorem C66_died : forall l, wk_main (wk_run l) = MEnd WDied ->
  (exists rc, In (BLaunchEnd rc) (wk_log (wk_run l))) /\ forall x, ~ In (BPost x) (wk_log (wk_run l)).
Proof. exact died_law. Qed.
(** If the active tests have not ended when the main thread looks after the end of the launch,
    the run died, whatever the test thread does. *)
Theorem C66_unfinished : forall l, wk_main (wk_run l) = MCheck -> (forall x, ~ In (BActiveEnd x) (wk_log (wk_run l))) ->
  wk_main (wk_run (l ++ [KCheck])) = MEnd WDied.
Proof. exact check_law. Qed.
(** If the test thread has asked for the shutdown after its tests, the tests after the shutdown are run. *)
Theorem C66_finished : forall l, wk_main (wk_run l) = MCheck -> (exists x, earlier (BActiveEnd x) BShutdown (wk_log (wk_run l))) ->
  wk_main (wk_run (l ++ [KCheck])) = MPost.
Proof. exact check_done_law. Qed.
(** A run raises an exception only if its tests raised one. *)
Theorem C66_raises : forall l, wk_main (wk_run l) = MEnd WRaises ->
  In (BActiveEnd None) (wk_log (wk_run l)) \/ In (BPost None) (wk_log (wk_run l)).
Proof. exact raises_law. Qed.
(** The test thread asks for a shutdown once, as the last thing it does, after the active tests
    if they began; before that it can go on, whatever has happened. *)
Theorem C66_shutdown : forall l, let st := wk_run l in
  match wk_test st with
  | TEnd => In BShutdown (wk_log st) /\ (In BActive (wk_log st) -> exists x, earlier BActive (BActiveEnd x) (wk_log st) /\ earlier (BActiveEnd x) BShutdown (wk_log st))
  | _ => ~ In BShutdown (wk_log st) /\ exists o, wk_test (wk_do st o) <> wk_test st
  end.
Proof. exact thread_law. Qed.
(** The exit code is 0 exactly when every run was skipped or had successful results. *)
Theorem C66_exit_zero : forall runs, exit_code runs = 0%Z <-> forall cases t, In (cases, t) runs -> good_run t.
Proof. exact exit_zero. Qed.
(** It is 2 exactly when a run raised an exception and no run before it died; else it is 1. *)
Theorem C66_exit_two : forall runs, exit_code runs = 2%Z <->
  exists pre cases t post, runs = pre ++ (cases, t) :: post /\ raising t /\ forall c, ~ In (c, TWorks WDied) pre.
Proof. exact exit_two. Qed.
Theorem C66_exit_codes : forall runs, exit_code runs = 0%Z \/ exit_code runs = 1%Z \/ exit_code runs = 2%Z.
Proof. exact exit_codes. Qed.
(** The results are those of the runs in order, up to the first run that died. *)
Theorem C66_runs : forall runs rs, runner_run runs = Some rs ->
  exists done_ rest, runs = done_ ++ rest /\ map Some rs = map result_of done_ /\
    (rest = [] \/ exists pre cases, done_ = pre ++ [(cases, TWorks WDied)]) /\ forall pre x post, done_ = pre ++ x :: post -> snd x = TWorks WDied -> post = [].
Proof. exact results_law. Qed.
(** The report: a suite for every result, and totals. *)
Theorem C66_report : forall rs, let x := report_xml rs in
  xr_suites x = map suite_xml rs /\ xr_tests x = list_sum (map xs_tests (xr_suites x)) /\ xr_failures x = list_sum (map xs_failures (xr_suites x)) /\ xr_errors x = list_sum (map xs_errors (xr_suites x)).
Proof. exact report_law. Qed.
(** A suite: the cases that started, once each; the counts; and under the cases exactly the
    elements for the outcomes of the cases that started. *)
Theorem C66_suite : forall l, let s := suite_xml (tr_of l) in
  map xc_case (xs_cases s) = first_actions (starts l) /\ xs_tests s = length (starts l) /\
  xs_failures s = length (with_outcome OFailure l) /\ xs_errors s = length (with_outcome OError l) /\ xs_skipped s = length (with_outcome OSkip l) /\
  forall k, of_kind k s ≡ₚ List.filter (fun t => existsb (Nat.eqb t) (starts l)) (with_outcome (outcome_of k) l).
Proof. exact suite_law. Qed.
(** So none is lost if all outcomes are of cases that started. *)
Theorem C66_elements : forall k l, (forall t, In (RGot (outcome_of k) t) l -> In (RStarted t) l) ->
  of_kind k (suite_xml (tr_of l)) ≡ₚ with_outcome (outcome_of k) l.
Proof. exact kinds_law. Qed.
(** The cases of a run that died are failures, those of a skipped run are skipped. *)
Theorem C66_died_suite : forall cases, NoDup cases -> let s := suite_xml (fail_result cases) in
  map xc_case (xs_cases s) = cases /\ xs_tests s = length cases /\ xs_failures s = length cases /\ xs_errors s = 0 /\ xs_skipped s = 0 /\ forall c, In c (xs_cases s) -> xc_elements c = [KFailure].
Proof. exact fail_suite. Qed.
Theorem C66_skipped_suite : forall cases, NoDup cases -> let s := suite_xml (skip_result cases) in
  map xc_case (xs_cases s) = cases /\ xs_tests s = length cases /\ xs_failures s = 0 /\ xs_errors s = 0 /\ xs_skipped s = length cases /\ forall c, In c (xs_cases s) -> xc_elements c = [KSkipped].
Proof. exact skip_suite. Qed.

(** Findings. *)
(** The launch may fail (its return code is not looked at), and the run is a success. *)
Definition one_pass : list wkop :=
  [KReady; KBegin; KActive (Some [RStarted 1]); KSet; KShut; KLaunchEnd 1; KCheck; KPost (Some [RStarted 2])].
Theorem C66_launch_code_refuted : exists l r, wk_main (wk_run l) = MEnd (WResults r) /\ tr_success r = true /\ In (BLaunchEnd 1) (wk_log (wk_run l)).
Proof. exists one_pass. eexists. split; [reflexivity|]. split; [reflexivity|]. do 4 right. left. reflexivity. Qed.
(** The active tests may end after the launch has ended by itself, and the run is a success. *)
Definition late : list wkop :=
  [KReady; KBegin; KLaunchEnd 0; KActive (Some [RStarted 1]); KSet; KCheck; KPost (Some [])].
Theorem C66_while_active_refuted : exists l r, wk_main (wk_run l) = MEnd (WResults r) /\ tr_success r = true /\
  forall x, ~ earlier (BActiveEnd x) (BLaunchEnd 0) (wk_log (wk_run l)).
Proof.
  exists late. eexists. split; [reflexivity|]. split; [reflexivity|]. intros x H. apply earlier_at in H as (i & j & Hij & Hi & Hj). cbn in Hi, Hj.
  assert (i = 3) as -> by (destruct i as [|[|[|[|[|[|i]]]]]]; cbn in Hi; congruence || reflexivity).
  assert (j = 2) as -> by (destruct j as [|[|[|[|[|[|j]]]]]]; cbn in Hj; congruence || reflexivity). lia.
Qed.
(** No runs, or runs without tests, are a success. *)
Theorem C66_empty_refuted : exists runs, exit_code runs = 0%Z /\ forall rs, runner_run runs = Some rs -> forall r, In r rs -> tr_run r = 0.
Proof. exists [([], TWorks (WResults (tr_of [])))]. split; [reflexivity|]. intros rs [= <-] r [<-|[]]. reflexivity. Qed.
(** An unexpected success makes the exit code 1, but the report has no trace of it. *)
Theorem C66_unexpected_refuted : exists l, exit_code [([1], TWorks (WResults (tr_of l)))] = 1%Z /\
  let s := suite_xml (tr_of l) in xs_failures s = 0 /\ xs_errors s = 0 /\ xs_skipped s = 0 /\ forall c, In c (xs_cases s) -> xc_elements c = [].
Proof. exists [RStarted 1; RGot OUnexpected 1]. split; [reflexivity|]. repeat (split; [reflexivity|]). intros c [<-|[]]. reflexivity. Qed.
(** An error of setUpClass is counted, but there is no element for it. *)
Theorem C66_class_error_refuted : exists l, let s := suite_xml (tr_of l) in xs_errors s = 1 /\ xs_cases s = [].
Proof. exists [RGot OError 7]. split; reflexivity. Qed.

Print Assumptions C66_verdict. Print Assumptions C66_results. Print Assumptions C66_died. Print Assumptions C66_unfinished. Print Assumptions C66_finished.
Print Assumptions C66_raises. Print Assumptions C66_shutdown. Print Assumptions C66_exit_zero. Print Assumptions C66_exit_two. Print Assumptions C66_exit_codes.
Print Assumptions C66_runs. Print Assumptions C66_report. Print Assumptions C66_suite. Print Assumptions C66_elements. Print Assumptions C66_died_suite. Print Assumptions C66_skipped_suite.
Print Assumptions C66_launch_code_refuted. Print Assumptions C66_while_active_refuted. Print Assumptions C66_empty_refuted. Print Assumptions C66_unexpected_refuted. Print Assumptions C66_class_error_refuted.

(** Examples. *)
Definition one_fail : list wkop :=
  [KReady; KBegin; KActive (Some [RStarted 1; RGot OFailure 1; RStarted 2]); KSet; KShut; KLaunchEnd 0; KCheck; KPost (Some [RStarted 3; RGot OSkip 3])].
Example C66_verdict_ex : exists r, wk_main (wk_run one_fail) = MEnd (WResults r) /\ tr_success r = false /\ tr_cases r = [1; 2; 3] /\ tr_failures r = [1] /\ tr_skipped r = [3].
Proof. eexists. repeat split. Qed.
Example C66_died_ex : wk_main (wk_run [KReady; KBegin; KLaunchEnd 0; KCheck; KActive (Some []); KSet; KShut]) = MEnd WDied.
Proof. reflexivity. Qed.
Example C66_not_ready_ex : let st := wk_run [KTimeout; KReady; KBegin; KShut; KLaunchEnd 0; KCheck] in wk_main st = MEnd WDied /\ wk_log st = [BReady; BShutdown; BLaunchEnd 0].
Proof. split; reflexivity. Qed.
Example C66_unfinished_ex : let l := [KReady; KBegin; KLaunchEnd 0] in wk_main (wk_run l) = MCheck /\ forall x, ~ In (BActiveEnd x) (wk_log (wk_run l)).
Proof. split; [reflexivity|]. intros x [?|[?|[?|[]]]]; discriminate. Qed.
Example C66_finished_ex : let l := [KReady; KBegin; KActive None; KSet; KShut; KLaunchEnd 0] in wk_main (wk_run l) = MCheck /\ earlier (BActiveEnd None) BShutdown (wk_log (wk_run l)).
Proof. split; [reflexivity|]. exists [BReady; BActive], [], [BLaunchEnd 0]. reflexivity. Qed.
Example C66_raises_ex : wk_main (wk_run [KReady; KBegin; KActive None; KSet; KShut; KLaunchEnd 0; KCheck; KPost (Some [])]) = MEnd WRaises.
Proof. reflexivity. Qed.
Definition good_result : tresult := tr_of [RStarted 1].
Definition bad_result : tresult := tr_of [RStarted 1; RGot OError 1].
Example C66_exit_ex : exit_code [([1], TWorks (WResults good_result)); ([2], TSkips)] = 0%Z /\ exit_code [([1], TWorks (WResults bad_result)); ([2], TSkips)] = 1%Z /\
  exit_code [([1], TWorks WDied); ([2], TBroken)] = 1%Z /\ exit_code [([1], TWorks (WResults bad_result)); ([2], TBroken)] = 2%Z.
Proof. repeat split. Qed.
Example C66_runs_ex : runner_run [([1], TSkips); ([2; 3], TWorks WDied); ([4], TWorks (WResults good_result))] = Some [skip_result [1]; fail_result [2; 3]].
Proof. reflexivity. Qed.
Example C66_elements_ex : let l := [RStarted 1; RGot OFailure 1; RStarted 2; RGot OFailure 2; RGot OFailure 2] in of_kind KFailure (suite_xml (tr_of l)) = [1; 2; 2].
Proof. reflexivity. Qed.

(** * C67 *)
(** The arguments are accepted exactly when each is a name that is not empty and has no ':=',
    then ':=', then a value that is not empty; a name has the value it was last given, and the
    names are in the order in which they first come. *)
Theorem C67_arguments : forall l r, parse_args l = Some r <-> exists kvs, Forall2 (fun a kv => argument a (fst kv) (snd kv)) l kvs /\
  map fst r = first_names (map fst kvs) /\ Forall (fun kv => last_value (fst kv) kvs = Some (snd kv)) r.
Proof. exact args_values_law. Qed.
Theorem C67_malformed : forall l, parse_args l = None <-> exists a, In a l /\ forall k v, ~ argument a k v.
Proof. exact args_none_law. Qed.
Print Assumptions C67_arguments. Print Assumptions C67_malformed.
Example C67_ex : parse_args ["a:=1"; "b:=x:=y"; "a:=2"; "c::=:="] = Some [("a", "2"); ("b", "x:=y"); ("c:", ":=")].
Proof. reflexivity. Qed.
Example C67_malformed_ex : parse_args ["a:="] = None /\ parse_args ["a:=1"; ":=b:=c"] = None /\ parse_args ["a=b"] = None.
Proof. repeat split. Qed.

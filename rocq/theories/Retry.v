(** Model of launch_testing/launch_testing/markers.py:30-63 [retry_on_failure], on the parts of
    python's unittest it uses. *)
From Verif Require Export TestRun.

(** What a call of the decorated method does: it may report failing sub-tests ([true]: by an
    AssertionError, a failure; [false]: by another exception, an error), and then returns a value,
    raises an AssertionError or another exception. *)
Inductive call_end := CReturns (v : nat) | CAsserts | CRaises (e : exn).
Record attempt := { at_subs : list bool; at_end : call_end }.
(** The outcome object of the test (unittest.case._Outcome) and the result it reports to.  Until
    python 3.10 ([old]) failing sub-tests wait in outcome.errors until the test has ended; later
    they are added to result.failures or result.errors at once.  [t]: the number of the test. *)
Record ostate := { os_success : bool; os_waiting : list bool; os_result : tresult }.
Section retry.
Context (old : bool) (t : nat).
(** unittest.case._Outcome.testPartExecutor and TestResult.addSubTest *)
Definition sub_report (b : bool) : report := RGot (if b then OFailure else OError) t.
Definition report_subs (subs : list bool) (o : ostate) : ostate :=
  match subs with
  | [] => o
  | _ => if old then {| os_success := false; os_waiting := os_waiting o ++ subs; os_result := os_result o |}
         else {| os_success := false; os_waiting := os_waiting o; os_result := fold_left tr_do (map sub_report subs) (os_result o) |}
  end.
(** 53-58 *)
Definition clear_errors (r : tresult) : tresult :=
  {| tr_cases := tr_cases r; tr_failures := tr_failures r; tr_errors := []; tr_run := tr_run r;
     tr_skipped := tr_skipped r; tr_expected := tr_expected r; tr_unexpected := tr_unexpected r |}.
Definition forgive (o : ostate) : ostate :=
  if old then {| os_success := true; os_waiting := []; os_result := os_result o |}
  else {| os_success := true; os_waiting := os_waiting o; os_result := clear_errors (os_result o) |}.
(** What the wrapper does: how often it calls and sleeps, and how it ends. *)
Record retried := { rt_calls : nat; rt_sleeps : nat; rt_end : call_end; rt_state : ostate }.
(** 43-61 for a method of a unittest.TestCase; [calls k] is what the [k]-th call does; [n] are the
    calls that may still follow the next one; [delay]: a delay is given. *)
Fixpoint wrapper (delay : bool) (calls : nat -> attempt) (n k : nat) (o : ostate) : retried :=
  let o' := report_subs (at_subs (calls k)) o in
  let ended := {| rt_calls := S k; rt_sleeps := if delay then k else 0; rt_end := at_end (calls k); rt_state := o' |} in
  match n with
  | 0 => ended                                                     (* 61 *)
  | S n' =>                                                        (* 45-60 *)
      match at_end (calls k) with
      | CReturns _ => if os_success o' then ended else wrapper delay calls n' (S k) (forgive o')
      | CAsserts => wrapper delay calls n' (S k) (forgive o')
      | CRaises _ => ended
      end
  end.
(** 43-61 for a method of another class, which has no [_outcome] (53). *)
Definition plain_wrapper (calls : nat -> attempt) (n : nat) : nat * call_end :=
  (1, match n, at_end (calls 0) with S _, CAsserts => CRaises XAttr | _, e => e end).
(** unittest.TestCase.run around it: an exception of the method is reported (a skip is left out),
    and until python 3.10 the sub-tests that wait. *)
Definition test_end (r : retried) : tresult :=
  let o := rt_state r in
  let sub := if old then fold_left tr_do (map sub_report (os_waiting o)) (os_result o) else os_result o in
  match rt_end r with CReturns _ => sub | CAsserts => tr_do sub (RGot OFailure t) | CRaises _ => tr_do sub (RGot OError t) end.
(** The test as a whole; [times] is positive (39). *)
Definition retry_test (times : nat) (delay : bool) (calls : nat -> attempt) (r : tresult) : option (retried * tresult) :=
  match times with
  | 0 => None
  | S n => let x := wrapper delay calls n 0 {| os_success := true; os_waiting := []; os_result := tr_do r (RStarted t) |} in Some (x, test_end x)
  end.
End retry.

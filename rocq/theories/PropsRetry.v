(** C79: tests that are retried on failure. *)
From Coq Require Import ssreflect.
From Verif Require Import SpecRetry RetryFacts.

(** C79, calls: a test that may be called [times] times is called until a call does not fail by
    assertion, at most [times] times; the delay is waited between calls only, and what the last
    call returns or raises is what the test returns or raises. *)
Theorem C79_calls : forall old t times delay calls r, 0 < times -> exists k x res,
  deciding times calls k /\ (forall k', deciding times calls k' -> k' = k) /\ retry_test old t times delay calls r = Some (x, res) /\
  rt_calls x = S k /\ S k <= times /\ rt_sleeps x = (if delay then k else 0) /\ rt_end x = at_end (calls k).
Proof.
  intros old t times delay calls r Ht. destruct (deciding_ex times calls Ht) as [k Hk]. destruct (retry_at old t delay calls times r k Hk) as (x & Hx & H1 & H2 & H3).
  exists k, x, (fold_left tr_do (reports t (calls k)) (os_result (after old t calls 0 k (begun t r)))). split_and!; try done; [intros k' Hk'; exact (deciding_unique times calls k' k Hk' Hk)|destruct Hk; lia].
Qed.
Print Assumptions C79_calls.
(** C79, verdict: what counts is the last call only, as if it had been the only one; always until
    python 3.10, and later if no test before had an error and no sub-test of an earlier call failed. *)
Theorem C79_verdict : forall old t times delay calls r k, deciding times calls k ->
  old = true \/ (tr_errors r = [] /\ forall i, i < k -> at_subs (calls i) = []) ->
  exists x, retry_test old t times delay calls r = Some (x, fold_left tr_do (RStarted t :: reports t (calls k)) r).
Proof.
  intros old t times delay calls r k Hk Hc. destruct (retry_at old t delay calls times r k Hk) as (x & Hx & _). exists x. rewrite Hx. by rewrite (after_fresh old t calls k r Hc).
Qed.
Print Assumptions C79_verdict.
(** C79, success: under the same condition the result is successful exactly if it was before and
    one of the first [times] calls passes after calls that all failed by assertion. *)
Theorem C79_success : forall old t times delay calls r x res, retry_test old t times delay calls r = Some (x, res) ->
  old = true \/ (tr_errors r = [] /\ forall i, at_subs (calls i) = []) ->
  (tr_success res = true <-> tr_success r = true /\ exists k, k < times /\ passes (calls k) /\ forall j, j < k -> fails (calls j)).
Proof.
  intros old t times delay calls r x res Hx Hc. assert (Ht : 0 < times) by (destruct times; [done|lia]). destruct (deciding_ex times calls Ht) as [k Hk].
  destruct (C79_verdict old t times delay calls r k Hk) as [x' Hx']; [destruct Hc as [?|[? ?]]; [by left|right; split; [done|intros; done]]|].
  rewrite Hx' in Hx. injection Hx as <- <-. cbn [fold_left]. rewrite reports_success started_success. apply and_iff_compat_l. destruct Hk as (Hk & Hf & Hd). split.
  - intros H. exists k. done.
  - intros (j & Hj & Hp & Hl). assert (E : j = k); [|by rewrite -E]. apply (deciding_unique times calls); [|done]. split; [done|]. split; [done|]. intros H. exfalso.
    destruct Hp as (H1 & v & H2). destruct H as [H|[H _]]; [by rewrite H2 in H|done].
Qed.
Print Assumptions C79_success.
(** C79, later versions: since python 3.11 failing sub-tests of earlier calls stay failures of the
    result, and a retry erases the errors of all tests before. *)
Theorem C79_since_311 : forall t times delay calls r k x res, deciding times calls k -> retry_test false t times delay calls r = Some (x, res) ->
  tr_failures res = tr_failures r ++ concat (map (fun i => map (fun _ => t) (List.filter (fun b => b) (at_subs (calls i)))) (seq 0 k)) ++ tr_failures (tr_of (reports t (calls k))) /\
  tr_errors res = (if Nat.eqb k 0 then tr_errors r else []) ++ tr_errors (tr_of (reports t (calls k))).
Proof.
  intros t times delay calls r k x res Hk Hx. destruct (retry_at false t delay calls times r k Hk) as (x' & Hx' & _). rewrite Hx' in Hx. injection Hx as _ <-. rewrite got_failures got_errors. rewrite after_new; [done|]. rewrite -app_assoc. split; [done|].
  f_equal. destruct k as [|k]; [done|]. cbn [Nat.eqb]. apply after_erased; [done|lia].
Qed.
Print Assumptions C79_since_311.
(** C79: since python 3.11 a run can be reported as successful although another test had an error:
    a later test that passes at its second call erases it. *)
Theorem C79_erased_refuted : exists t u times calls r, u <> t /\ In u (tr_errors r) /\ tr_success r = false /\
  exists x res, retry_test false t times false calls r = Some (x, res) /\ tr_success res = true.
Proof.
  exists 2, 1, 2, (fun k => match k with 0 => {| at_subs := []; at_end := CAsserts |} | _ => {| at_subs := []; at_end := CReturns 0 |} end), (tr_of [RStarted 1; RGot OError 1]).
  split; [done|]. split; [by left|]. split; [done|]. eexists _, _. by split.
Qed.
Print Assumptions C79_erased_refuted.
(** C79: since python 3.11 a test that passes at a retry is reported as failed if a sub-test of an
    earlier call failed. *)
Theorem C79_sub_tests_refuted : exists t times calls, passes (calls 1) /\ fails (calls 0) /\ 1 < times /\
  exists x res, retry_test false t times false calls tr_empty = Some (x, res) /\ rt_calls x = 2 /\ tr_success res = false.
Proof.
  exists 1, 3, (fun k => match k with 0 => {| at_subs := [true]; at_end := CReturns 0 |} | _ => {| at_subs := []; at_end := CReturns 0 |} end).
  split; [split; [done|by exists 0]|]. split; [right; split; [done|by exists 0]|]. split; [lia|]. eexists _, _. by split_and!.
Qed.
Print Assumptions C79_sub_tests_refuted.
(** C79: a method of a class that is not a unittest.TestCase is never retried; an AssertionError
    becomes an AttributeError. *)
Theorem C79_plain_class_refuted : forall calls n, fst (plain_wrapper calls n) = 1 /\ (0 < n -> at_end (calls 0) = CAsserts -> snd (plain_wrapper calls n) = CRaises XAttr).
Proof. intros calls n. split; [done|]. intros Hn H. rewrite /plain_wrapper H. destruct n; [lia|done]. Qed.
Print Assumptions C79_plain_class_refuted.

(** ** Concrete cases *)
Definition calls_ex : nat -> attempt := fun k => match k with 0 => {| at_subs := []; at_end := CAsserts |} | 1 => {| at_subs := [true; false]; at_end := CReturns 4 |} | 2 => {| at_subs := []; at_end := CReturns 7 |} | _ => {| at_subs := []; at_end := CRaises XRuntime |} end.
Example C79_ex_third : option_map (fun p => (rt_calls (fst p), rt_sleeps (fst p), rt_end (fst p), tr_success (snd p))) (retry_test true 5 4 true calls_ex tr_empty) = Some (3, 2, CReturns 7, true).
Proof. reflexivity. Qed.
Example C79_ex_limit : option_map (fun p => (rt_calls (fst p), rt_sleeps (fst p), rt_end (fst p), snd p = tr_of [RStarted 5; RGot OFailure 5; RGot OError 5])) (retry_test true 5 2 true calls_ex tr_empty) = Some (2, 1, CReturns 4, tr_of [RStarted 5; RGot OFailure 5; RGot OError 5] = tr_of [RStarted 5; RGot OFailure 5; RGot OError 5]).
Proof. reflexivity. Qed.
Example C79_ex_deciding : deciding 4 calls_ex 2.
Proof.
  split; [lia|]. split.
  - intros [|[|j]] Hj; [by left|right; split; [done|by exists 4]|lia].
  - intros [H|[H _]]; done.
Qed.
Example C79_ex_raise : option_map (fun p => (rt_calls (fst p), rt_end (fst p))) (retry_test false 5 4 true (fun k => calls_ex (k + 3)) tr_empty) = Some (1, CRaises XRuntime).
Proof. reflexivity. Qed.
Example C79_ex_since : option_map (fun p => tr_failures (snd p)) (retry_test false 5 4 true calls_ex tr_empty) = Some [5].
Proof. reflexivity. Qed.

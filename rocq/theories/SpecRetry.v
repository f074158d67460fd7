(** Specifications for the theorems about tests that are retried (C79). *)
From Verif Require Export Retry.

(** A call passes: it returns, and no sub-test failed. *)
Definition passes (a : attempt) : Prop := at_subs a = [] /\ exists v, at_end a = CReturns v.
(** A call fails by assertion: it raises an AssertionError, or returns after a sub-test failed. *)
Definition fails (a : attempt) : Prop := at_end a = CAsserts \/ at_subs a <> [] /\ exists v, at_end a = CReturns v.
Definition breaks (a : attempt) (e : exn) : Prop := at_end a = CRaises e.
(** [deciding times calls k]: the [k]-th call (from 0) is the last: the calls before it fail, and it
    does not or is the last that is allowed. *)
Definition deciding (times : nat) (calls : nat -> attempt) (k : nat) : Prop :=
  k < times /\ (forall j, j < k -> fails (calls j)) /\ (fails (calls k) -> S k = times).
(** What one call reports as a test of its own: its sub-tests and its exception. *)
Definition reports (t : nat) (a : attempt) : list report :=
  map (fun b : bool => RGot (if b then OFailure else OError) t) (at_subs a) ++
  match at_end a with CReturns _ => [] | CAsserts => [RGot OFailure t] | CRaises _ => [RGot OError t] end.

(** Specifications for the theorems about running launch tests (C66, C67). *)
From Verif Require Export TestRun SpecTesting.

(** ** Results *)
(** Outcomes that make a test run fail. *)
Definition bad (o : outcome) : Prop := o = OFailure \/ o = OError \/ o = OUnexpected.
Definition all_good (l : list report) : Prop := forall o t, In (RGot o t) l -> ~ bad o.
Definition starts (l : list report) : list nat := omap (fun e => match e with RStarted t => Some t | _ => None end) l.
Definition with_outcome (o : outcome) (l : list report) : list nat :=
  omap (fun e => match e, o with
                 | RGot OFailure t, OFailure | RGot OError t, OError | RGot OSkip t, OSkip | RGot OExpected t, OExpected | RGot OUnexpected t, OUnexpected => Some t
                 | _, _ => None
                 end) l.
(** ** Order *)
(** [x] was observed before [y]. *)
Definition earlier (x y : TestRun.robs) (log : list TestRun.robs) : Prop := exists l1 l2 l3, log = l1 ++ x :: l2 ++ y :: l3.
(** ** Runs *)
(** A run that is good: skipped, or its tests were run and succeeded. *)
Definition good_run (t : trun) : Prop := t = TSkips \/ exists r, t = TWorks (WResults r) /\ tr_success r = true.
Definition raising (t : trun) : Prop := t = TBroken \/ t = TWorks WRaises.
(** The result of a run that has one. *)
Definition result_of (run : list nat * trun) : option tresult :=
  match run with
  | (cases, TSkips) => Some (skip_result cases)
  | (_, TWorks (WResults r)) => Some r
  | (cases, TWorks WDied) => Some (fail_result cases)
  | _ => None
  end.
(** ** Arguments *)
Definition sep : string := ":=".
(** An argument: a name, a separator, a value; the name is not empty and has no separator. *)
Definition argument (a name value : string) : Prop := a = (name ++ sep ++ value)%string /\ name <> "" /\ value <> "" /\ ~ name_contains sep name.
Fixpoint last_value (k : string) (l : list (string * string)) : option string :=
  match l with [] => None | (k', v) :: l' => match last_value k l' with Some v' => Some v' | None => if String.eqb k' k then Some v else None end end.
(** The elements of one kind under all the cases of a suite. *)
Definition of_kind (k : xkind) (s : xsuite) : list nat :=
  flat_map (fun c => flat_map (fun k' => match k', k with KFailure, KFailure | KError, KError | KSkipped, KSkipped => [xc_case c] | _, _ => [] end) (xc_elements c)) (xs_cases s).
(** The outcome an element stands for. *)
Definition outcome_of (k : xkind) : outcome := match k with KFailure => OFailure | KError => OError | KSkipped => OSkip end.

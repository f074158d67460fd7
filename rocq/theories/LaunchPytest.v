(** Model of launch_pytest: launch_pytest/launch_pytest/plugin.py and fixture.py:30-36.
    pytest itself is modelled by the calls of its hooks: the collected items, in order, and the
    items run, in order. *)
From Verif Require Export Base.

(** A launch fixture: the function, whether its scope is 'function', the option auto_shutdown
    (fixture.py:92-146).  Parametrized fixtures have several instances. *)
Record fixt := { fx_id : nat; fx_fscope : bool; fx_auto : bool }.
Global Instance fixt_eq_dec : EqDecision fixt.
Proof. solve_decision. Defined.
(** plugin.py:172-177: what test functions are. *)
Inductive tkind := TFunc | TCoro | TGen | TAsyncGen.
(** 180-182 [need_shutdown_test_item] *)
Definition needs_shutdown (k : tkind) : bool := match k with TGen | TAsyncGen => true | _ => false end.
(** A test function, with the keyword arguments of its launch mark, if it has one (137-170), and
    the parameters of the items pytest makes of it: of the launch fixture, and the others. *)
Record mark := { mk_fixture : option fixt; mk_shutdown : bool }.
Record tfun := { tf_id : nat; tf_kind : tkind; tf_mark : option mark; tf_params : list (option nat * nat) }.
(** An item: its function, the parameter of the launch fixture, the other parameters,
    [_launch_pytest_is_shutdown], and whether it is the second item of a generator. *)
Record item := { it_fun : tfun; it_param : option nat; it_other : nat; it_shutdown : bool; it_second : bool }.
Definition it_mark (i : item) : option mark := tf_mark (it_fun i).
Definition it_fixture (i : item) : option fixt := match it_mark i with Some m => mk_fixture m | None => None end.

(** ** Collection *)
(** 185-202 [generate_test_items] *)
Definition generate (f : tfun) (is_shutdown second : bool) : list item :=
  map (fun p => {| it_fun := f; it_param := fst p; it_other := snd p; it_shutdown := is_shutdown; it_second := second |}) (tf_params f).
(** 216-251 [pytest_pycollect_makeitem]; [None]: pytest collects the function itself.  An item
    of a mark without a fixture is marked to be skipped. *)
Definition collect (f : tfun) : option (list item) :=
  match tf_mark f with
  | None => None
  | Some m =>
      match mk_fixture m with
      | None => Some [{| it_fun := f; it_param := None; it_other := 0; it_shutdown := false; it_second := false |}]
      | Some fx =>
          let items := generate f (mk_shutdown m) false in
          Some (if needs_shutdown (tf_kind f) && negb (fx_fscope fx) then items ++ generate f true true else items)
      end
  end.
(** 137-140, 254-256 *)
Definition is_launch (i : item) : bool := match it_mark i with Some _ => true | None => false end.
Definition is_shutdown (i : item) : bool := it_shutdown i.
(** 259-275 [is_same_launch_test_fixture]; different fixtures have different numbers. *)
Definition same_fixture (a b : item) : bool :=
  match it_fixture a, it_fixture b with
  | Some f, Some g =>
      bool_decide (f = g) && negb (fx_fscope f) &&
      match it_param a, it_param b with Some p, Some q => Nat.eqb p q | None, None => true | _, _ => false end
  | _, _ => false
  end.
(** 301-307: the last of the items [later], which begin at [pos], that the item has to follow. *)
Fixpoint new_position (x : item) (pos : nat) (later : list item) : option nat :=
  match later with
  | [] => None
  | o :: l =>
      match new_position x (S pos) l with
      | Some p => Some p
      | None => if same_fixture x o && is_shutdown x && negb (is_shutdown o) then Some pos else None
      end
  end.
(** list.pop and list.insert *)
Definition list_pop {A} (i : nat) (l : list A) : list A := take i l ++ drop (S i) l.
Definition list_insert {A} (i : nat) (x : A) (l : list A) : list A := take i l ++ x :: drop i l.
(** 278-309 [pytest_collection_modifyitems]: over a copy of the list from the end. *)
Definition move_item (items : list item) (ix : nat * item) : list item :=
  let '(i, x) := ix in
  if is_launch x
  then match new_position x (i + 1) (drop (i + 1) items) with
       | Some p => match items !! i with Some y => list_insert p y (list_pop i items) | None => items end
       | None => items
       end
  else items.
Definition modify_items (items : list item) : list item :=
  fold_left move_item (rev (combine (seq 0 (length items)) items)) items.

(** ** Running items *)
(** What a part of a test function does: ends (a generator: StopIteration), yields, raises. *)
Inductive part := PEnds | PYields | PRaises.
(** Outcome of an item; [RError]: an AttributeError in the plugin. *)
Inductive outcome := RPass | RFail | RSkip | RError.
(** What is seen: the plugin asks the service to shut down; the run of the service has ended
    with a return code and the plugin goes on; the body of an item, or its part up to the yield,
    or its part after the yield begins. *)
Inductive pact := AShutdown | AEnded (rc : nat) | ABody (i : nat) | AFirst (i : nat) | ASecond (i : nat).
(** What tells the pair of items of a generator: the function and the parameters. *)
Definition gen_key (i : item) : nat * option nat * nat := (tf_id (it_fun i), it_param i, it_other i).
(** The generators whose part up to the yield has passed, the second items whose function has
    been replaced, what was seen, the outcomes, and whether the plugin waits for ever. *)
Record pst := { ps_gens : list (nat * option nat * nat); ps_wrapped : list (nat * option nat * nat); ps_log : list pact;
                ps_res : list (nat * outcome); ps_hung : bool }.
Definition ps_init : pst := {| ps_gens := []; ps_wrapped := []; ps_log := []; ps_res := []; ps_hung := false |}.
Section run.
(** The items use one instance of the launch fixture [fx].  The i-th item's body or part up to
    the yield does [first i], the part after the yield [second i].  [rc]: the return code of the
    launch service when it has ended, [None] if it does not end. *)
Context (fx : fixt) (first second : nat -> part) (rc : option nat).
Definition ps_see (a : pact) (st : pst) : pst :=
  {| ps_gens := ps_gens st; ps_wrapped := ps_wrapped st; ps_log := ps_log st ++ [a]; ps_res := ps_res st; ps_hung := ps_hung st |}.
Definition ps_report (i : nat) (r : outcome) (st : pst) : pst :=
  {| ps_gens := ps_gens st; ps_wrapped := ps_wrapped st; ps_log := ps_log st; ps_res := ps_res st ++ [(i, r)]; ps_hung := ps_hung st |}.
Definition ps_hang (st : pst) : pst :=
  {| ps_gens := ps_gens st; ps_wrapped := ps_wrapped st; ps_log := ps_log st; ps_res := ps_res st; ps_hung := true |}.
(** fixture.py:30-36 [finalize_launch_service], then [go]; otherwise the assertion fails.
    (The loop is there and open, as the fixture has been set up.) *)
Definition finalize (i : nat) (go : pst -> pst) (st : pst) : pst :=
  let st := if fx_auto fx then ps_see AShutdown st else st in
  match rc with
  | None => ps_hang st
  | Some r => let st := ps_see (AEnded r) st in if Nat.eqb r 0 then go st else ps_report i RFail st
  end.
(** plugin.py:376-397 [wrap_coroutine], [wrap_func], after [before_test] *)
Definition run_body (i : nat) (st : pst) : pst :=
  ps_report i (match first i with PRaises => RFail | _ => RPass end) (ps_see (ABody i) st).
(** 408-417, 439-448, 459-471, 493-507: after the shutdown. *)
Definition run_second (i : nat) (st : pst) : pst :=
  ps_report i (match second i with PEnds => RPass | _ => RFail end) (ps_see (ASecond i) st).
Definition key_eqb (a b : nat * option nat * nat) : bool := bool_decide (a = b).
(** 312-363 [pytest_pyfunc_call] and the wrapped function.  A generator that ends without a
    yield counts as failed (for a plain generator python before 3.12 does not get the
    StopIteration through the future, and the plugin waits for ever). *)
Definition run_item (i : nat) (x : item) (st : pst) : pst :=
  let wrapped := existsb (key_eqb (gen_key x)) (ps_wrapped st) in
  let has_shutdown_kwarg := match it_mark x with Some m => mk_shutdown m | None => false end in
  if ps_hung st then st
  else if it_second x && wrapped
  then (* 404-417, 455-471 [shutdown] *)
    if existsb (key_eqb (gen_key x)) (ps_gens st) then finalize i (run_second i) st else ps_report i RSkip st
  else if has_shutdown_kwarg && needs_shutdown (tf_kind (it_fun x)) then ps_report i RFail st
  else if needs_shutdown (tf_kind (it_fun x))
  then if fx_fscope fx
    then (* 431-448, 485-507 *)
      let st := ps_see (AFirst i) st in
      match first i with PYields => finalize i (run_second i) st | _ => ps_report i RFail st end
    else if it_second x then ps_report i RError st
    else (* 337-361, 420-428, 473-482 *)
      let st := {| ps_gens := ps_gens st; ps_wrapped := gen_key x :: ps_wrapped st; ps_log := ps_log st; ps_res := ps_res st; ps_hung := ps_hung st |} in
      let st := ps_see (AFirst i) st in
      match first i with
      | PYields => ps_report i RPass {| ps_gens := gen_key x :: ps_gens st; ps_wrapped := ps_wrapped st; ps_log := ps_log st; ps_res := ps_res st; ps_hung := ps_hung st |}
      | _ => ps_report i RFail st
      end
  else if is_shutdown x then finalize i (run_body i) st
  else run_body i st.
Definition run_items (items : list item) : pst := fold_left (fun st ix => run_item (fst ix) (snd ix) st) (combine (seq 0 (length items)) items) ps_init.
End run.

(** ** The ReadyToTest action *)
(** Entities by number, whether they are ReadyToTest actions, and their sub-entities: described,
    and described with a condition. *)
Inductive tent := TEnt (id : nat) (ready : bool) (subs : list tent) (cond : list (list tent)).
(** plugin.py:64-75 [iterate_ready_to_test_actions] *)
Fixpoint ready_actions (e : tent) : list nat :=
  let '(TEnt id ready subs cond) := e in
  (if ready then [id] else []) ++ concat (map ready_actions subs) ++ concat (map (fun l => concat (map ready_actions l)) cond).
(** 78-94 [get_ready_to_test_action]: the action and the entities of the description after it;
    [fresh] is the new action. *)
Definition get_ready (fresh : nat) (entities : list tent) : res (nat * list tent) :=
  match concat (map ready_actions entities) with
  | [] => Ok (fresh, entities ++ [TEnt fresh true [] []])
  | [a] => Ok (a, entities)
  | _ => Exn XRuntime
  end.

(** Specifications for the theorems about launch_pytest (C69, C70). *)
From Verif Require Export LaunchPytest.

(** ** Order *)
(** A test that needs the launch: it does not run after the shutdown. *)
Definition normal (x : item) : Prop := it_shutdown x = false.
(** Both use the same instance of a launch fixture whose scope is not a single test. *)
Definition shares (x y : item) : Prop :=
  exists f, it_fixture x = Some f /\ it_fixture y = Some f /\ fx_fscope f = false /\ it_param x = it_param y.
(** The test that the p-th one has to wait for: the last normal one with the same instance, if
    it is later. *)
Definition waits_for (items : list item) (p z : nat) : Prop :=
  exists x y, items !! p = Some x /\ items !! z = Some y /\ it_shutdown x = true /\ normal y /\ shares x y /\ p < z /\
  forall z' y', z < z' -> items !! z' = Some y' -> shares x y' -> ~ normal y'.
(** [comes items p q]: the p-th test comes before the q-th in the end.  A test that waits for
    another stands directly behind it; tests waiting for the same stay in order. *)
Definition stands_at (items : list item) (p k : nat) (moved : bool) : Prop :=
  if moved then waits_for items p k else k = p /\ forall z, ~ waits_for items p z.
Definition comes (items : list item) (p q : nat) : Prop :=
  exists k m k' m', stands_at items p k m /\ stands_at items q k' m' /\
    (k < k' \/ k = k' /\ (m = false /\ m' = true \/ m = m' /\ p < q)).

(** ** Runs *)
(** The function has parts before and after a yield. *)
Definition is_generator (k : tkind) : bool := match k with TFunc => false | TCoro => false | TGen => true | TAsyncGen => true end.
(** What the items of a function are: parameters, after the shutdown or not, second part or not. *)
Definition item_facts (x : item) : option nat * nat * bool * bool := (it_param x, it_other x, it_shutdown x, it_second x).
(** The plugin has asked the service to shut down, or has seen its end. *)
Definition is_end (a : pact) : Prop := match a with AShutdown | AEnded _ => True | _ => False end.
(** A test, or a part of it, begins. *)
Definition begins (a : pact) : option nat := match a with ABody i | AFirst i | ASecond i => Some i | _ => None end.
(** The items of one instance: all with the fixture, one item if its scope is a single test;
    normal tests first; the two items of a generator in order, and told apart from others. *)
Definition one_instance (fx : fixt) (items : list item) : Prop :=
  (forall x, In x items -> it_fixture x = Some fx) /\ (fx_fscope fx = true -> length items <= 1).
Definition in_order (items : list item) : Prop := forall i j x y, i < j -> items !! i = Some x -> items !! j = Some y -> it_shutdown x = true -> it_shutdown y = true.
(** The items are as collected: a second item is there only for a generator and a fixture whose
    scope is not a single test; it is a shutdown test; other items are if their mark says so. *)
Definition collected (items : list item) : Prop :=
  forall x, In x items -> if it_second x then it_shutdown x = true /\ is_generator (tf_kind (it_fun x)) = true /\ (exists f, it_fixture x = Some f /\ fx_fscope f = false)
    else exists m, it_mark x = Some m /\ it_shutdown x = mk_shutdown m.
(** Functions are told apart by their numbers. *)
Definition functions_apart (items : list item) : Prop :=
  forall x y, In x items -> In y items -> tf_id (it_fun x) = tf_id (it_fun y) -> it_fun x = it_fun y.
(** The outcome of an item, given what its parts and those of its partner do. *)
Definition kw_shutdown (x : item) : bool := match it_mark x with Some m => mk_shutdown m | None => false end.
Definition expected (fx : fixt) (first second : nat -> part) (rc : nat) (items : list item) (i : nat) (x : item) (r : outcome) : Prop :=
  if is_generator (tf_kind (it_fun x)) then
    if kw_shutdown x then r = RFail
    else if fx_fscope fx then r = (match first i, rc, second i with PYields, 0, PEnds => RPass | _, _, _ => RFail end)
    else if it_second x then
      (* the partner: the earlier item of the same generator *)
      match r with
      | RPass => exists j y, j < i /\ items !! j = Some y /\ gen_key y = gen_key x /\ it_second y = false /\ first j = PYields /\ rc = 0 /\ second i = PEnds
      | RFail => exists j y, j < i /\ items !! j = Some y /\ gen_key y = gen_key x /\ it_second y = false /\ first j = PYields /\ (rc <> 0 \/ second i <> PEnds)
      | RSkip => exists j y, j < i /\ items !! j = Some y /\ gen_key y = gen_key x /\ it_second y = false /\ first j <> PYields
      | RError => forall j y, j < i -> items !! j = Some y -> gen_key y = gen_key x -> it_second y = true
      end
    else r = (match first i with PYields => RPass | _ => RFail end)
  else r = (if it_shutdown x && negb (Nat.eqb rc 0) then RFail else match first i with PRaises => RFail | _ => RPass end).
(** All items pytest collects from functions, and those that use the same instance of the
    launch fixture as [g]. *)
Definition all_items (fs : list tfun) : list item :=
  concat (map (fun f => match collect f with Some l => l | None => generate f false false end) fs).
Definition instance_of (g : item) (items : list item) : list item := List.filter (same_fixture g) items.

(** ** ReadyToTest *)
(** [inside e d]: [d] is [e], or below it. *)
Inductive inside : tent -> tent -> Prop :=
| in_self e : inside e e
| in_sub id r subs cond e d : In e subs -> inside e d -> inside (TEnt id r subs cond) d
| in_cond id r subs cond l e d : In l cond -> In e l -> inside e d -> inside (TEnt id r subs cond) d.
Definition has_ready (entities : list tent) (a : nat) : Prop := exists e subs cond, In e entities /\ inside e (TEnt a true subs cond).

(** C69, C70: tests of launch_pytest. *)
From Coq Require Import Sorting.Sorted Permutation.
From Verif Require Import SpecLaunchPytest LaunchPytestFacts.

(** ** C69 *)
(** Reordering keeps every test, once. *)
Theorem C69_permutation items : Permutation (modify_items items) items.
Proof. exact (modify_perm items). Qed.
Print Assumptions C69_permutation.
(** No test that needs the launch comes after a shutdown test with the same instance. *)
Theorem C69_shutdown_last items l1 x l2 y :
  modify_items items = l1 ++ x :: l2 -> In y l2 -> it_shutdown x = true -> shares x y -> it_shutdown y = true.
Proof. exact (modify_good items l1 x l2 y). Qed.
Print Assumptions C69_shutdown_last.
(** Normal tests keep their order, and so do the shutdown tests of an instance. *)
Theorem C69_normal items : List.filter (fun x => negb (it_shutdown x)) (modify_items items) = List.filter (fun x => negb (it_shutdown x)) items.
Proof. exact (modify_normal items). Qed.
Print Assumptions C69_normal.
Theorem C69_group items g : let sel := fun x => it_shutdown x && same_fixture g x in List.filter sel (modify_items items) = List.filter sel items.
Proof. exact (modify_group items g). Qed.
Print Assumptions C69_group.
(** The exact order. *)
Theorem C69_order items : exists order, Permutation order (seq 0 (length items)) /\ map Some (modify_items items) = map (fun p => items !! p) order /\ StronglySorted (comes items) order.
Proof. exact (order_law items). Qed.
Print Assumptions C69_order.
(** There is no other order like this. *)
Theorem C69_order_unique items o1 o2 : Permutation o1 o2 -> StronglySorted (comes items) o1 -> StronglySorted (comes items) o2 -> o1 = o2.
Proof. exact (order_unique items o1 o2). Qed.
Print Assumptions C69_order_unique.

Definition ex_fx : fixt := {| fx_id := 1; fx_fscope := false; fx_auto := true |}.
Definition ex_fun (i : nat) (k : tkind) (sd : bool) : tfun := {| tf_id := i; tf_kind := k; tf_mark := Some {| mk_fixture := Some ex_fx; mk_shutdown := sd |}; tf_params := [(None, 0)] |}.
Definition ex_fs : list tfun := [ex_fun 1 TGen false; ex_fun 2 TFunc true; ex_fun 3 TFunc false; ex_fun 4 TAsyncGen false].
Example C69_order_ex : map (fun x => (tf_id (it_fun x), it_shutdown x)) (modify_items (all_items ex_fs)) = [(1, false); (3, false); (4, false); (1, true); (2, true); (4, true)].
Proof. reflexivity. Qed.
Example C69_shares_ex : exists x y, In x (all_items ex_fs) /\ In y (all_items ex_fs) /\ it_shutdown x = true /\ normal y /\ shares x y.
Proof.
  exists {| it_fun := ex_fun 2 TFunc true; it_param := None; it_other := 0; it_shutdown := true; it_second := false |},
    {| it_fun := ex_fun 3 TFunc false; it_param := None; it_other := 0; it_shutdown := false; it_second := false |}.
  split; [cbn; tauto|]. split; [cbn; tauto|]. split; [reflexivity|]. split; [reflexivity|]. exists ex_fx. repeat split.
Qed.

(** ** C70 *)
Section runs.
Context (fx : fixt) (first second : nat -> part) (rc : option nat) (items : list item).
Local Notation log := (ps_log (run_items fx first second rc items)).
(** A shutdown test, and the part of a generator after its yield, begin after the service has
    ended with return code 0. *)
Theorem C70_after_end : forall l1 i l2, log = l1 ++ ABody i :: l2 -> forall x, items !! i = Some x -> it_shutdown x = true -> In (AEnded 0) l1.
Proof.
  intros l1 i l2 E x Hx Hs. destruct (seen_inv fx first second rc items) as [H _]. destruct (H _ _ _ E) as (y & Hy & _ & Hb). rewrite Hx in Hy. injection Hy as <-. exact (Hb Hs).
Qed.
Theorem C70_second_part : forall l1 i l2, log = l1 ++ ASecond i :: l2 ->
  In (AEnded 0) l1 /\ exists x j y, items !! i = Some x /\ items !! j = Some y /\ gen_key y = gen_key x /\ In (AFirst j) l1 /\ first j = PYields /\
    (if fx_fscope fx then j = i else it_second x = true /\ it_second y = false).
Proof. intros l1 i l2 E. destruct (seen_inv fx first second rc items) as [H _]. exact (H _ _ _ E). Qed.
(** The plugin shuts the service down only if the fixture says so; the end it sees is that of
    the service, after that. *)
Theorem C70_shutdown : forall l1 a l2, log = l1 ++ a :: l2 -> match a with AShutdown => fx_auto fx = true | AEnded r => rc = Some r /\ (fx_auto fx = true -> In AShutdown l1) | _ => True end.
Proof. intros l1 a l2 E. destruct (seen_inv fx first second rc items) as [H _]. specialize (H _ _ _ E). destruct a; try exact I; exact H. Qed.
(** A normal test, and the part of a normal generator up to its yield, begin before the plugin
    has shut the service down or seen its end. *)
Theorem C70_alive : one_instance fx items -> collected items -> in_order items ->
  forall l1 a i l2 x, log = l1 ++ a :: l2 -> a = ABody i \/ a = AFirst i -> items !! i = Some x -> normal x -> forall e, In e l1 -> ~ is_end e.
Proof.
  intros H1 H2 H3 l1 a i l2 x E Ha Hx Hn. destruct (live_inv fx first second rc items H1 H2 H3) as [H _]. specialize (H _ _ _ E). destruct Ha as [-> | ->]; exact (H x Hx Hn).
Qed.
(** Every part begins at most once. *)
Theorem C70_once : forall l1 a l2, log = l1 ++ a :: l2 -> begins a <> None -> ~ In a l1.
Proof. exact (once_inv fx first second rc items). Qed.
(** Tests are done in order, up to the first that has to wait for a service that does not end. *)
Theorem C70_waits : let st := run_items fx first second rc items in
  exists k, k <= length items /\ map fst (ps_res st) = seq 0 k /\ (ps_hung st = true <-> k < length items) /\ (ps_hung st = true -> rc = None).
Proof. exact (hang_inv fx first second rc items). Qed.
(** If the service ends, every item gets exactly one outcome, the one expected. *)
Theorem C70_outcomes : forall r, rc = Some r -> functions_apart items -> let st := run_items fx first second rc items in
  map fst (ps_res st) = seq 0 (length items) /\ forall i o, In (i, o) (ps_res st) -> exists x, items !! i = Some x /\ expected fx first second r items i x o.
Proof.
  intros r Er HA st. destruct (res_inv fx first second rc items r Er HA) as (_ & H1 & H2 & _). split; [exact H1|]. intros i o Hin. rewrite List.Forall_forall in H2. exact (H2 _ Hin).
Qed.
End runs.
Print Assumptions C70_after_end.
Print Assumptions C70_second_part.
Print Assumptions C70_shutdown.
Print Assumptions C70_alive.
Print Assumptions C70_once.
Print Assumptions C70_waits.
Print Assumptions C70_outcomes.
(** Items as collected and reordered meet what the theorems above assume, and the two items of a
    generator come in order. *)
Theorem C70_collected fs g fx : it_fixture g = Some fx -> fx_fscope fx = false -> let inst := instance_of g (modify_items (all_items fs)) in
  one_instance fx inst /\ collected inst /\ in_order inst /\
  (forall i x, inst !! i = Some x -> it_second x = true -> kw_shutdown x = false -> exists j y, j < i /\ inst !! j = Some y /\ gen_key y = gen_key x /\ it_second y = false).
Proof. exact (instance_law fs g fx). Qed.
Print Assumptions C70_collected.
(** The items of a function with a launch mark: one for each set of parameters, and if it is a
    generator, sync or async, and the scope is not a single test, another for each after the
    shutdown. *)
Theorem C70_items f m fx l : tf_mark f = Some m -> mk_fixture m = Some fx -> collect f = Some l ->
  map item_facts l = map (fun p => (fst p, snd p, mk_shutdown m, false)) (tf_params f) ++
    (if is_generator (tf_kind f) && negb (fx_fscope fx) then map (fun p => (fst p, snd p, true, true)) (tf_params f) else []) /\
  forall x, In x l -> it_fun x = f.
Proof. exact (items_law f m fx l). Qed.
Print Assumptions C70_items.
(** Not so if the first item of a generator is deselected: the plugin fails with an
    AttributeError. *)
Theorem C70_deselected_refuted : ~ (forall fx first second items, (forall x, In x items -> it_fixture x = Some fx) -> functions_apart items -> collected items -> in_order items ->
  forall i, ~ In (i, RError) (ps_res (run_items fx first second (Some 0) items))).
Proof.
  intros H. pose (x := {| it_fun := ex_fun 1 TGen false; it_param := None; it_other := 0; it_shutdown := true; it_second := true |}). apply (H ex_fx (fun _ => PYields) (fun _ => PEnds) [x] ltac:(intros y [<-|[]]; reflexivity)) with 0.
  - intros a b [<-|[]] [<-|[]] _. reflexivity.
  - intros y [<-|[]]. cbn. split; [reflexivity|]. split; [reflexivity|]. exists ex_fx. split; reflexivity.
  - intros [|i] [|j] a b Hij Ha Hb; cbn in *; try discriminate; try (inversion Hij; fail).
  - left. reflexivity.
Qed.
Print Assumptions C70_deselected_refuted.
(** The ReadyToTest action of a description: the only one in it, or a new one at its end. *)
Theorem C70_ready fresh es a es' : get_ready fresh es = Ok (a, es') ->
  has_ready es' a /\ (forall b, has_ready es' b -> b = a) /\ (es' = es \/ es' = es ++ [TEnt fresh true [] []] /\ a = fresh /\ forall b, ~ has_ready es b).
Proof. exact (ready_ok fresh es a es'). Qed.
Print Assumptions C70_ready.
Theorem C70_ready_new fresh es : (forall b, ~ has_ready es b) -> get_ready fresh es = Ok (fresh, es ++ [TEnt fresh true [] []]).
Proof. exact (ready_total fresh es). Qed.
Print Assumptions C70_ready_new.
Theorem C70_ready_several fresh es a b : has_ready es a -> has_ready es b -> a <> b -> get_ready fresh es = Exn XRuntime.
Proof. exact (ready_exn fresh es a b). Qed.
Print Assumptions C70_ready_several.

Definition ex_items : list item := modify_items (all_items ex_fs).
Definition ex_g : item := {| it_fun := ex_fun 3 TFunc false; it_param := None; it_other := 0; it_shutdown := false; it_second := false |}.
Example C70_instance_ex : instance_of ex_g ex_items = ex_items /\ it_fixture ex_g = Some ex_fx.
Proof. split; reflexivity. Qed.
Example C70_run_ex : let st := run_items ex_fx (fun i => if Nat.eqb i 0 then PYields else PEnds) (fun _ => PEnds) (Some 0) ex_items in
  ps_log st = [AFirst 0; ABody 1; AFirst 2; AShutdown; AEnded 0; ASecond 3; AShutdown; AEnded 0; ABody 4] /\
  ps_res st = [(0, RPass); (1, RPass); (2, RFail); (3, RPass); (4, RPass); (5, RSkip)].
Proof. split; reflexivity. Qed.
Example C70_apart_ex : functions_apart ex_items.
Proof.
  assert (forall x, In x ex_items -> In (it_fun x) ex_fs) as H.
  { intros x Hx. apply (in_map it_fun) in Hx. assert (map it_fun ex_items = map (fun i => nth i ex_fs (ex_fun 0 TFunc false)) [0; 2; 3; 0; 1; 3]) as E by (vm_compute; reflexivity). rewrite E in Hx. cbn in Hx |- *. tauto. }
  intros x y Hx Hy E. apply H in Hx, Hy. cbn in Hx, Hy. destruct Hx as [Hx|[Hx|[Hx|[Hx|[]]]]], Hy as [Hy|[Hy|[Hy|[Hy|[]]]]]; rewrite <- Hx, <- Hy in E |- *; first [reflexivity|discriminate].
Qed.
Example C70_hang_ex : let st := run_items ex_fx (fun i => if Nat.eqb i 0 then PYields else PEnds) (fun _ => PEnds) None ex_items in
  ps_hung st = true /\ map fst (ps_res st) = [0; 1; 2].
Proof. split; reflexivity. Qed.
Example C70_ready_ex : get_ready 9 [TEnt 1 false [TEnt 2 true [] []] []] = Ok (2, [TEnt 1 false [TEnt 2 true [] []] []]) /\ get_ready 9 [TEnt 1 false [] [[TEnt 2 true [] []]; [TEnt 3 true [] []]]] = Exn XRuntime.
Proof. split; reflexivity. Qed.

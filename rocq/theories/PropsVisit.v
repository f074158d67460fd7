(** Properties of visiting entities: C01, C02, C07, C08, C09. *)
From Verif Require Import ExWorld SpecVisit VisitFacts.

(** C01: a scoped group restores launch configurations and environment, whatever was
    visited inside, as long as no Push or Pop action was used directly; [t] is the tree
    of what was visited.  (Evaluating the group's own condition happens outside the
    scope and can only add an AnonName.) *)
Theorem C01_group_restores : forall (w : world) a c fw cfgs body (s : st) t fs (s' : st),
  numbered s ->
  visit_run w (EAct a c (AGroup true fw cfgs body)) s t fs s' -> no_raw t ->
  lc (cx s') = lc (after_cond w c (cx s)) /\ env (cx s') = env (after_cond w c (cx s)) /\
  lc_stack (cx s') = lc_stack (cx s) /\ env_stack (cx s') = env_stack (cx s).
Proof. exact group_restores. Qed.
Print Assumptions C01_group_restores.

(** C01: in particular every group whose body is built from the other actions. *)
Theorem C01_group_restores_static :
  forall (w : world) a c fw cfgs body (fuel : nat) (s : st) fs (s' : st),
  numbered s -> clean_world w -> clean_sources s -> Forall clean body ->
  visit_all w fuel (EAct a c (AGroup true fw cfgs body)) s = (s', Ok fs) ->
  lc (cx s') = lc (after_cond w c (cx s)) /\ env (cx s') = env (after_cond w c (cx s)).
Proof. exact C01_static. Qed.
Print Assumptions C01_group_restores_static.

Definition ex_body : list entity :=
  [EAct (User 1) None (ASetLC [SText "a"] [SText "inner"]);
   EAct (User 2) None (AUnsetEnv [SText "HOME"]);
   EAct (User 3) None (AGroup true false [([SText "b"], [SLaunchConfig [SText "a"] None])]
     [EAct (User 4) None (ALog [SLaunchConfig [SText "b"] None]);
      EAct (User 5) None (AResetLC None)]);
   EAct (User 6) (Some (CIf [SText "false"])) (ASetLC [SText "c"] [SText "never"]);
   EAct (User 7) None (ALog [SLaunchConfig [SText "a"] None])].
Definition ex_group : entity := EAct (User 0) None (AGroup true true [([SText "k"], [SText "v"])] ex_body).
Example C01_example : Forall clean ex_body /\ clean_world w0 /\ clean_sources s0 /\ numbered s0 /\
  let '(s', r) := visit_all w0 10 ex_group s0 in
  r = Ok [] /\ env (cx s') !! "HOME" = Some "/root" /\ lc (cx s') !! "a" = None /\
  omap (fun o => match o with OLog x => Some x | _ => None end) (hist s') = ["inner"; "inner"].
Proof.
  split; [repeat constructor|]. split; [split; intros; simplify_eq/=; constructor|].
  split; [by intros src loc ld|]. split; [by intros f _|]. vm_compute. by repeat split.
Qed.

(** C02: scoped and forwarding: the body starts from the outer launch configurations
    updated in order with the group's own, in the outer environment. *)
Theorem C02_forwarding : forall (w : world) a c cfgs body (s : st) t fs (s' : st),
  visit_run w (EAct a c (AGroup true true cfgs body)) s t fs s' ->
  cond_holds w c (cx s) ->
  exists c0 s1 kids gs s2,
    lc c0 = lc (after_cond w c (cx s)) /\ env c0 = env (after_cond w c (cx s)) /\
    sets_in_order w cfgs c0 (cx s1) /\ env (cx s1) = env (after_cond w c (cx s)) /\
    visit_runs w body s1 kids gs s2.
Proof. exact group_forwarding. Qed.
Print Assumptions C02_forwarding.

(** C02: scoped and not forwarding: the body starts with exactly the group's own launch
    configurations, evaluated against the outer ones, and with the environment the
    context was created with.  (That environment is already in force when the
    configurations are evaluated.) *)
Theorem C02_not_forwarding : forall (w : world) a c cfgs body (s : st) t fs (s' : st),
  visit_run w (EAct a c (AGroup true false cfgs body)) s t fs s' ->
  cond_holds w c (cx s) ->
  exists c0 kvs c1 s1 kids gs s2,
    lc c0 = lc (after_cond w c (cx s)) /\ env c0 = env_reset (after_cond w c (cx s)) /\
    evaluates_all w cfgs c0 kvs c1 /\
    lc (cx s1) = dict_of kvs /\ env (cx s1) = env_reset (after_cond w c (cx s)) /\
    visit_runs w body s1 kids gs s2.
Proof. exact group_isolated. Qed.
Print Assumptions C02_not_forwarding.

(** C02: an unscoped group visits its settings and its body in the state in which it was
    visited itself, and nothing afterwards: exactly as if they were spliced in. *)
Theorem C02_unscoped : forall (w : world) a c fw cfgs body (s : st) t fs (s' : st),
  visit_run w (EAct a c (AGroup false fw cfgs body)) s t fs s' ->
  cond_holds w c (cx s) ->
  exists s1 kids, same_but_ctx s s1 /\ same_but_queue (after_cond w c (cx s)) (cx s1) /\
    t = VNode (EAct a c (AGroup false fw cfgs body)) kids /\
    visit_runs w (map (fun kv => EAct (Gen 0) None (ASetLC kv.1 kv.2)) cfgs ++ body) s1 kids fs s'.
Proof. exact group_unscoped. Qed.
Print Assumptions C02_unscoped.

Example C02_example :
  let body := [EAct (User 4) None (ALog [SLaunchConfig [SText "b"] None]);
               EAct (User 5) None (ALog [SLaunchConfig [SText "a"] (Some [SText "unset"])]);
               EAct (User 6) None (ALog [SEnvVar [SText "X"] (Some [SText "unset"])])] in
  let logs e := let '(s', r) := visit_all w0 10 (ELaunch
      [EAct (User 1) None (ASetLC [SText "a"] [SText "outer"]);
       EAct (User 2) None (ASetEnv [SText "X"] [SText "set"]); e]) s0 in
      (r, omap (fun o => match o with OLog x => Some x | _ => None end) (hist s')) in
  let cfgs := [([SText "b"], [SLaunchConfig [SText "a"] None])] in
  logs (EAct (User 3) None (AGroup true true cfgs body)) = (Ok [], ["outer"; "outer"; "set"]) /\
  logs (EAct (User 3) None (AGroup true false cfgs body)) = (Ok [], ["outer"; "unset"; "unset"]) /\
  logs (EAct (User 3) None (AGroup false true cfgs body)) = (Ok [], ["outer"; "outer"; "set"]).
Proof. vm_compute. by repeat split. Qed.

(** C07: a visit that ends without exception has visited exactly the tree spanned by
    what every visit returned, an entity before what it returned and that completely
    before any later sibling; the futures are collected in the order in which the
    entities were finished. *)
Theorem C07_depth_first : forall (w : world) (fuel : nat) (e : entity) (s : st) fs (s' : st),
  numbered s -> visit_all w fuel e s = (s', Ok fs) ->
  exists t l, root t = e /\ visit_run w e s t fs s' /\
    hist s' = hist s ++ l /\ visited l = preorder t.
Proof. exact C07_ok. Qed.
Print Assumptions C07_depth_first.

(** C07: when a visit raises, what precedes it in that order has been visited and
    nothing after it is. *)
Theorem C07_exception_stops : forall (w : world) (fuel : nat) (e : entity) (s : st) x (s' : st),
  numbered s -> visit_all w fuel e s = (s', Exn x) ->
  exists vs l, visit_fails w e s vs x s' /\ hist s' = hist s ++ l /\ visited l = vs.
Proof. exact C07_exn. Qed.
Print Assumptions C07_exception_stops.

Example C07_example :
  let log i := EAct (User i) None (ALog [SText "m"]) in
  let bad := EAct (User 9) None (ALog [SLaunchConfig [SText "missing"] None]) in
  let ids s := omap (fun e => match e with EAct (User i) _ _ => Some i | _ => None end) (visited (hist s)) in
  let '(s1, r1) := visit_all w0 9 (ELaunch [log 1; ELaunch [log 2; ELaunch []; log 3]; log 4]) s0 in
  let '(s2, r2) := visit_all w0 9 (ELaunch [log 1; ELaunch [log 2; bad; log 3]; log 4]) s0 in
  r1 = Ok [] /\ ids s1 = [1; 2; 3; 4]%nat /\ r2 = Exn XSubst /\ ids s2 = [1; 2; 9]%nat.
Proof. vm_compute. by repeat split. Qed.

(** C08: when the condition evaluates to False nothing happens but that evaluation and
    the visit itself. *)
Theorem C08_false_suppresses : forall (w : world) (fuel : nat) a c k (s : st) c1 (s' : st) r,
  evaluate w c (cx s) = (c1, Ok false) ->
  visit_all w (S fuel) (EAct a (Some c) k) s = (s', r) ->
  s' = obs1 (OVisit (EAct a (Some c) k)) (s <| cx := c1 |>) /\ r = Ok (future_of (EAct a (Some c) k) s).
Proof. exact visit_all_false. Qed.
Print Assumptions C08_false_suppresses.

(** C08: nor when evaluating it raises. *)
Theorem C08_raise_suppresses : forall (w : world) (fuel : nat) a c k (s : st) c1 x (s' : st) r,
  evaluate w c (cx s) = (c1, Exn x) ->
  visit_all w (S fuel) (EAct a (Some c) k) s = (s', r) ->
  s' = obs1 (OVisit (EAct a (Some c) k)) (s <| cx := c1 |>) /\ r = Exn x.
Proof. exact visit_all_cond_raises. Qed.
Print Assumptions C08_raise_suppresses.

(** C08: with a true condition or none, one visit executes the action exactly once (and
    no other action). *)
Theorem C08_true_executes_once : forall (w : world) (fuel : nat) a c k (s : st) (s' : st) r,
  numbered s -> visit_one w fuel (EAct a c k) s = (s', r) -> cond_holds w c (cx s) ->
  exists l, hist s' = hist s ++ l /\ executed l = [a].
Proof. exact C08_once. Qed.
Print Assumptions C08_true_executes_once.

Example C08_example :
  let act v := EAct (User 1) (Some (CIf [SText v])) (AEmit (EvUser 1)) in
  (evaluate w0 (CIf [SText "0"]) (cx s0)).2 = Ok false /\
  queue (cx (visit_all w0 3 (act "0") s0).1) = [] /\
  (visit_all w0 3 (act "maybe") s0).2 = Exn XCond /\
  queue (cx (visit_all w0 3 (act "1") s0).1) = [EvUser 1].
Proof. vm_compute. by repeat split. Qed.

(** C09: when the execution of an action has ended (returned or raised, in state [s2]),
    its ExecutionComplete event is emitted at once if some handler listens and the action
    has no future, left to the future if it has one, and not at all if nobody listens.
    See C09_callbacks for what happens when the future is done. *)
Theorem C09_completion : forall (w : world) (fuel : nat) a c k (s s' : st) r,
  visit_one w fuel (EAct a c k) s = (s', r) -> cond_holds w c (cx s) ->
  exists s2, (exists l, hist s2 = l ++ [OExecDone a]) /\
    (listened w a (cx s2) -> get_future (EAct a c k) s2 = None -> s' = emit (EvComplete a) s2) /\
    (forall f, listened w a (cx s2) -> get_future (EAct a c k) s2 = Some f ->
       s' = s2 <| cbs ::= fun l => l ++ [(f, EvComplete a)] |>) /\
    (~ listened w a (cx s2) -> s' = s2).
Proof. exact visit_completion. Qed.
Print Assumptions C09_completion.

Example C09_example :
  let s1 := s0 <| cx ::= register_event_handler (MkH (User 7) (MAct CComplete (TgtAct (User 1))) false (HFun 0)) false |> in
  let bad i := EAct (User i) None (ALog [SLaunchConfig [SText "missing"] None]) in
  let co i := EAct (User i) None (ACoro 0) in
  let s2 := s1 <| cx ::= (fun c => c <| loop_set := true |>) |> in
  queue (cx (visit_one w0 3 (bad 1) s1).1) = [EvComplete (User 1)] /\
  queue (cx (visit_one w0 3 (bad 2) s1).1) = [] /\
  queue (cx (visit_one w0 3 (co 1) s2).1) = [] /\
  cbs (visit_one w0 3 (co 1) s2).1 = [(3%nat, EvComplete (User 1))] /\
  cbs (visit_one w0 3 (co 2) s2).1 = [].
Proof. vm_compute. by repeat split. Qed.

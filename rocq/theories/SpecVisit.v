(** Specifications used by the theorems about visiting entities. *)
From Verif Require Export SpecSubst SpecExec.

(** ** Depth-first traversal.
    A tree records which entities were visited: a node is an entity, its children are
    the entities its visit() returned. *)
Inductive vtree := VNode (e : entity) (kids : list vtree).
Definition root (t : vtree) : entity := match t with VNode e _ => e end.
(** An entity before the entities it returned, those in order. *)
Fixpoint preorder (t : vtree) : list entity :=
  match t with VNode e kids => e :: flat_map preorder kids end.

(** The future of an entity, if it has one (get_asyncio_future). *)
Definition future_of (e : entity) (s : st) : list nat :=
  match get_future e s with Some f => [f] | None => [] end.

(** [visit_run w e s t fs s']: visiting [e] and all it returns, one after the other and
    each completely before the next, goes from [s] to [s'] through the tree [t]; the
    futures are [fs], that of an entity after those of all its descendants. *)
Inductive visit_run (w : world) : entity -> st -> vtree -> list nat -> st -> Prop :=
| vr_node fuel e s subs s1 kids fs s2 :
    visit_one w fuel e s = (s1, Ok subs) -> visit_runs w subs s1 kids fs s2 ->
    visit_run w e s (VNode e kids) (fs ++ future_of e s2) s2
with visit_runs (w : world) : list entity -> st -> list vtree -> list nat -> st -> Prop :=
| vr_nil s : visit_runs w [] s [] [] s
| vr_cons e l s t fs s1 ts gs s2 :
    visit_run w e s t fs s1 -> visit_runs w l s1 ts gs s2 ->
    visit_runs w (e :: l) s (t :: ts) (fs ++ gs) s2.

(** [visit_fails w e s l x s']: one visit raised [x]; [l] was visited before, the entity
    that raised being the last one. *)
Inductive visit_fails (w : world) : entity -> st -> list entity -> exn -> st -> Prop :=
| vf_here fuel e s x s1 :
    visit_one w fuel e s = (s1, Exn x) -> visit_fails w e s [e] x s1
| vf_below fuel e s before k after s1 ts fs s2 l x s3 :
    visit_one w fuel e s = (s1, Ok (before ++ k :: after)) ->
    visit_runs w before s1 ts fs s2 ->
    visit_fails w k s2 l x s3 ->
    visit_fails w e s (e :: flat_map preorder ts ++ l) x s3.

(** ** Scopes *)
(** No Push or Pop action was visited other than those with which a scoped group
    surrounds what it visits. *)
Inductive no_raw : vtree -> Prop :=
| nr_group a c fw cfgs body mid :
    Forall no_raw mid ->
    no_raw (VNode (EAct a c (AGroup true fw cfgs body))
              ([VNode (anon APushLC) []; VNode (anon APushEnv) []] ++ mid ++
               [VNode (anon APopEnv) []; VNode (anon APopLC) []]))
| nr_other e kids :
    (forall a c k, e = EAct a c k -> k <> APushLC /\ k <> APopLC /\ k <> APushEnv /\ k <> APopEnv) ->
    Forall no_raw kids -> no_raw (VNode e kids).

(** Launch descriptions that contain no Push or Pop action (nor the internal actions of
    launch, which users cannot construct): all other actions nested to any depth. *)
Inductive clean : entity -> Prop :=
| cl_launch l : Forall clean l -> clean (ELaunch l)
| cl_group a c sc fw cfgs body : Forall clean body -> clean (EAct a c (AGroup sc fw cfgs body))
| cl_act a c k :
    match k with
    | APushLC | APopLC | APushEnv | APopEnv | AGroup _ _ _ _ | IInclude | ITimerHandle => False
    | _ => True
    end -> clean (EAct a c k).
(** User functions and launch files return only such descriptions ... *)
Definition clean_world (w : world) : Prop :=
  (forall f c ops l, w_fun w f c = (ops, Ok l) -> Forall clean l) /\
  (forall src loc n ld, w_load w src loc n = Ok ld -> Forall clean ld).
(** ... and those already loaded are such. *)
Definition clean_sources (s : st) : Prop :=
  forall src loc ld, srcs s !! src = Some (loc, Some ld) -> Forall clean ld.

(** No future has a number that is still to be given (true of every reachable state). *)
Definition numbered (s : st) : Prop := forall f, (next s <= f)%nat -> futs s !! f = None.

(** The context after the condition of an action was evaluated. *)
Definition after_cond (w : world) (c : option cond) (x : ctx) : ctx :=
  match c with None => x | Some c => (evaluate w c x).1 end.

(** The condition of an action, if it has one, evaluates to true. *)
Definition cond_holds (w : world) (c : option cond) (x : ctx) : Prop :=
  match c with None => True | Some c => (evaluate w c x).2 = Ok true end.

(** Contexts that differ only in pending events. *)
Definition same_but_queue (c c' : ctx) : Prop := c' = c <| queue := queue c' |>.
(** Apart from the context and the history the states are equal. *)
Definition same_but_ctx (s s' : st) : Prop := s' = s <| cx := cx s' |> <| log := log s' |>.
(** Some handler registered in [c] matches the completion of action [a]. *)
Definition listened (w : world) (a : aid) (c : ctx) : Prop :=
  exists h, In h (handlers c) /\ matches w h (EvComplete a) = true.
(** The launch configurations [cfgs] set one after the other, each seeing the previous. *)
Inductive sets_in_order (w : world) : list (list subst * list subst) -> ctx -> ctx -> Prop :=
| so_nil c : sets_in_order w [] c c
| so_cons n v cfgs c x c1 k c2 c3 c4 :
    perform_substitutions w v c = (c1, Ok x) ->
    perform_substitutions w n c1 = (c2, Ok k) ->
    same_but_queue (set_lc k x c2) c3 ->
    sets_in_order w cfgs c3 c4 ->
    sets_in_order w ((n, v) :: cfgs) c c4.
(** All names and values of [cfgs] evaluated in the same launch configurations: the
    resulting dictionary (later duplicates win). *)
Inductive evaluates_all (w : world) : list (list subst * list subst) -> ctx -> list (string * string) -> ctx -> Prop :=
| ea_nil c : evaluates_all w [] c [] c
| ea_cons n v cfgs c k c1 x c2 kvs c3 :
    perform_substitutions w n c = (c1, Ok k) ->
    perform_substitutions w v c1 = (c2, Ok x) ->
    evaluates_all w cfgs c2 kvs c3 ->
    evaluates_all w ((n, v) :: cfgs) c ((k, x) :: kvs) c3.
Definition dict_of (kvs : list (string * string)) : dict string :=
  fold_left (fun d kv => <[kv.1 := kv.2]> d) kvs ∅.

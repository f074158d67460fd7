(** Specifications used by the theorems about individual actions (C43-C47). *)
From Verif Require Export SpecSubst SpecExec.

(** ** Evaluating texts *)
(** [evals w ls c c' ts]: the texts [ls] are evaluated one after the other, starting in
    context [c] and ending in [c'], and give [ts]. *)
Inductive evals (w : world) : list (list subst) -> ctx -> ctx -> list string -> Prop :=
| evals_nil c : evals w [] c c []
| evals_cons l ls c c1 c2 t ts :
    perform_substitutions w l c = (c1, Ok t) -> evals w ls c1 c2 ts ->
    evals w (l :: ls) c c2 (t :: ts).
(** One of them raises [e] after the earlier ones have been evaluated. *)
Definition evals_fail (w : world) (ls : list (list subst)) (c c' : ctx) (e : exn) : Prop :=
  exists before l after c1 ts, ls = before ++ l :: after /\ evals w before c c1 ts
    /\ perform_substitutions w l c1 = (c', Exn e).

(** [c'] differs from [c] at most in what evaluating a text may add: launch
    configurations whose name starts with "anon" and that were not set before. *)
Definition same_variables (c c' : ctx) : Prop :=
  env c' = env c /\ env_stack c' = env_stack c /\ lc_stack c' = lc_stack c
  /\ env_reset c' = env_reset c
  /\ locals c' = locals c /\ globals c' = globals c /\ locals_stack c' = locals_stack c
  /\ handlers c' = handlers c /\ queue c' = queue c
  /\ (forall k v, lc c !! k = Some v -> lc c' !! k = Some v)
  /\ (forall k v, lc c !! k = None -> lc c' !! k = Some v -> exists n, k = ("anon" ++ n)%string).

(** The names and values of a list of pairs, in the order name, value. *)
Definition texts_of (l : list (list subst * list subst)) : list (list subst) :=
  flat_map (fun kv => [kv.1; kv.2]) l.
Definition texts_of_rev (l : list (list subst * list subst)) : list (list subst) :=
  flat_map (fun kv => [kv.2; kv.1]) l.
(** ... and back. *)
Fixpoint pairs_of (ts : list string) : list (string * string) :=
  match ts with k :: v :: ts' => (k, v) :: pairs_of ts' | _ => [] end.
(** The dictionary in which the last pair for a name wins. *)
Definition dict_of (l : list (string * string)) : dict string := list_to_map (rev l).

(** ** Listing launch arguments *)
(** What is listed about an argument. *)
Record listed := mkListed {
  li_name : string; li_default : option (list subst); li_choices : option (list string);
  li_conditional : bool }.
Definition listed_of (d : decl) : listed :=
  mkListed (dl_name d) (dl_default d) (dl_choices d) (dl_cond d).
(** Keep the first entry for each name. *)
Fixpoint first_entries (seen : list string) (l : list listed) : list listed :=
  match l with
  | [] => []
  | d :: l' => if existsb (String.eqb (li_name d)) seen then first_entries seen l'
               else d :: first_entries (li_name d :: seen) l'
  end.

Section walk.
(** What an entity contains that is visited with it, and what is visited with it only in some cases. *)
Context (always : entity -> list entity) (sometimes : entity -> res (list (list entity))).
(** [walk b l ds]: [ds] are all DeclareLaunchArgument actions found by walking
    depth first through the entities [l] (reached under a condition if [b]): an entity
    before its sub-entities, the sub-entities that are certainly visited before those
    that are visited only in some cases.  A ResetLaunchConfigurations action hides
    the entities after it in the same list. *)
Inductive walk : bool -> list entity -> list listed -> Prop :=
| dd_nil b : walk b [] []
| dd_reset b i k cfgs l : walk b (EAct i k (AResetLC cfgs) :: l) []
| dd_declare b i k n d ch l ds :
    walk b l ds ->
    walk b (EAct i k (ADeclare n d ch) :: l)
      (mkListed n d ch (b || bool_decide (k <> None)) :: ds)
| dd_other b e l dsub cs dcond ds :
    (forall i k cfgs, e <> EAct i k (AResetLC cfgs)) ->
    (forall i k n d ch, e <> EAct i k (ADeclare n d ch)) ->
    walk false (always e) dsub ->
    sometimes e = Ok cs -> walk_each cs dcond ->
    walk b l ds ->
    walk b (e :: l) (dsub ++ dcond ++ ds)
with walk_each : list (list entity) -> list listed -> Prop :=
| de_nil : walk_each [] []
| de_cons l ls ds ds' :
    walk true l ds -> walk_each ls ds' -> walk_each (l :: ls) (ds ++ ds').
End walk.
Section declared.
Context (w : world) (c : ctx) (known : nat -> option (list entity)).
(** What is visited when an action is executed: the entities of a group (those of a scoped group
    that forwards no configurations are hidden, it begins with a reset), the included description
    if it has been loaded before, or its location can be found without a context and loaded, and
    what is to be done when a process exits. *)
Definition contents (k : action) : list entity :=
  match k with
  | AGroup true false _ _ => []
  | AGroup _ _ _ body => body
  | AInclude src _ =>
      match known src with
      | Some ld => [ELaunch ld]
      | None => match (perform_substitutions w (w_loc w src) (fresh_ctx c)).2 with
                | Ok loc => match w_load w src loc (nonce c) with Ok ld => [ELaunch ld] | _ => [] end
                | _ => []
                end
      end
  | AExec _ (HList l) | ATest _ (HList l) _ => l
  | _ => []
  end.
Definition always (e : entity) : list entity :=
  match e with
  | ELaunch l => l
  | EAct _ cond k => match cond with None => contents k | Some _ => [] end
  end.
(** In some cases only: what a timer does when it fires, what an event handler gives, and what an
    action with a condition contains.  Some event handlers refuse to tell. *)
Definition sometimes (e : entity) : res (list (list entity)) :=
  match e with
  | ELaunch _ => Ok []
  | EAct _ cond k =>
      match k, cond with
      | ATimer _ body _, _ => Ok [body]
      | ARegister h, _ => match h_body h with
                          | HEntities [] | HList [] => Ok []
                          | HEntities l | HList l => Ok [l]
                          | HEntity _ | HNone => Exn XType
                          | _ => Ok []
                          end
      | _, Some _ => Ok [contents k]
      | _, None => Ok []
      end
  end.
(** All declarations of a description, as [walk] finds them. *)
Definition declared := walk always sometimes.
End declared.

(** ** Required arguments of an include *)
(** Arguments that are declared unconditionally and without a default value. *)
Definition required (d : decl) : bool :=
  negb (dl_cond d) && match dl_default d with None => true | Some _ => false end.
(** The argument names passed by the includes between an include action and the
    declaration [d] nested in it. *)
Definition passed_inside (w : world) (c : ctx) (heap : list (list (list (list subst)))) (d : decl)
    (names : list string) : Prop :=
  match dl_nested d with
  | None => names = []
  | Some r => exists ls, Forall2 (fun i l => (perform_list w i (fresh_ctx c)).2 = Ok l) (nth r heap []) ls
                         /\ names = concat ls
  end.

(** The names passed by all includes inside which the required arguments of [ds] are
    nested. *)
Definition passed_for (w : world) (c : ctx) heap (ds : list decl) (names : list string) : Prop :=
  exists ls, Forall2 (passed_inside w c heap) (List.filter required ds) ls /\ names = concat ls.

(** Every required argument of [ds] is among [names], or among the names passed by an
    include inside which it, or a required argument before it, is nested. *)
Definition argument_available (w : world) (c : ctx) heap (ds : list decl) (names : list string) : Prop :=
  forall before d after, ds = before ++ d :: after -> required d = true ->
    exists extra, passed_for w c heap (before ++ [d]) extra /\ In (dl_name d) (names ++ extra).

(** Setting launch configurations one after the other: [sets w args c c'].  Each
    value and name is evaluated after the earlier configurations have been set.
    Only the queue may grow besides, by announcements that an action completed. *)
Inductive sets (w : world) : list (list subst * list subst) -> ctx -> ctx -> Prop :=
| sets_nil c : sets w [] c c
| sets_cons n v args c c1 k x q c2 :
    evals w [v; n] c c1 [x; k] ->
    Forall (fun e => exists a, e = EvComplete a) q ->
    sets w args (c1 <| lc := <[k := x]> (lc c1) |> <| queue := queue c1 ++ q |>) c2 ->
    sets w ((n, v) :: args) c c2.

(** Specifications for the theorems about loading launch tests (C78). *)
From Verif Require Export TestLoad SpecExposed SpecLaunchPytest.

Section spec.
Context {V : Type}.
Implicit Types (d : @pdict V) (names : list string) (vals : list V).
(** [maps d k v]: the dictionary gives [v] for [k]. *)
Definition maps d (k : string) (v : V) : Prop := exists a b, d = a ++ (k, v) :: b /\ ~ In k (map fst a).
(** [pairs names vals n v]: of the values that have a name (by position), the last one named [n] is [v]. *)
Definition pairs names vals (n : string) (v : V) : Prop :=
  exists i, nth_error names i = Some n /\ nth_error vals i = Some v /\
            forall j, i < j -> nth_error names j = Some n -> nth_error vals j = None.
(** [names_in text names]: the names with commas between, without empty ones. *)
Definition names_in (text : string) names : Prop :=
  exists all, comma_separated text all /\ names = List.filter (fun x => negb (String.eqb x "")) all.
(** The decorators under the last (outermost) [parametrize], and that one. *)
Definition splits (cs below : list (deco V)) (p : string * list (argval V)) (above : list (deco V)) : Prop :=
  cs = below ++ KParametrize (fst p) (snd p) :: above /\ forall a vs, ~ In (KParametrize a vs) above.
Definition plain (cs : list (deco V)) : Prop := forall a vs, ~ In (KParametrize a vs) cs.
(** The last given timeout, or the default. *)
Inductive last_timeout : list (deco V) -> nat -> Prop :=
| lt_given a n b : (forall m, ~ In (KTimeout m) b) -> last_timeout (a ++ KTimeout n :: b) n
| lt_default cs : (forall m, ~ In (KTimeout m) cs) -> last_timeout cs 15.
(** A class is marked itself or by a class it is derived from. *)
Inductive post_class : tclass V -> Prop :=
| pc_own i b ts : post_class (TClass i true b ts)
| pc_base i m c ts : post_class c -> post_class (TClass i m (Some c) ts).
(** The ReadyToTest action that comes first: a parent before its sub-entities, and these in order. *)
Inductive first_in : list tent -> nat -> Prop :=
| fi_here id subs cond es : first_in (TEnt id true subs cond :: es) id
| fi_inside id subs cond es a : first_in (subs ++ concat cond) a -> first_in (TEnt id false subs cond :: es) a
| fi_later id subs cond es a : (forall b, ~ has_ready (subs ++ concat cond) b) -> first_in es a -> first_in (TEnt id false subs cond :: es) a.
(** What is injected for a name. *)
Inductive injects (fixed args ctx : @pdict V) (n : string) (v : V) : Prop :=
| in_fixed : maps fixed n v -> injects fixed args ctx n v
| in_args : ~ In n (map fst fixed) -> maps args n v -> injects fixed args ctx n v
| in_ctx : ~ In n (map fst fixed) -> ~ In n (map fst args) -> maps ctx n v -> injects fixed args ctx n v.
Definition fixed_names (post : bool) (g : given V) : @pdict V :=
  [("proc_info", if post then gv_info_after g else gv_info g); ("proc_output", if post then gv_output_after g else gv_output g); ("test_args", gv_args g)] ++
  (if post then [] else [("launch_service", gv_service g)]).
(** [called ps src args]: every parameter has its value from [src], or else its default; nothing else. *)
Definition called (ps : list (fparam V)) (src : string -> V -> Prop) (args : @pdict V) : Prop :=
  Forall2 (fun p kv => fst kv = fp_name p /\ (src (fp_name p) (snd kv) \/ ((forall v, ~ src (fp_name p) v) /\ fp_default p = Some (snd kv)))) ps args.
End spec.

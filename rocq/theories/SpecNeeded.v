(** Specification for C96: descriptions of which it can be said, by looking at them, what visiting
    them does to the launch configurations. *)
From Verif Require Export SpecVisit SpecActions.

(** Everything in the description is about launch configurations other than [n]: it declares or sets
    others, writes messages or changes the environment, under any conditions and in any groups. *)
Inductive others (n : string) : entity -> Prop :=
| ot_launch l : Forall (others n) l -> others n (ELaunch l)
| ot_group i c sc fw cfgs body :
    Forall (fun kv => exists m, fst kv = [SText m] /\ m <> n) cfgs -> Forall (others n) body ->
    others n (EAct i c (AGroup sc fw cfgs body))
| ot_declare i c m d ch : m <> n -> others n (EAct i c (ADeclare m d ch))
| ot_set i c m v : m <> n -> others n (EAct i c (ASetLC [SText m] v))
| ot_unset i c m : others n (EAct i c (AUnsetLC m))
| ot_log i c m : others n (EAct i c (ALog m))
| ot_setenv i c m v : others n (EAct i c (ASetEnv m v))
| ot_unsetenv i c m : others n (EAct i c (AUnsetEnv m))
| ot_append i c m v p sp : others n (EAct i c (AAppendEnv m v p sp)).

(** Nothing but declarations gives [n] a value, and those are under no condition and in no group that
    forgets the launch configurations. *)
Inductive undisputed (n : string) : entity -> Prop :=
| un_other e : others n e -> undisputed n e
| un_declare i d ch : undisputed n (EAct i None (ADeclare n d ch))
| un_launch l : Forall (undisputed n) l -> undisputed n (ELaunch l)
| un_group i sc fw body : sc = false \/ fw = true -> Forall (undisputed n) body -> undisputed n (EAct i None (AGroup sc fw [] body)).

(** Nothing takes a launch configuration away: there are declarations, assignments of launch
    configurations and of environment variables, messages, and groups that are not scoped or forward
    the launch configurations, under any conditions. *)
Inductive calm : entity -> Prop :=
| ca_launch l : Forall calm l -> calm (ELaunch l)
| ca_group i c sc fw cfgs body : sc = false \/ fw = true -> Forall calm body -> calm (EAct i c (AGroup sc fw cfgs body))
| ca_declare i c m d ch : calm (EAct i c (ADeclare m d ch))
| ca_set i c m v : calm (EAct i c (ASetLC m v))
| ca_log i c m : calm (EAct i c (ALog m))
| ca_setenv i c m v : calm (EAct i c (ASetEnv m v))
| ca_unsetenv i c m : calm (EAct i c (AUnsetEnv m))
| ca_append i c m v p sp : calm (EAct i c (AAppendEnv m v p sp)).

(** Which declarations are visited in some cases only: [walk_under] follows a description as [walk]
    does, but what stands within something that is visited in some cases only is itself visited in
    those cases only. *)
Section under.
Context (always : entity -> list entity) (sometimes : entity -> res (list (list entity))).
Inductive walk_under : bool -> list entity -> list listed -> Prop :=
| wu_nil b : walk_under b [] []
| wu_reset b i k cfgs l : walk_under b (EAct i k (AResetLC cfgs) :: l) []
| wu_declare b i k n d ch l ds :
    walk_under b l ds ->
    walk_under b (EAct i k (ADeclare n d ch) :: l) (mkListed n d ch (b || bool_decide (k <> None)) :: ds)
| wu_other b e l dsub cs dcond ds :
    (forall i k cfgs, e <> EAct i k (AResetLC cfgs)) ->
    (forall i k n d ch, e <> EAct i k (ADeclare n d ch)) ->
    walk_under b (always e) dsub ->
    sometimes e = Ok cs -> walk_under_each cs dcond ->
    walk_under b l ds ->
    walk_under b (e :: l) (dsub ++ dcond ++ ds)
with walk_under_each : list (list entity) -> list listed -> Prop :=
| we_nil : walk_under_each [] []
| we_cons l ls ds ds' :
    walk_under true l ds -> walk_under_each ls ds' -> walk_under_each (l :: ls) (ds ++ ds').
End under.
(** [a] says the same as [b], except perhaps that it calls unconditional what is not. *)
Definition says_less (a b : listed) : Prop :=
  li_name a = li_name b /\ li_default a = li_default b /\ li_choices a = li_choices b /\ (li_conditional a = true -> li_conditional b = true).

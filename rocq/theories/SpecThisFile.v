(** Specifications used by the theorems about ThisLaunchFile and ThisLaunchFileDir (C101). *)
From Verif Require Export SpecVisit.

(** What ThisLaunchFile() and ThisLaunchFileDir() give in a state. *)
Definition this_file (w : world) (s : st) : res string := (perform_substitutions w [SThisFile] (cx s)).2.
Definition this_dir (w : world) (s : st) : res string := (perform_substitutions w [SThisDir] (cx s)).2.
(** They are those of the file at the location that a source has. *)
Definition is_at (w : world) (src : nat) (s : st) : Prop :=
  exists loc ld, srcs s !! src = Some (Some loc, ld) /\ this_file w s = Ok (w_abspath w loc) /\ this_dir w s = Ok (w_launchdir w loc).

(** The entities of a visit in the order in which they were visited, and whether they returned any others. *)
Fixpoint outcomes (t : vtree) : list (entity * bool) :=
  match t with VNode e kids => (e, match kids with [] => false | _ => true end) :: flat_map outcomes kids end.
(** [visit_at w e s seen x s']: in the course of a visit of [e] that begins in [s], the entity [x] comes to be
    visited in [s'], after [seen]. *)
Inductive visit_at (w : world) : entity -> st -> list (entity * bool) -> entity -> st -> Prop :=
| va_here e s : visit_at w e s [] e s
| va_below fuel e s before k after s1 ts fs s2 seen x s3 :
    visit_one w fuel e s = (s1, Ok (before ++ k :: after)) ->
    visit_runs w before s1 ts fs s2 ->
    visit_at w k s2 seen x s3 ->
    visit_at w e s ((e, true) :: flat_map outcomes ts ++ seen) x s3.
(** The source of the last include that was begun: one whose condition holds returns at least the
    description, one whose condition does not returns nothing. *)
Definition begins (eb : entity * bool) : option nat :=
  match eb with (EAct _ _ (AInclude src _), true) => Some src | _ => None end.
Fixpoint last_include (l : list (entity * bool)) : option nat :=
  match l with
  | [] => None
  | eb :: l => match last_include l with Some src => Some src | None => begins eb end
  end.
(** The action with which launch runs the entities of a timer is not among them. *)
Definition no_timers (l : list (entity * bool)) : Prop := forall a c b, ~ In (EAct a c ITimerHandle, b) l.

(** User functions do not set the two context variables themselves. *)
Definition names_file (k : string) : Prop := k = "current_launch_file_path" \/ k = "current_launch_file_directory".
Definition tame (w : world) : Prop := forall f c ops r, w_fun w f c = (ops, r) ->
  forall k v, In (OpLocal k v) ops \/ In (OpGlobal k v) ops -> ~ names_file k.
(** What a context remembers of its variables (launch_context.py:133-137) is true of them. *)
Definition remembers (c : ctx) : Prop := forall d, cache c = Some d -> d = locals c ∪ globals c.
(** No launch file is known: context variables of this name are not set. *)
Definition outside (c : ctx) : Prop := forall k, names_file k -> locals c !! k = None /\ globals c !! k = None.

(** Specifications used by the theorems about what changes between events (C105). *)
From Verif Require Export SpecEvents SpecOpen.

(** Nothing that a launch file can ask for is different in [c'], except that names that AnonName made up may have been
    added to the launch configurations. *)
Definition as_before (c c' : ctx) : Prop :=
  env c' = env c /\ globals c' = globals c /\ locals c' = locals c /\
  lc_stack c' = lc_stack c /\ env_stack c' = env_stack c /\ locals_stack c' = locals_stack c /\
  lc c ⊆ lc c' /\ (forall k, lc c !! k = None -> is_Some (lc c' !! k) -> exists n, k = ("anon" ++ n)%string).
(** [without_raw w s ls]: whatever event is processed in the history [ls] that begins in [s], only descriptions without
    Push and Pop are brought to be visited. *)
Definition without_raw (w : world) (s : st) (ls : list label) : Prop :=
  forall before n after s1 e, ls = before ++ LEvent n :: after -> steps w s before s1 ->
  head (queue (cx s1)) = Some e -> brings_clean w s1 e.
(** [all_return w s ls]: none of the events that are processed raises. *)
Definition all_return (w : world) (s : st) (ls : list label) : Prop :=
  forall before n after s1 s2, ls = before ++ LEvent n :: after -> steps w s before s1 -> step w (LEvent n) s1 = Some s2 ->
  evt s2 = ETDone (Ok tt).

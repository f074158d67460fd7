(** Specifications used by the theorems about scopes that stay open (C104). *)
From Verif Require Export SpecVisit.

(** A group with a scope. *)
Definition scoped (e : entity) : bool := match e with EAct _ _ (AGroup true _ _ _) => true | _ => false end.
(** [stops w e s open x s']: the visit of [e] from [s] raises [x] in some entity. [open] has, innermost first, the
    contexts in which the groups with a scope around that entity were begun (after their conditions were evaluated). *)
Inductive stops (w : world) : entity -> st -> list ctx -> exn -> st -> Prop :=
| stops_here fuel e s x s1 : visit_one w fuel e s = (s1, Exn x) -> stops w e s [] x s1
| stops_below fuel e s before k after s1 ts fs s2 open x s3 :
    visit_one w fuel e s = (s1, Ok (before ++ k :: after)) -> visit_runs w before s1 ts fs s2 ->
    stops w k s2 open x s3 -> stops w e s (open ++ if scoped e then [cx s1] else []) x s3.
(** What a handler brings to be visited for the event [e] is without Push and Pop: its own entities are, and what it
    includes is if it is the handler of included launch descriptions. *)
Definition clean_handler (e : event) (h : handler) : Prop :=
  match h_body h with
  | HEntities l | HShut l | HList l => Forall clean l
  | HEntity x => clean x \/ (x = anon IInclude /\ exists ld, e = EvInclude ld /\ Forall clean ld)
  | _ => True
  end.
(** For the event [e] only descriptions without Push and Pop are brought to be visited: by all handlers that match it;
    or, if it is that of a timer, by the timer, which is asked before all other handlers that match it. *)
Definition brings_clean (w : world) (s : st) (e : event) : Prop :=
  forall before h after, handlers (cx s) = before ++ h :: after -> matches w h e = true ->
  clean_handler e h \/
  (h_body h = HEntity (anon ITimerHandle) /\ Forall (fun g => matches w g e = false) before /\
   exists a, e = EvTimer a /\ forall t, timers s !! a = Some t -> Forall clean (t_body t)).

(** The properties of entities handed over in iterables (C93). *)
From Coq Require Import ssreflect.
From Verif Require Import SpecIterables IterableFacts.

(** ** C93 *)
(** Entities handed over in a list are given whole at every use, in whatever order and however often
    it is described and used. *)
Theorem C93_listed : forall k l us, entities l -> (k = OnAction -> l <> []) ->
  exists h, construct k (listed l) = Ok h /\ use_all us h = map (whole k l) us.
Proof. exact listed_whole. Qed.
Print Assumptions C93_listed.
(** The same holds of a generator for launch descriptions and groups, which make a list of it. *)
Theorem C93_copied : forall k l us, k = Description \/ k = Group ->
  exists h, construct k (generated l) = Ok h /\ use_all us h = map (whole k l) us.
Proof. exact copied_whole. Qed.
Print Assumptions C93_copied.
(** It does not hold for timers and for event handlers: the first use that goes through the entities
    gets them, all others get nothing. *)
Theorem C93_once : forall k l us u vs, k = Timer \/ k = Handler \/ k = OnShut ->
  (forall x, In x us -> ~ goes_through k x) -> goes_through k u ->
  exists h, construct k (generated l) = Ok h /\
    use_all (us ++ u :: vs) h = map (fun _ => Ok []) us ++ Ok l :: map (fun _ => Ok []) vs.
Proof. exact once_only. Qed.
Print Assumptions C93_once.
(** In particular a timer whose launch description was described, for instance to list its arguments,
    does nothing. *)
Theorem C93_described_refuted : exists l h, construct Timer (generated l) = Ok h /\ l <> [] /\ use_all [Describe; Produce] h = [Ok l; Ok []].
Proof. exists [Ent 1], (KTimer (generated [Ent 1])). done. Qed.
Print Assumptions C93_described_refuted.
(** The handlers for events of actions (OnProcessExit and others) accept generators of entities and
    fail at every event. *)
Theorem C93_action_refuted : forall l us, entities l ->
  exists h, construct OnAction (generated l) = Ok h /\
    use_all us h = map (fun u => match u with Describe => Ok [] | Produce => Exn XAttr end) us.
Proof. exact action_generated. Qed.
Print Assumptions C93_action_refuted.
(** They refuse what has something else than entities. *)
Theorem C93_refused : forall i, In Other (left i) -> construct OnAction i = Exn XType.
Proof. exact action_refused. Qed.
Print Assumptions C93_refused.

Example C93_example :
  match construct Timer (listed [Ent 1; Ent 2]) with Ok h => use_all [Describe; Describe; Produce; Produce] h = repeat (Ok [Ent 1; Ent 2]) 4 | _ => False end /\
  match construct Group (generated [Ent 1; Ent 2]) with Ok h => use_all [Describe; Produce; Produce] h = repeat (Ok [Ent 1; Ent 2]) 3 | _ => False end /\
  match construct OnShut (generated [Ent 1]) with Ok h => use_all [Describe; Produce; Produce] h = [Ok []; Ok [Ent 1]; Ok []] | _ => False end /\
  match construct OnAction (generated [Ent 1]) with Ok h => use_all [Produce] h = [Exn XAttr] | _ => False end /\
  construct OnAction (listed [Ent 1; Other]) = Exn XType.
Proof. by repeat split. Qed.

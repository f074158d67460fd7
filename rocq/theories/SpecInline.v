(** Specifications used by the theorems about cutting up launch descriptions (C103). *)
From Verif Require Export SpecVisit.

(** The actions of an entity, in the order in which they are written, without the launch descriptions around them. *)
Fixpoint leaves (e : entity) : list entity :=
  match e with ELaunch l => flat_map leaves l | EAct _ _ _ => [e] end.
(** An observation that says only that the visit of a launch description has begun. *)
Definition of_description (o : obs) : bool := match o with OVisit (ELaunch _) => true | _ => false end.
(** Two states that are the same in everything, and in which the same was observed in the same order, but for those. *)
Definition same_but_descriptions (s1 s2 : st) : Prop :=
  (exists o, s2 = s1 <| log := o |>) /\
  List.filter (fun o => negb (of_description o)) (log s1) = List.filter (fun o => negb (of_description o)) (log s2).

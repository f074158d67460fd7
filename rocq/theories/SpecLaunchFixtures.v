(** The fixtures of launch_pytest (C92). *)
From Verif Require Export LaunchFixtures.

(** The scopes, from the smallest. *)
Definition at_most (a b : scope) : Prop := (rank a <= rank b)%nat.
(** The user leaves a name alone. *)
Definition left_alone (b : base) (l : list stmt) : Prop := forall o, ~ In (Define b o) l.
(** The greatest scope of the launch fixtures declared. *)
Definition greatest (r : scope) (l : list stmt) : Prop :=
  (forall s, In (Declare s) l -> at_most s r) /\ (r = SFunction \/ In (Declare r) l).
(** What happens with an instance of launch_service, from its creation. *)
Definition happens (l : list fstep) (v : svc) : Prop := fixture_run l svc_new = Some v.
(** The set-up of a launch fixture that gives the description [d] has succeeded. *)
Definition set_up (d : nat) (v : svc) : Prop := In d (v_ready v) /\ v_main v = MFree.
(** Set-ups begun, in order; fixture instances give different descriptions. *)
Fixpoint setups (l : list fstep) : list nat :=
  match l with [] => [] | FBegin (WSetup d) :: l => d :: setups l | _ :: l => setups l end.

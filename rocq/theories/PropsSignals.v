(** Theorems about nested signal managers (C55). *)
From Coq Require Import ssreflect.
From Verif Require Import SpecSignals SignalFacts.

(** When every manager that was entered has been left in LIFO order, the wakeup descriptor is
    the one that was there before, or the one that other code set last, and
    [signal.set_wakeup_fd] is python's own; the sockets of managers left are closed.  Other
    code always gets from [signal.set_wakeup_fd] the descriptor it set before, and no
    assertion fails. *)
Theorem C55_restores : forall raises cap f l A, foreign f -> Forall foreign_op l -> lifo [] l = Some A ->
  let st := srun raises cap (s_start f) l in
  (A = [] -> sg_wakeup st = last_set f l /\ sg_patched st = None /\ sg_current st = None) /\
  (forall m, m ∉ A -> sg_sock (sg_mgrs st m) = None) /\
  answers (sg_obs st) = previous f l /\ (forall m, SAssertion m ∉ sg_obs st).
Proof. exact restores_law. Qed.
Print Assumptions C55_restores.

(** While a manager is entered, at any depth, its handlers are called for exactly the signals
    that arrive, once each and in order; once everything is read, for all of them. *)
Theorem C55_delivery : forall raises cap f l1 m l2 A, (forall h, raises h = false) -> 0 < cap ->
  foreign f -> Forall foreign_op (l1 ++ SEnter m :: l2) -> lifo [] (l1 ++ SEnter m :: l2) = Some A ->
  exits_drained raises cap (srun raises cap (s_start f) (l1 ++ [SEnter m])) l2 ->
  Forall (not_exit m) l2 -> Forall (same_handlers m) l2 ->
  let st1 := srun raises cap (s_start f) l1 in let st := srun raises cap (s_start f) (l1 ++ SEnter m :: l2) in
  let hs := sg_handlers (sg_mgrs st1 m) in
  exists rest, calls m (sg_obs st) ++ due hs rest = calls m (sg_obs st1) ++ due hs (signals l2) /\ (drained A st -> rest = []).
Proof. exact delivery_law. Qed.
Print Assumptions C55_delivery.

(** A descriptor that was set before the managers were entered gets every signal, once and in
    order. *)
Theorem C55_external : forall raises cap e l A, (forall h, raises h = false) -> 0 < cap ->
  Forall no_set l -> lifo [] l = Some A -> exits_drained raises cap (s_start (ExtFd e)) l ->
  let st := srun raises cap (s_start (ExtFd e)) l in
  exists rest, written e (sg_obs st) ++ rest = signals l /\ (drained A st -> rest = []).
Proof. exact external_law. Qed.
Print Assumptions C55_external.

(** Finding: a signal that has arrived but was not read when the innermost manager is left is
    lost for all managers. *)
Theorem C55_exit_refuted : exists l, lifo [] l = Some [1] /\
  let st := srun (fun _ => false) 64 (s_start NoFd) l in
  drained [1] st /\ sg_handlers (sg_mgrs st 1) !! 2 = Some 7 /\ signals l = [2] /\ calls 1 (sg_obs st) = [] /\ calls 3 (sg_obs st) = [].
Proof.
  exists [SHandle 1 2 (Some 7); SHandle 3 2 (Some 8); SEnter 1; SEnter 3; SSignal 2; SExit 3; SRead 1].
  split; [by vm_compute|]. split; [|vm_compute; by repeat split].
  intros m Hm. apply elem_of_list_singleton in Hm as ->. by vm_compute.
Qed.
Print Assumptions C55_exit_refuted.

(** Finding: a handler that raises loses the rest of the data read with it, also for the
    managers outside. *)
Theorem C55_raise_refuted : exists l, lifo [] l = Some [3; 1] /\
  let st := srun (fun h => Nat.eqb h 8) 64 (s_start NoFd) l in
  drained [3; 1] st /\ sg_handlers (sg_mgrs st 1) !! 2 = Some 7 /\ signals l = [2] /\ calls 3 (sg_obs st) = [(2, 8)] /\ calls 1 (sg_obs st) = [].
Proof.
  exists [SHandle 1 2 (Some 7); SHandle 3 2 (Some 8); SEnter 1; SEnter 3; SSignal 2; SRead 3; SRead 1].
  split; [by vm_compute|]. split; [|vm_compute; by repeat split].
  intros m Hm. apply elem_of_cons in Hm as [->|Hm]; [by vm_compute|]. apply elem_of_list_singleton in Hm as ->. by vm_compute.
Qed.
Print Assumptions C55_raise_refuted.

(** Three managers; other code has a descriptor of its own and is answered correctly. *)
Definition ex_nested : list sop :=
  [SHandle 1 2 (Some 7); SHandle 3 2 (Some 8); SHandle 3 15 (Some 9); SEnter 1; SEnter 3; SSignal 15; SSignal 2;
   SRead 3; SSet (ExtFd 5); SRead 1; SEnter 4; SSignal 2; SRead 4; SExit 4; SRead 3; SRead 1].
Example C55_ex :
  let st := srun (fun _ => false) 1 (s_start (ExtFd 0)) ex_nested in
  lifo [] ex_nested = Some [3; 1] /\
  calls 1 (sg_obs st) = [(2, 7); (2, 7)] /\ calls 3 (sg_obs st) = [(15, 9); (2, 8); (2, 8)] /\ calls 4 (sg_obs st) = [] /\
  written 5 (sg_obs st) = [15; 2; 2] /\ answers (sg_obs st) = [ExtFd 0] /\
  exits_drained (fun _ => false) 1 (s_start (ExtFd 0)) ex_nested /\ Forall foreign_op ex_nested /\
  sg_wakeup (srun (fun _ => false) 1 st [SExit 3; SExit 1]) = ExtFd 5.
Proof. 
  split; [by vm_compute|]. split; [by vm_compute|]. split; [by vm_compute|]. split; [by vm_compute|]. split; [by vm_compute|].
  split; [by vm_compute|]. split; [vm_compute; by repeat split|]. split; [|by vm_compute]. repeat constructor.
Qed.
Example C55_ex_drained : drained [3; 1] (srun (fun _ => false) 1 (s_start (ExtFd 0)) ex_nested).
Proof.
  intros m Hm. apply elem_of_cons in Hm as [->|Hm]; [by vm_compute|]. apply elem_of_list_singleton in Hm as ->. by vm_compute.
Qed.

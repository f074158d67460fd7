(** Specifications for the theorems about waiting on condition variables (C65). *)
From Verif Require Export CondWait SpecTesting.

(** What was recorded under the lock of the condition, and anywhere. *)
Definition recorded {U} (l : list (cop U)) : list U := omap (fun o => match o with CRecord u => Some u | _ => None end) l.
Definition recorded_all {U} (l : list (cop U)) : list U :=
  omap (fun o => match o with CRecord u | CElsewhere u => Some u | _ => None end) l.
Definition only_here {U} (l : list (cop U)) : Prop := forall u, ~ In (CElsewhere u) l.

Section moments.
Context {D U : Type} (calls : list (ccall D)) (upd : U -> D -> D) (d0 : D) (clock : Z).
Notation run := (cs_run calls upd d0 clock).
(** Call [k] has come to its end with [r]; it sleeps. *)
Definition ended (k : nat) (r : cres) (l : list (cop U)) : Prop := cs_pcs (run l) !! k = Some (CEnd r).
Definition asleep (k : nat) (l : list (cop U)) : Prop := exists u, cs_pcs (run l) !! k = Some (CAsleep u).
(** At a moment of the history [l], after [l1], the call [k] looked at what was recorded: it
    had not ended, and its predicate gave [r] for the records of that moment. *)
Definition looked (k : nat) (c : ccall D) (r : cres) (l1 l : list (cop U)) : Prop :=
  exists d l2, l = l1 ++ CStep k d :: l2 /\ (forall r', ~ ended k r' l1) /\ cl_pred c (cs_data (run l1)) = r.
(** When the call looked after [l1], it was not before its start plus the timeout by the time
    it had finished looking. *)
Definition too_late (k : nat) (c : ccall D) (l1 l : list (cop U)) : Prop :=
  exists t s d l2, cl_timeout c = Some t /\ cs_starts (run l) !! k = Some s /\ l = l1 ++ CStep k d :: l2 /\
    (s + t <= cs_clock (run (l1 ++ [CStep k d])))%Z.
End moments.

(** ** ProcessProxy *)
(** The recorded events and the recorded output. *)
Definition infos (l : list sop) : list pev := omap (fun o => match o with SInfo e => Some e | _ => None end) l.
Definition ios (l : list sop) : list ihop := omap (fun o => match o with SIo o => Some o | _ => None end) l.
Definition nothing_seen : seen := {| sn_info := []; sn_io := ih_init |}.
(** The last event of the process of an action was a start; it was an exit. *)
Definition has_started (a : nat) (l : list sop) : Prop := last_event a (infos l) = Some {| ev_action := a; ev_code := None |}.
Definition has_exited (a : nat) (l : list sop) : Prop := exists c, last_event a (infos l) = Some {| ev_action := a; ev_code := Some c |}.
Definition output_of (name : string) (l : list sop) : string := concat_str (map io_text (of_process name (appended (ios l)))).

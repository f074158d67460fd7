(** Specifications for the theorems about OpaqueCoroutine (C95). *)
From Verif Require Export SpecService SpecEscalate.

(** [f] is the task of the last coroutine the OpaqueCoroutine action [a] has started. *)
Definition coroutine_of (a : aid) (s : st) (f : nat) : Prop := coros s !! a = Some f.
(** The handler an OpaqueCoroutine registers when it is executed. *)
Definition cancels_on_shutdown (a : aid) (h : handler) : Prop := exists i, h = MkH i MShutdown false (HCoroCancel a).
(** The tasks that were asked to cancel themselves, in order. *)
Definition cancel_requests (l : list obs) : list nat :=
  omap (fun o => match o with OCancel f => Some f | _ => None end) l.
(** The run waits, and one of the tasks it waits for was cancelled. *)
Definition noticed_cancelled (s : st) : Prop :=
  exists ws f, rpc s = Waiting ws /\ In f ws /\ f_get f s = FCancelled.

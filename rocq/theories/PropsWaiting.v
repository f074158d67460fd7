(** Theorems about waiting in tests (C60). *)
From Coq Require Import ssreflect.
From Verif Require Import SpecWaiting WaitingFacts.

(** What a call of wait_for_output (or assert_output, or the variants for stderr and for
    threads) does, whatever output comes and however time passes.  True: the last evaluation
    of the condition was true, and no earlier one.  False: all evaluations were false, and
    the time is over.  A TypeError is only raised without a timeout, after one evaluation.
    Otherwise the condition raised.  In every case the handler is unregistered. *)
Theorem C60_result : forall sync cond timeout o c l r, let st := w_run sync cond timeout o c l in wt_pc st = PReturned r ->
  wt_registered st = false /\
  match r with
  | WBool true => evaluated cond st true
  | WBool false => evaluated cond st false /\ exists t, timeout = Some t /\ (wt_start st + t <= wt_clock st)%Z
  | WType => evaluated cond st false /\ timeout = None /\ length (wt_seen st) = 1
  | WRaised => Forall (fun x => snd x = false) (wt_seen st) /\ exists out later, wt_output st = out ++ later /\ cond out = None
  end.
Proof. exact result_law. Qed.
Print Assumptions C60_result.

(** While it waits its handler is registered, the condition was false so far, there is a
    timeout, and it does not end too early. *)
Theorem C60_waiting : forall sync cond timeout o c l u, let st := w_run sync cond timeout o c l in wt_pc st = PWait u ->
  wt_registered st = true /\ evaluated cond st false /\ exists t, timeout = Some t /\ (wt_start st + t <= u)%Z.
Proof. exact waiting_law. Qed.
Print Assumptions C60_waiting.

(** A coroutine never keeps waiting while the condition holds. *)
Theorem C60_awake : forall cond timeout o c l, let st := w_run false cond timeout o c l in idle st -> cond (wt_output st) = Some false.
Proof. exact awake_law. Qed.
Print Assumptions C60_awake.
(** In another thread the same is true from the second evaluation on. *)
Theorem C60_thread : forall cond timeout o c l, let st := w_run true cond timeout o c l in
  idle st -> 1 < length (wt_seen st) -> cond (wt_output st) = Some false.
Proof. exact sync_awake_law. Qed.
Print Assumptions C60_thread.
(** Woken when the condition holds, it returns True without waiting again. *)
Theorem C60_wake : forall sync cond timeout o c l, let st := w_run sync cond timeout o c l in
  (exists u, wt_pc st = PWait u) -> wt_event st = true -> wt_handling st = None -> cond (wt_output st) = Some true ->
  wt_pc (fold_left (w_do sync cond timeout) (repeat (WStep true) 6) st) = PReturned (WBool true).
Proof. exact wake_law. Qed.
Print Assumptions C60_wake.

(** It does not wait busily: beside the first evaluation, the condition is evaluated at most
    once for every output event that is handled, and in another thread once more at the end of
    the time. *)
Theorem C60_evaluations : forall sync cond timeout o c l,
  length (wt_seen (w_run sync cond timeout o c l)) <= (if sync then 2 else 1) + ends_in l.
Proof. exact quiet_law. Qed.
Print Assumptions C60_evaluations.

(** Finding: in another thread, output that comes between the first evaluation and the
    registration of the handler is not noticed; the call waits although the condition holds. *)
Theorem C60_gap_refuted : exists cond t o c l, let st := w_run true cond (Some t) o c l in idle st /\ cond (wt_output st) = Some true.
Proof.
  exists (fun l => Some (match l with [] => false | _ => true end)), 10%Z, [], 0%Z,
    [WStep true; WBegin "x"; WKeep; WEnd; WStep true; WStep true; WStep true].
  split; [|by vm_compute]. split; [by exists 10%Z|by vm_compute].
Qed.
Print Assumptions C60_gap_refuted.
(** Finding: a coroutine whose timeout ends when it has been woken, but has not run yet, can
    return False although the condition has come to hold before the end. *)
Theorem C60_race_refuted : exists cond t o c l, let st := w_run false cond (Some t) o c l in
  wt_pc st = PReturned (WBool false) /\ cond (wt_output st) = Some true /\ wt_event st = true /\
  exists l1 l2, l = l1 ++ l2 /\ cond (wt_output (w_run false cond (Some t) o c l1)) = Some true /\ (wt_clock (w_run false cond (Some t) o c l1) < wt_start st + t)%Z.
Proof.
  exists (fun l => Some (match l with [] => false | _ => true end)), 10%Z, [], 0%Z,
    [WStep true; WStep true; WStep true; WStep true; WTick 9; WBegin "x"; WKeep; WEnd; WTick 1; WStep false; WStep false].
  split; [by vm_compute|]. split; [by vm_compute|]. split; [by vm_compute|].
  exists [WStep true; WStep true; WStep true; WStep true; WTick 9; WBegin "x"; WKeep; WEnd], [WTick 1; WStep false; WStep false]. by vm_compute.
Qed.
Print Assumptions C60_race_refuted.

(** Waiting for a start or an exit: True only for an event that was handled while the call was
    waiting, False only after the timeout. *)
Theorem C60_event : forall t l b, es_pc (e_run t l) = EReturned b ->
  if b then exists l1 l2 u, l = l1 ++ EHandled :: l2 /\ es_pc (e_run t l1) = EWaiting u
  else exists d, t = Some d /\ (d <= es_clock (e_run t l))%Z.
Proof. exact event_law. Qed.
Print Assumptions C60_event.
(** Finding: a call that is made after the event was handled waits forever. *)
Theorem C60_missed_refuted : exists l0, es_count (e_run None l0) = 1 /\
  forall l, (forall o, In o l -> o <> EHandled) -> es_pc (fold_left (e_do None) l (e_run None l0)) = EWaiting None.
Proof. exists [EHandled; ERegister]. split; [done|]. intros l Hl. by destruct (missed_law l Hl _ eq_refl). Qed.
Print Assumptions C60_missed_refuted.

(** The second piece of output makes the condition true; then without a timeout; then the time
    is over. *)
Definition ex_two (l : list string) : option bool := Some (1 <? length l).
Definition ex_wait : list wop :=
  [WStep true; WStep true; WStep true; WStep true; WBegin "a"; WKeep; WEnd; WStep true; WStep true; WStep true; WStep true; WStep true;
   WTick 3; WBegin "b"; WKeep; WEnd; WStep true; WStep true; WStep true; WStep true; WStep true; WStep true].
Example C60_ex :
  (let st := w_run false ex_two (Some 5%Z) [] 100%Z ex_wait in
   wt_pc st = PReturned (WBool true) /\ wt_seen st = [([], false); (["a"], false); (["a"; "b"], true)] /\ wt_registered st = false) /\
  wt_pc (w_run false ex_two None [] 100%Z (repeat (WStep true) 5)) = PReturned WType /\
  wt_pc (w_run true ex_two (Some 5%Z) [] 100%Z (repeat (WStep true) 4 ++ [WTick 5] ++ repeat (WStep false) 6)) = PReturned (WBool false) /\
  wt_pc (w_run true ex_two (Some 5%Z) [] 100%Z (take 12 ex_wait)) = PWait 105%Z.
Proof. vm_compute. by repeat split. Qed.
Example C60_ex_idle : idle (w_run true ex_two (Some 5%Z) [] 100%Z (take 12 ex_wait)) /\ idle (w_run false ex_two (Some 5%Z) [] 100%Z (take 12 ex_wait)).
Proof. split; (split; [by exists 105%Z|by vm_compute]). Qed.
Example C60_ex_event : es_pc (e_run (Some 3%Z) [ERegister; ETick 2; EHandled; EWake]) = EReturned true /\
  es_pc (e_run (Some 3%Z) [EHandled; ERegister; ETick 2; EWake; ETick 1; ETimeout]) = EReturned false.
Proof. vm_compute. by repeat split. Qed.

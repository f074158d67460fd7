(** Theorems about waiting on condition variables in launch tests (C65). *)
From Coq Require Import ssreflect.
From Verif Require Import SpecCondWait CondWaitFacts.

(** ** Every call *)
(** However threads, records and time interleave, a call ends in one of two ways: it looked at
    the records and its predicate was true (or raised), which is what it returns; or it looked,
    the predicate was false and the time was over, and it does what it does after a timeout. *)
Theorem C65_end : forall D U calls (upd : U -> D -> D) d0 clock k c l r,
  calls !! k = Some c -> ended calls upd d0 clock k r l ->
  (exists l1, looked calls upd d0 clock k c r l1 l /\ r <> CBool false) \/
  exists l0 l1 d l2, l = l1 ++ CStep k d :: l2 /\ looked calls upd d0 clock k c (CBool false) l0 l1 /\ too_late calls upd d0 clock k c l0 l1 /\
    r = cl_after c (cs_data (cs_run calls upd d0 clock l1)).
Proof. exact @end_law. Qed.
Print Assumptions C65_end.
(** What the calls look at is what has been recorded. *)
Theorem C65_records : forall D U calls (upd : U -> D -> D) d0 clock l,
  cs_data (cs_run calls upd d0 clock l) = fold_left (fun d u => upd u d) (recorded_all l) d0.
Proof. exact @data_law. Qed.
Print Assumptions C65_records.
(** At the deadline every call looks once more, whoever was notified before: what has come to
    hold is reported. *)
Theorem C65_deadline : forall D U calls (upd : U -> D -> D) d0 clock k c l u,
  calls !! k = Some c -> cs_pcs (cs_run calls upd d0 clock l) !! k = Some (CAsleep (Some u)) -> (u <= cs_clock (cs_run calls upd d0 clock l))%Z ->
  cs_pcs (cs_run calls upd d0 clock (l ++ [CTimeout k; CStep k 0])) !! k =
  Some match cl_pred c (cs_data (cs_run calls upd d0 clock l)) with CBool false => CAfter | r => CEnd r end.
Proof. exact @deadline_law. Qed.
Print Assumptions C65_deadline.
(** If only one call uses the condition, it never sleeps while its predicate holds (if what is
    recorded elsewhere does not matter for it), and it returns True when it is woken. *)
Theorem C65_alert : forall D U calls (upd : U -> D -> D) d0 clock c l, calls = [c] ->
  (forall u d, In (CElsewhere u) l -> cl_pred c (upd u d) = cl_pred c d) ->
  asleep calls upd d0 clock 0 l -> cl_pred c (cs_data (cs_run calls upd d0 clock l)) = CBool false.
Proof. exact @alert_law. Qed.
Print Assumptions C65_alert.
Theorem C65_wake : forall D U calls (upd : U -> D -> D) d0 clock c u l, calls = [c] ->
  (forall u d, In (CElsewhere u) l -> cl_pred c (upd u d) = cl_pred c d) ->
  asleep calls upd d0 clock 0 l -> cl_pred c (upd u (cs_data (cs_run calls upd d0 clock l))) = CBool true ->
  ended calls upd d0 clock 0 (CBool true) (l ++ [CRecord u; CStep 0 0]).
Proof. exact @wake_law. Qed.
Print Assumptions C65_wake.

(** Finding: with two calls, a record wakes only one of them.  The other sleeps on although what
    it waits for has happened: here two tests wait for the exits of two processes, without a
    timeout, and nothing but a further record wakes the second one. *)
Theorem C65_two_refuted : exists l0, let calls := [px_wait_shutdown 1 None; px_wait_shutdown 2 None] in
  has_exited 2 (recorded_all l0) /\ forall l, recorded_all l = [] -> asleep calls seen_upd nothing_seen 0 1 (l0 ++ l).
Proof.
  exists [CStep 0 0; CStep 1 0; CRecord (SInfo {| ev_action := 2; ev_code := Some 0%Z |})]. cbn zeta. split; [by exists 0%Z|].
  set (calls := [px_wait_shutdown 1 None; px_wait_shutdown 2 None]). intros l. exact (second_sleeps l).
Qed.
Print Assumptions C65_two_refuted.

(** ** ActiveIoHandler.waitFor *)
(** True: assertInStream would have passed at a moment of the call (C62 says when). *)
Theorem C65_output : forall search rematch strip_ansi det calls clock l k e q args strict filter strip stream t,
  let asserted l1 := assert_in_stream search rematch strip_ansi det (ih_run (recorded l1)) e q args filter strict strip stream in
  only_here l -> calls !! k = Some (io_wait_for search rematch strip_ansi det e q args strict filter strip stream t) ->
  ended calls io_upd ih_init clock k (CBool true) l ->
  exists l1 d l2, l = l1 ++ CStep k d :: l2 /\ asserted l1 = APasses.
Proof. exact io_true_law. Qed.
Print Assumptions C65_output.
(** False: it would have failed when the time was over, and a matching process had written
    something by the end of the call (otherwise it raises). *)
Theorem C65_no_output : forall search rematch strip_ansi det calls clock l k e q args strict filter strip stream t,
  let asserted l1 := assert_in_stream search rematch strip_ansi det (ih_run (recorded l1)) e q args filter strict strip stream in
  only_here l -> calls !! k = Some (io_wait_for search rematch strip_ansi det e q args strict filter strip stream t) ->
  ended calls io_upd ih_init clock k (CBool false) l ->
  exists l0 l1 d l2, l = l1 ++ CStep k d :: l2 /\
    looked calls io_upd ih_init clock k (io_wait_for search rematch strip_ansi det e q args strict filter strip stream t) (CBool false) l0 l1 /\
    too_late calls io_upd ih_init clock k (io_wait_for search rematch strip_ansi det e q args strict filter strip stream t) l0 l1 /\
    (asserted l0 = AFails \/ asserted l0 = AUnresolved NoMatch) /\ exists ps, resolve det (ih_processes (ih_run (recorded l1))) q args false = Procs ps.
Proof. exact io_false_law. Qed.
Print Assumptions C65_no_output.

(** ** ActiveProcInfoHandler *)
(** assertWaitForShutdown returns only if, at a moment of the call, the last event of the (first)
    selected process was an exit; its assertion only fails if the time was over and it was not. *)
Theorem C65_shutdown : forall det calls clock l k q args t b,
  only_here l -> calls !! k = Some (wait_shutdown det q args t) -> ended calls info_upd [] clock k (CBool b) l ->
  b = true /\ exists l1 d l2 a ps c, l = l1 ++ CStep k d :: l2 /\
    resolve det (first_actions (map ev_action (recorded l1))) q args true = Procs (a :: ps) /\ last_event a (recorded l1) = Some {| ev_action := a; ev_code := Some c |}.
Proof. exact shutdown_law. Qed.
Print Assumptions C65_shutdown.
Theorem C65_no_shutdown : forall det calls clock l k q args t,
  only_here l -> calls !! k = Some (wait_shutdown det q args t) -> ended calls info_upd [] clock k (CRaise XAssertion) l ->
  exists l0 l1 l2, l = l1 ++ l2 /\ too_late calls info_upd [] clock k (wait_shutdown det q args t) l0 l1 /\
    match resolve det (first_actions (map ev_action (recorded l0))) q args true with
    | Procs ps => exists a ps', ps = a :: ps' /\ last_event a (recorded l0) = Some {| ev_action := a; ev_code := None |}
    | r => r = NoMatch
    end.
Proof. exact shutdown_late_law. Qed.
Print Assumptions C65_no_shutdown.
(** assertWaitForStartup returns only if an event of a selected process has been recorded. *)
Theorem C65_startup : forall det calls clock l k q args t b,
  only_here l -> calls !! k = Some (wait_startup det q args t) -> ended calls info_upd [] clock k (CBool b) l ->
  b = true /\ exists l1 d l2 e, l = l1 ++ CStep k d :: l2 /\ In e (recorded l1) /\ selected det q args (ev_action e).
Proof. exact startup_law. Qed.
Print Assumptions C65_startup.
(** Its assertion only fails if the time was over and there was none. *)
Theorem C65_no_startup : forall det calls clock l k q args t,
  only_here l -> calls !! k = Some (wait_startup det q args t) -> ended calls info_upd [] clock k (CRaise XAssertion) l ->
  exists l0 l1 l2, l = l1 ++ l2 /\ too_late calls info_upd [] clock k (wait_startup det q args t) l0 l1 /\ forall e, In e (recorded l0) -> ~ selected det q args (ev_action e).
Proof. exact startup_late_law. Qed.
Print Assumptions C65_no_startup.
(** Finding: for all processes (None), assertWaitForShutdown returns when the first one has
    exited, although others are running. *)
Theorem C65_all_refuted : exists det l, let calls := [wait_shutdown det QAll AnyArgs 10] in
  ended calls info_upd [] 0 0 (CBool true) l /\ last_event 2 (recorded l) = Some {| ev_action := 2; ev_code := None |}.
Proof.
  exists (fun _ => {| de_name := "x"; de_cmd := [] |}),
    [CRecord {| ev_action := 1; ev_code := None |}; CRecord {| ev_action := 2; ev_code := None |}; CStep 0 0; CRecord {| ev_action := 1; ev_code := Some 0%Z |}; CStep 0 0].
  by vm_compute.
Qed.
Print Assumptions C65_all_refuted.

(** ** ProcessProxy *)
Theorem C65_proxy_shutdown : forall calls clock l k a timeout b, calls !! k = Some (px_wait_shutdown a timeout) ->
  ended calls seen_upd nothing_seen clock k (CBool b) l ->
  if b then exists l1 d l2, l = l1 ++ CStep k d :: l2 /\ has_exited a (recorded_all l1)
  else exists l0 l1 l2, l = l1 ++ l2 /\ too_late calls seen_upd nothing_seen clock k (px_wait_shutdown a timeout) l0 l1 /\ ~ has_exited a (recorded_all l0).
Proof. exact px_shutdown_law. Qed.
Print Assumptions C65_proxy_shutdown.
Theorem C65_proxy_output : forall det calls clock l k filter cond a timeout r, calls !! k = Some (px_wait_output det filter cond a timeout) ->
  ended calls seen_upd nothing_seen clock k r l ->
  match r with
  | CBool true => exists l1 d l2, l = l1 ++ CStep k d :: l2 /\ has_started a (recorded_all l1) /\ cond (filter (output_of (de_name (det a)) (recorded_all l1))) = true
  | CBool false => exists l0 l1 l2, l = l1 ++ l2 /\ too_late calls seen_upd nothing_seen clock k (px_wait_output det filter cond a timeout) l0 l1 /\
      (has_started a (recorded_all l0) -> cond (filter (output_of (de_name (det a)) (recorded_all l0))) = false)
  | CRaise x => x = XOf XKey /\ exists l1 d l2, l = l1 ++ CStep k d :: l2 /\ has_started a (recorded_all l1) /\
      ~ In (de_name (det a)) (mentioned (ios (recorded_all l1)))
  end.
Proof. exact px_output_law. Qed.
Print Assumptions C65_proxy_output.
(** Finding: output that the process wrote before it exited is not found by a call made
    afterwards: wait_for_output sleeps until its time is over, and returns False. *)
Definition ex_det (_ : nat) : details := {| de_name := "p"; de_cmd := ["p"] |}.
Definition ex_started : sop := SInfo {| ev_action := 1; ev_code := None |}.
Definition ex_exited : sop := SInfo {| ev_action := 1; ev_code := Some 0%Z |}.
Definition ex_out (s : string) : sop := SIo (IAppend {| io_name := "p"; io_action := 1; io_stdout := true; io_text := s |}).
Definition ex_calls (timeout : option Z) : list (ccall seen) := [px_wait_output ex_det (fun s => s) (String.eqb "hello") 1 timeout].
Theorem C65_exited_refuted : exists l, output_of "p" (recorded_all l) = "hello" /\ ended (ex_calls (Some 10%Z)) seen_upd nothing_seen 0 0 (CBool false) l /\
  (exists u l1 l2, l = l1 ++ l2 /\ asleep (ex_calls (Some u)) seen_upd nothing_seen 0 0 l1 /\ output_of "p" (recorded_all l1) = "hello").
Proof.
  set (pre := [CElsewhere ex_started; CRecord (ex_out "hello"); CElsewhere ex_exited; CStep 0 0]).
  exists (pre ++ [CTick 10; CTimeout 0; CStep 0 0; CStep 0 0]). split; [by vm_compute|]. split; [by vm_compute|].
  exists 10%Z, pre, [CTick 10; CTimeout 0; CStep 0 0; CStep 0 0]. split; [done|]. split; [by exists (Some 10%Z)|by vm_compute].
Qed.
Print Assumptions C65_exited_refuted.
(** Finding: whether the process runs is recorded under another lock, whose condition is not the
    one waited for: the call sleeps on although the process runs and its output is there. *)
Theorem C65_locks_refuted : exists l, has_started 1 (recorded_all l) /\ output_of "p" (recorded_all l) = "hello" /\ asleep (ex_calls None) seen_upd nothing_seen 0 0 l.
Proof.
  exists [CRecord (ex_out "hello"); CStep 0 0; CElsewhere ex_started]. split; [by vm_compute|]. split; [by vm_compute|]. by exists None.
Qed.
Print Assumptions C65_locks_refuted.
(** Finding: if the start is recorded, but nothing is known of its output, the call raises. *)
Theorem C65_untracked_refuted : exists l, ended (ex_calls None) seen_upd nothing_seen 0 0 (CRaise (XOf XKey)) l.
Proof. exists [CElsewhere ex_started; CStep 0 0]. by vm_compute. Qed.
Print Assumptions C65_untracked_refuted.

(** Output in two pieces while a call waits; then the time is over. *)
Example C65_ex :
  ended (ex_calls None) seen_upd nothing_seen 0 0 (CBool true)
    [CElsewhere ex_started; CRecord (SIo (ITrack "p")); CStep 0 1; CRecord (ex_out "hel"); CStep 0 2; CRecord (ex_out "lo"); CStep 0 0] /\
  ended (ex_calls (Some 5%Z)) seen_upd nothing_seen 0 0 (CBool false)
    [CElsewhere ex_started; CRecord (SIo (ITrack "p")); CStep 0 1; CRecord (ex_out "hel"); CStep 0 2; CTick 3; CTimeout 0; CStep 0 0; CStep 0 0] /\
  asleep (ex_calls (Some 5%Z)) seen_upd nothing_seen 0 0 [CElsewhere ex_started; CRecord (SIo (ITrack "p")); CStep 0 1; CRecord (ex_out "hel"); CStep 0 2].
Proof. split; [by vm_compute|]. split; [by vm_compute|]. by exists (Some 6%Z). Qed.
Definition ex_lit (s : string) : expect := XText s.
Definition ex_io (s : string) : ihop := IAppend {| io_name := "p"; io_action := 1; io_stdout := true; io_text := s |}.
Definition ex_io_calls (q : pquery) : list (ccall ioh) :=
  [io_wait_for (fun _ _ _ => None) (fun _ _ _ => None) (fun s => s) ex_det (ex_lit "hello") q AnyArgs true (fun s => s) false "stdout" 5].
Example C65_ex_io :
  ended (ex_io_calls QAll) io_upd ih_init 0 0 (CBool true) [CStep 0 0; CRecord (ex_io "well, hel"); CStep 0 0; CRecord (ex_io "lo!"); CStep 0 0] /\
  ended (ex_io_calls (QName "p")) io_upd ih_init 0 0 (CBool false) [CStep 0 0; CRecord (ex_io "hel"); CStep 0 0; CTick 5; CTimeout 0; CStep 0 0; CStep 0 0] /\
  ended (ex_io_calls (QName "q")) io_upd ih_init 0 0 (CRaise XNoMatch) [CStep 0 0; CRecord (ex_io "hel"); CStep 0 0; CTick 5; CTimeout 0; CStep 0 0; CStep 0 0].
Proof. by vm_compute. Qed.
Example C65_ex_info : let calls := [wait_shutdown ex_det (QName "p") AnyArgs 5; wait_startup ex_det (QAction 1) AnyArgs 5] in
  let run := [CStep 1 0; CRecord {| ev_action := 1; ev_code := None |}; CStep 1 0; CStep 0 0] in
  ended calls info_upd [] 0 1 (CBool true) run /\
  ended calls info_upd [] 0 0 (CBool true) (run ++ [CRecord {| ev_action := 1; ev_code := Some 3%Z |}; CStep 0 0]) /\
  ended calls info_upd [] 0 0 (CRaise XAssertion) (run ++ [CTick 5; CTimeout 0; CStep 0 0; CStep 0 0]).
Proof. by vm_compute. Qed.

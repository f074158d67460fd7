(** Theorems about the helpers of launch tests (C56 to C59, C61). *)
From Coq Require Import ssreflect.
From Verif Require Import SpecTesting TestingFacts.

(** ** C56: ReadyAggregator *)
(** However the threads interleave, the parent function is called at most once, and only by
    the call that is the n-th to count. *)
Theorem C56_once : forall n l, let st := ra_run n l in
  parents (ra_obs st) = [] \/
  exists k, parents (ra_obs st) = [k] /\ (1 <= n)%Z /\ counted (ra_obs st) !! Z.to_nat (n - 1) = Some k.
Proof. exact once_law. Qed.
Print Assumptions C56_once.

(** It is not called if fewer than n calls were made. *)
Theorem C56_few : forall n l, let st := ra_run n l in (Z.of_nat (begun l) < n \/ n <= 0)%Z -> parents (ra_obs st) = [].
Proof. exact begun_few. Qed.
Print Assumptions C56_few.

(** It has been called when at least n calls were made and all have returned. *)
Theorem C56_enough : forall n l, let st := ra_run n l in
  finished st -> (1 <= n <= Z.of_nat (begun l))%Z -> exists k, parents (ra_obs st) = [k].
Proof. exact begun_enough. Qed.
Print Assumptions C56_enough.

(** The lock is not held by the caller of the parent function, and unless all calls have
    returned one of them can go on. *)
Theorem C56_unlocked : forall n l k, let st := ra_run n l in
  parents (ra_obs (ra_do st (RStep k))) <> parents (ra_obs st) ->
  parents (ra_obs (ra_do st (RStep k))) = parents (ra_obs st) ++ [k] /\ ra_lock st <> Some k.
Proof. exact unlocked_law. Qed.
Print Assumptions C56_unlocked.
Theorem C56_progress : forall n l, let st := ra_run n l in ~ finished st -> exists k, ra_do st (RStep k) <> st.
Proof. exact progress_law. Qed.
Print Assumptions C56_progress.

(** Finding: without children ([n = 0]) the parent function is never called. *)
Theorem C56_zero_refuted : exists n, (n <= 0)%Z /\ forall l, parents (ra_obs (ra_run n l)) = [].
Proof. exists 0%Z. split; [done|]. intros l. apply begun_few. by right. Qed.
Print Assumptions C56_zero_refuted.

(** Three calls for [n = 2]; the second to count makes the call, after the third has counted. *)
Definition ex_ready : list rop :=
  [RBegin; RBegin; RBegin; RStep 2; RStep 0; RStep 2; RStep 2; RStep 2; RStep 2; RStep 0; RStep 0; RStep 0; RStep 0; RStep 0;
   RStep 1; RStep 1; RStep 1; RStep 1; RStep 1; RStep 1; RStep 0; RStep 0; RStep 0; RStep 2].
Example C56_ex : let st := ra_run 2 ex_ready in
  counted (ra_obs st) = [2; 0; 1] /\ parents (ra_obs st) = [0] /\ ra_obs st = [RLeft 2; RLeft 0; RLeft 1; RParent 0] /\
  begun ex_ready = 3 /\ ra_calls st = [RDone; RDone; RDone].
Proof. vm_compute. by repeat split. Qed.
Example C56_ex_finished : finished (ra_run 2 ex_ready).
Proof. 
  intros k p. change (ra_calls (ra_run 2 ex_ready)) with [RDone; RDone; RDone]. intros H%elem_of_list_lookup_2.
  repeat (apply elem_of_cons in H as [->|H]; [done|]). by apply elem_of_nil in H.
Qed.

(** ** C57: output in a sequence *)
(** All assertions succeed exactly if the messages occur one after the other, without
    overlap, each within one chunk of the output. *)
Theorem C57_sequence : forall out msgs st, sq_all out msgs st = true <-> in_order out (at_pos st) msgs.
Proof. exact all_law. Qed.
Print Assumptions C57_sequence.

(** An assertion that succeeds moves to the end of the first occurrence from the position on;
    one that fails does not move, and there is no such occurrence. *)
Theorem C57_assert : forall out msg st ok st', sq_assert out msg st = (ok, st') ->
  (ok = true -> exists q, occurs out msg q /\ not_before (at_pos st) q /\ at_pos st' = ending msg q /\
     forall q', occurs out msg q' -> not_before (at_pos st) q' -> not_before q q') /\
  (ok = false -> st' = st /\ forall q, occurs out msg q -> ~ not_before (at_pos st) q).
Proof. exact assert_law. Qed.
Print Assumptions C57_assert.

(** If failures are caught, the messages found are in order and the ones not found have no
    effect. *)
Theorem C57_caught : forall out msgs st bs st', sq_try out msgs st = (bs, st') ->
  length bs = length msgs /\ in_order out (at_pos st) (keep_true msgs bs) /\
  sq_try out (keep_true msgs bs) st = (repeat true (length (keep_true msgs bs)), st').
Proof. exact try_law. Qed.
Print Assumptions C57_caught.

(** Unless no process is named, the output is that of a single process. *)
Theorem C57_single : forall det h q args l out, sequential_output det h q args = (Procs l, out) ->
  exists p, l = [p] \/ (q = QAll /\ exists l', l = p :: l').
Proof. exact sequential_law. Qed.
Print Assumptions C57_single.

(** Finding: [assertSequentialStdout] also finds messages that were only written to stderr. *)
Theorem C57_stderr_refuted : exists det l q args msg, let h := ih_run l in
  (forall e, In e (ih_seq h) -> io_stdout e = false) /\ exists ps out, sequential_output det h q args = (Procs ps, out) /\ msg <> "" /\ sq_all out [msg] sq_start = true.
Proof.
  exists (fun _ => {| de_name := "a-1"; de_cmd := ["a"] |}), [IAppend {| io_name := "a-1"; io_action := 0; io_stdout := false; io_text := "error" |}], (QAction 0), AnyArgs, "error".
  split; [intros e [<-|[]]; done|]. exists [0], ["error"]. vm_compute. by repeat split.
Qed.
Print Assumptions C57_stderr_refuted.
(** Finding: a message that was split between two chunks is not found. *)
Theorem C57_split_refuted : exists out msg, name_contains msg (concat_str out) /\ sq_all out [msg] sq_start = false.
Proof. exists ["he"; "llo"], "hello". split; [by exists "", ""|by vm_compute]. Qed.
Print Assumptions C57_split_refuted.

Example C57_ex :
  sq_all ["aXbX"; "cX"] ["X"; "X"; "X"] sq_start = true /\ sq_all ["aXbX"; "cX"] ["X"; "X"; "X"; "X"] sq_start = false /\
  sq_all ["abab"] ["aba"; "b"] sq_start = true /\ sq_all ["abab"] ["aba"; "ab"] sq_start = false /\
  sq_try ["a"; "b"] ["b"; "a"; "b"; ""] sq_start = ([true; false; false; true], {| sq_array := 1; sq_sub := 1 |}).
Proof. vm_compute. by repeat split. Qed.

(** ** C58: records *)
(** The record of all output is what was appended, in order; the names are those tracked or
    appended to, in the order of their first mention; the record of a name is the sub-sequence
    of its events, and a name never mentioned raises a KeyError; the processes are those of
    the first events of the names. *)
Theorem C58_output : forall l, let h := ih_run l in
  ih_seq h = appended l /\ ih_names h = first_names (mentioned l) /\
  (forall n, ih_get n h = if existsb (String.eqb n) (mentioned l) then Ok (of_process n (appended l)) else Exn XKey) /\
  ih_processes h = omap (fun n => io_action <$> head (of_process n (appended l))) (first_names (mentioned l)).
Proof. exact io_law. Qed.
Print Assumptions C58_output.

(** The record of events has the processes in the order of their first events, and for each
    its last event. *)
Theorem C58_info : forall l, pi_processes (pi_run l) = first_actions (map ev_action l) /\
  forall a, pi_get a (pi_run l) = match last_event a l with Some e => Ok e | None => Exn XKey end.
Proof. exact info_law. Qed.
Print Assumptions C58_info.

(** Looked up by a text, it is the last event of the first process whose name contains it. *)
Theorem C58_find : forall name key l,
  (forall a, In a (map ev_action l) -> ~ name_contains key (name a)) /\ pi_find name key (pi_run l) = Exn XKey \/
  exists pre a post e, first_actions (map ev_action l) = pre ++ a :: post /\ (forall b, In b pre -> ~ name_contains key (name b)) /\
    name_contains key (name a) /\ last_event a l = Some e /\ pi_find name key (pi_run l) = Ok e.
Proof. exact find_law. Qed.
Print Assumptions C58_find.

Definition ex_io (n : string) (a : nat) (t : string) : pio := {| io_name := n; io_action := a; io_stdout := true; io_text := t |}.
Example C58_ex : let l := [ITrack "b-2"; IAppend (ex_io "a-1" 0 "x"); ITrack "c-3"; IAppend (ex_io "b-2" 1 "y"); IAppend (ex_io "a-1" 0 "z")] in
  let h := ih_run l in
  ih_names h = ["b-2"; "a-1"; "c-3"] /\ ih_processes h = [1; 0] /\ ih_get "a-1" h = Ok [ex_io "a-1" 0 "x"; ex_io "a-1" 0 "z"] /\
  ih_get "c-3" h = Ok [] /\ ih_get "d" h = Exn XKey /\
  let d := pi_run [{| ev_action := 3; ev_code := None |}; {| ev_action := 1; ev_code := None |}; {| ev_action := 3; ev_code := Some 2%Z |}] in
  pi_processes d = [3; 1] /\ pi_get 3 d = Ok {| ev_action := 3; ev_code := Some 2%Z |} /\
  pi_find (fun a => if Nat.eqb a 3 then "talker-1" else "listener-2") "listen" d = Ok {| ev_action := 1; ev_code := None |}.
Proof. vm_compute. by repeat split. Qed.

(** ** C59: looking up processes *)
(** What is returned is not empty, has exactly the selected processes, in their order, and
    with strict matching just one for a name; nothing selected raises a
    NoMatchingProcessException, several for a name with strict matching an Exception, and
    what is neither an action nor a name a TypeError. *)
Theorem C59_resolve : forall det procs q args strict,
  match resolve det procs q args strict with
  | Procs l => l <> [] /\ (forall p, In p l <-> In p procs /\ selected det q args p) /\
      (match q with QAction a => l = [a] | _ => exactly det procs q args l end) /\
      (match q with QName _ => strict = true -> length l = 1 | _ => True end)
  | NoMatch => (forall p, In p procs -> ~ selected det q args p) /\ q <> QOther
  | Several => strict = true /\ exists s l, q = QName s /\ exactly det procs q args l /\ 1 < length l
  | BadQuery => q = QOther
  end.
Proof. exact resolve_law. Qed.
Print Assumptions C59_resolve.

Definition ex_det (p : nat) : details :=
  match p with
  | 0 => {| de_name := "talker-1"; de_cmd := ["talker"; "--fast"; "x"] |}
  | 1 => {| de_name := "talker-2"; de_cmd := ["talker"] |}
  | _ => {| de_name := "listener-3"; de_cmd := ["--fast"; "x"; "--fast"] |}
  end.
Example C59_ex :
  resolve ex_det [2; 1; 0] QAll AnyArgs true = Procs [2; 1; 0] /\
  resolve ex_det [2; 1; 0] (QName "talker") AnyArgs false = Procs [1; 0] /\
  resolve ex_det [2; 1; 0] (QName "talker") AnyArgs true = Several /\
  resolve ex_det [2; 1; 0] (QName "talker") NoArgs true = Procs [1] /\
  resolve ex_det [2; 1; 0] (QName "") (TheArgs ["x"; "--fast"]) false = Procs [2; 0] /\
  resolve ex_det [2; 1; 0] (QName "talker") (OneArg "talker") false = NoMatch /\
  resolve ex_det [2; 1] (QAction 0) AnyArgs false = NoMatch /\ resolve ex_det [2; 1] QOther AnyArgs false = BadQuery.
Proof. vm_compute. by repeat split. Qed.

(** ** C61: exit codes *)
(** [assertExitCodes] passes exactly if processes are found, and each of them has exited, the
    last time with an allowed code. *)
Theorem C61_passes : forall det evs codes q args strict,
  assert_exit_codes det (pi_run evs) codes q args strict = Passes <->
  exists l, resolve det (first_actions (map ev_action evs)) q args strict = Procs l /\ forall a, In a l -> exited_with evs codes a.
Proof. exact exit_law. Qed.
Print Assumptions C61_passes.

(** Finding: a bad exit is forgotten when the process is started again and exits well. *)
Theorem C61_respawn_refuted : exists det evs a c, In {| ev_action := a; ev_code := Some c |} evs /\ c <> 0%Z /\
  assert_exit_codes det (pi_run evs) [0%Z] QAll AnyArgs true = Passes.
Proof.
  exists ex_det, [{| ev_action := 0; ev_code := None |}; {| ev_action := 0; ev_code := Some (-11)%Z |}; {| ev_action := 0; ev_code := None |}; {| ev_action := 0; ev_code := Some 0%Z |}], 0, (-11)%Z.
  split; [right; by left|]. by vm_compute.
Qed.
Print Assumptions C61_respawn_refuted.

Example C61_ex :
  let evs := [{| ev_action := 0; ev_code := None |}; {| ev_action := 1; ev_code := None |}; {| ev_action := 1; ev_code := Some 3%Z |}; {| ev_action := 0; ev_code := Some 0%Z |}] in
  assert_exit_codes ex_det (pi_run evs) [0; 3]%Z QAll AnyArgs true = Passes /\
  assert_exit_codes ex_det (pi_run evs) [0]%Z QAll AnyArgs true = Fails /\
  assert_exit_codes ex_det (pi_run evs) [0]%Z (QName "-1") AnyArgs true = Passes /\
  assert_exit_codes ex_det (pi_run (take 3 evs)) [0; 3]%Z QAll AnyArgs true = NoCode /\
  assert_exit_codes ex_det (pi_run evs) [0]%Z (QName "nobody") AnyArgs true = Unresolved NoMatch.
Proof. vm_compute. by repeat split. Qed.

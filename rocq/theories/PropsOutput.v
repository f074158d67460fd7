(** The properties of process output (C31, C32). *)
From Coq Require Import ssreflect.
From Verif Require Import SpecOutput ExWorld OutputFacts.

(** ** C31 *)
(** [complete t] and [rest t] are the lines and the rest of [t], and there is no other way
    to cut a text in lines. *)
Theorem C31_lines_of : forall t, lines_of t (complete t) (rest t).
Proof. exact lines_of_spec. Qed.
Print Assumptions C31_lines_of.
Theorem C31_lines_unique : forall t ls r, lines_of t ls r -> ls = complete t /\ r = rest t.
Proof. exact lines_of_unique. Qed.
Print Assumptions C31_lines_unique.

(** What a process action logs of a stream is what is expected of the text it received:
    whole lines in order, then at every exit the unterminated rest if there is one, ... *)
Theorem C31_logged : forall (w : world) a fd (s : st), reachable w s ->
  logged a fd (hist s) = expected "" false (inputs a fd (hist s)).
Proof. exact logged_expected. Qed.
Print Assumptions C31_logged.

(** ... which does not depend on how the text of one process was cut in pieces, ... *)
Theorem C31_chunking : forall o c l1 t u l2, (after o c l1).2 = false ->
  expected o c (l1 ++ InText t :: InText u :: l2) = expected o c (l1 ++ InText (t ++ u)%string :: l2).
Proof. exact expected_chunks. Qed.
Print Assumptions C31_chunking.

(** ... so that before the first exit, and at the first exit, one has the following. *)
Theorem C31_before_exit : forall (w : world) a fd (s : st), reachable w s ->
  Forall (fun i => match i with InText _ => True | InExit _ => False end) (inputs a fd (hist s)) ->
  exists r, lines_of (received (inputs a fd (hist s))) (logged a fd (hist s)) r.
Proof. exact whole_text. Qed.
Print Assumptions C31_before_exit.
Theorem C31_at_exit : forall (w : world) a fd (s : st) l c, reachable w s -> inputs a fd (hist s) = l ++ [InExit c] ->
  Forall (fun i => match i with InText _ => True | InExit _ => False end) l ->
  exists ls r, lines_of (received l) ls r /\ logged a fd (hist s) = ls ++ (if String.eqb r "" then [] else [r]).
Proof. exact whole_text_exit. Qed.
Print Assumptions C31_at_exit.

(** ** C32 *)
(** With cached_output get_stdout and get_stderr give everything received on the stream;
    C31_logged applies with and without caching. *)
Theorem C32_complete : forall (w : world) a fd (s : st), reachable w s -> is_cached a s ->
  get_output fd a s = Ok (received (inputs a fd (hist s))).
Proof. exact cached_output. Qed.
Print Assumptions C32_complete.

(** A process prints "hello" newline "wor" in three pieces, and ends; not cached, and cached. *)
Definition ex_cached (b : bool) : pcfg :=
  mkPcfg [[SText "/bin/prog"]] None (Some [SText "prog"]) None None None (BV false) None 0 b [SText "log"]
    [SText "5"] [SText "5"] false.
Definition ex_prints (b : bool) : list label :=
  ex_start (ex_cached b) ++ ex_up ++ ex_event ++
  [LOutput 0 Stdout "he"; LOutput 0 Stdout ("llo" ++ String nl "w")%string; LOutput 0 Stderr "x"; LOutput 0 Stdout "or"] ++ ex_event ++ ex_event ++ ex_event ++ ex_event.
Example C31_example :
  match exec w0 (ex_prints false) s0, exec w0 (ex_prints false ++ ex_down ++ ex_event) s0 with
  | Some s, Some s' =>
      inputs (User 1) Stdout (hist s) = [InText "he"; InText ("llo" ++ String nl "w"); InText "or"] /\
      logged (User 1) Stdout (hist s) = ["hello"] /\ logged (User 1) Stderr (hist s) = [] /\
      logged (User 1) Stdout (hist s') = ["hello"; "wor"] /\ logged (User 1) Stderr (hist s') = ["x"] /\
      inputs (User 1) Stderr (hist s') = [InText "x"; InExit false] /\ get_output Stdout (User 1) s' = Exn XRuntime
  | _, _ => False
  end.
Proof. vm_compute. by repeat split. Qed.
Example C32_example :
  match exec w0 (ex_prints true) s0, exec w0 (ex_prints true ++ ex_down ++ ex_event) s0 with
  | Some s, Some s' =>
      logged (User 1) Stdout (hist s) = ["hello"] /\ get_output Stdout (User 1) s = Ok ("hello" ++ String nl "wor")%string /\
      logged (User 1) Stdout (hist s') = ["hello"; "wor"] /\ get_output Stdout (User 1) s' = Ok ("hello" ++ String nl "wor")%string
  | _, _ => False
  end.
Proof. vm_compute. by repeat split. Qed.

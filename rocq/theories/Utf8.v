(** Model of bytes.decode() and bytes.decode(errors='replace') for UTF-8, with which the output of
    processes is read: launch/launch/actions/execute_local.py:367 and 418 (with errors='replace'),
    launch_testing/launch_testing/asserts/assert_output.py:86-90,
    asserts/assert_sequential_output.py:130, event_handlers/stdout_ready_listener.py:50 and
    tools/process.py:112-128 (strict).  Bytes and characters are numbers.  The decoder of CPython
    takes the longest beginning of a character for one error; here it is an automaton. *)
From Verif Require Export Base.
Open Scope N_scope.

(** What a first byte asks for: how many more bytes, the range of the next, its own bits. *)
Definition lead (b : N) : option (nat * N * N * N) :=
  if (0xC2 <=? b) && (b <=? 0xDF) then Some (1%nat, 0x80, 0xBF, b - 0xC0)
  else if b =? 0xE0 then Some (2%nat, 0xA0, 0xBF, 0)
  else if b =? 0xED then Some (2%nat, 0x80, 0x9F, 13)
  else if (0xE1 <=? b) && (b <=? 0xEF) then Some (2%nat, 0x80, 0xBF, b - 0xE0)
  else if b =? 0xF0 then Some (3%nat, 0x90, 0xBF, 0)
  else if b =? 0xF4 then Some (3%nat, 0x80, 0x8F, 4)
  else if (0xF1 <=? b) && (b <=? 0xF3) then Some (3%nat, 0x80, 0xBF, b - 0xF0)
  else None.
(** A character or an error. *)
Inductive uout := UChar (c : N) | UBad.
(** Between characters, or [need] bytes before the end of one. *)
Inductive ust := UStart | UIn (need : nat) (lo hi acc : N).
Definition u_first (b : N) : list uout * ust :=
  if b <? 0x80 then ([UChar b], UStart)
  else match lead b with Some (n, lo, hi, acc) => ([], UIn n lo hi acc) | None => ([UBad], UStart) end.
Definition u_step (s : ust) (b : N) : list uout * ust :=
  match s with
  | UStart => u_first b
  | UIn n lo hi acc =>
      if (lo <=? b) && (b <=? hi) then
        let acc := acc * 64 + (b - 0x80) in
        match n with
        | S (S n') => ([], UIn (S n') 0x80 0xBF acc)
        | _ => ([UChar acc], UStart)
        end
      else (UBad :: (u_first b).1, (u_first b).2)
  end.
Fixpoint u_run (s : ust) (l : list N) : list uout * ust :=
  match l with
  | [] => ([], s)
  | b :: l' => let '(o, s) := u_step s b in let '(o', s) := u_run s l' in (o ++ o', s)
  end.
(** A character that is not complete at the end is an error. *)
Definition u_all (l : list N) : list uout := let '(o, s) := u_run UStart l in o ++ match s with UStart => [] | UIn _ _ _ _ => [UBad] end.
(** decode(errors='replace') *)
Definition decode_replace (l : list N) : list N := map (fun o => match o with UChar c => c | UBad => 0xFFFD end) (u_all l).
(** decode(): [None] is UnicodeDecodeError. *)
Fixpoint u_strict (l : list uout) : option (list N) :=
  match l with
  | [] => Some []
  | UChar c :: l' => match u_strict l' with Some s => Some (c :: s) | None => None end
  | UBad :: _ => None
  end.
Definition decode_strict (l : list N) : option (list N) := u_strict (u_all l).
(** What is done with the chunks of an output in order: they are decoded one by one.  Joined:
    launch_testing/launch_testing/asserts/assert_output.py:84-92. *)
Definition decoded (chunks : list (list N)) : list N := concat (map decode_replace chunks).
Fixpoint joined (chunks : list (list N)) : option (list N) :=
  match chunks with
  | [] => Some []
  | c :: cs => match decode_strict c, joined cs with Some t, Some u => Some (t ++ u) | _, _ => None end
  end.
(** *** The text a process prints when it is ready *)
(** txt in t *)
Fixpoint at_start (txt t : list N) : bool :=
  match txt, t with
  | [], _ => true
  | a :: txt', b :: t' => (a =? b) && at_start txt' t'
  | _ :: _, [] => false
  end.
Fixpoint within (txt t : list N) : bool :=
  at_start txt t || match t with [] => false | _ :: t' => within txt t' end.
(** What a ready listener does with one event of output of its process: nothing, give its
    actions, or raise UnicodeDecodeError: launch_testing/launch_testing/event_handlers/
    stdout_ready_listener.py:49-51 with launch/launch/event_handlers/on_process_io.py:51-59. *)
Inductive heard := HNothing | HActions | HRaise.
Definition on_chunk (txt : list N) (from_stdout : bool) (bytes : list N) : heard :=
  if from_stdout then
    match decode_strict bytes with
    | Some t => if within txt t then HActions else HNothing
    | None => HRaise
    end
  else HNothing.

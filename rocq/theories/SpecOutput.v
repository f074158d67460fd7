(** Specifications used by the theorems about the output of processes (C31, C32). *)
From Verif Require Export SpecProc ProcApi.

(** A text in lines: [ls] are its newline-terminated lines without the newline, [r] is the
    unterminated rest. *)
Definition no_nl (s : string) : Prop := ~ In nl (list_ascii_of_string s).
Fixpoint unlines (ls : list string) : string :=
  match ls with [] => "" | l :: ls' => (l ++ String nl (unlines ls'))%string end.
Definition lines_of (t : string) (ls : list string) (r : string) : Prop :=
  t = (unlines ls ++ r)%string /\ Forall no_nl ls /\ no_nl r.
(** ... as a function (C31_lines_of). *)
Fixpoint pieces (s : string) : list string :=
  match s with
  | EmptyString => [EmptyString]
  | String c s' =>
      if Ascii.eqb c nl then "" :: pieces s'
      else match pieces s' with p :: l => String c p :: l | [] => [String c ""] end
  end.
Definition complete (t : string) : list string := removelast (pieces t).
Definition rest (t : string) : string := List.last (pieces t) "".

(** What a process action receives of one stream of its processes: pieces of text, and the
    end of a process ([closing]: the buffer is closed, there will be no other process). *)
Inductive input := InText (t : string) | InExit (closing : bool).
Definition inputs (a : aid) (fd : stream) (l : list obs) : list input :=
  omap (fun o => match o with
                 | OChunk b fd' t => if bool_decide (b = a /\ fd' = fd) then Some (InText t) else None
                 | OFlush b c => if bool_decide (b = a) then Some (InExit c) else None
                 | _ => None
                 end) l.
(** What it gives to the logger. *)
Definition logged (a : aid) (fd : stream) (l : list obs) : list string :=
  omap (fun o => match o with OLine b fd' x => if bool_decide (b = a /\ fd' = fd) then Some x else None | _ => None end) l.

(** What it should log: the lines of the whole text received between two exits, and at the
    exit the unterminated rest if there is one.  Text that comes after the last exit is
    logged as it comes. *)
Fixpoint expected (text : string) (closed : bool) (l : list input) : list string :=
  match l with
  | [] => complete text
  | InText t :: l' => if closed then t :: expected text closed l' else expected (text ++ t)%string closed l'
  | InExit c :: l' => complete text ++ (if String.eqb (rest text) "" then [] else [rest text]) ++ expected "" c l'
  end.
(** Everything received on the stream. *)
Fixpoint received (l : list input) : string :=
  match l with [] => "" | InText t :: l' => (t ++ received l')%string | InExit _ :: l' => received l' end.
Definition is_cached (a : aid) (s : st) : Prop := exists p, procs s !! a = Some p /\ p_cached (x_cfg p) = true.

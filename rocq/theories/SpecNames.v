(** Specifications for the names and environments of processes (C33, C34). *)
From Verif Require Export SpecProc SpecActions.

(** The events that announce a start or an end of a process of [a] describe it by [d]. *)
Definition announced_as (a : aid) (d : pdet) (s : st) : Prop :=
  In (OLife (EvStarted a d)) (hist s) \/ exists rc, In (OLife (EvExited a d rc)) (hist s).
(** The name is [n], a dash and the number [k]. *)
Definition numbered (d : pdet) (n : string) (k : Z) : Prop := d_name d = (n ++ "-" ++ str_of_Z k)%string.
Definition same_but_pid (d d' : pdet) : Prop :=
  d_name d = d_name d' /\ d_cmd d = d_cmd d' /\ d_cwd d = d_cwd d' /\ d_env d = d_env d'.
(** Some prepares, one after the other, with anything in between that does not decrease the
    counter of the module executable.py. *)
Inductive prepares (w : world) : st -> list pdet -> st -> Prop :=
| prepares_nil s : prepares w s [] s
| prepares_else s s1 ds s2 : (pcount s <= pcount s1)%Z -> prepares w s1 ds s2 -> prepares w s ds s2
| prepares_cons c s s1 d ds s2 : prepare_executable w c s = (s1, Ok d) -> prepares w s1 ds s2 ->
    prepares w s (d :: ds) s2.
(** The pairs of a list of values and names. *)
Fixpoint swapped_pairs_of (ts : list string) : list (string * string) :=
  match ts with v :: k :: ts' => (k, v) :: swapped_pairs_of ts' | _ => [] end.
(** [env_option w o dflt c c' e]: the option [o] (a list of names and values, if given) is
    evaluated, the value of each pair before its name, and gives [e]; if it is not given [e] is
    [dflt]. *)
Definition env_option (w : world) (o : option (list (list subst * list subst))) (dflt : dict string)
  (c c' : ctx) (e : dict string) : Prop :=
  match o with
  | None => e = dflt /\ c' = c
  | Some l => exists ts, evals w (texts_of_rev l) c c' ts /\ e = dict_of (swapped_pairs_of ts)
  end.

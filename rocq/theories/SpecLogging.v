(** Specifications for the theorems about logging (C53, C54). *)
From Verif Require Export Logging.

(** ** Output options *)
Inductive source := Stdout | Stderr.
Definition src_name (s : source) : string := match s with Stdout => "stdout" | Stderr => "stderr" end.
(** The logger of a process for one source. *)
Definition logger_of (pname : string) (s : source) : string := (pname ++ "-" ++ src_name s)%string.

(** The places output can go to, the file that holds them and the text of a line there. *)
Inductive place := Screen | LaunchLog | OwnLog | CombinedLog.
Definition place_sink (dir pname : string) (s : source) (p : place) : sink :=
  match p with
  | Screen => ToScreen
  | LaunchLog => ToFile dir "launch.log"
  | OwnLog => ToFile dir (pname ++ "-" ++ src_name s ++ ".log")
  | CombinedLog => ToFile dir (pname ++ ".log")
  end.
Definition place_text (p : place) (r : lrec) : string :=
  match p with LaunchLog => (lr_created r ++ " " ++ lr_msg r)%string | _ => lr_msg r end.

(** The documented meaning of a configuration (logging/__init__.py:419-457). *)
Definition listed (d : string) (ds : odest) : Prop :=
  match ds with DOne x => d = x | DMany l => In d l end.
Inductive routes : oconf -> source -> place -> Prop :=
| r_screen s : routes (OAlias "screen") s Screen
| r_log s : routes (OAlias "log") s LaunchLog
| r_log_stderr : routes (OAlias "log") Stderr Screen
| r_both_screen s : routes (OAlias "both") s Screen
| r_both_log s : routes (OAlias "both") s LaunchLog
| r_own s : routes (OAlias "own_log") s OwnLog
| r_own_combined s : routes (OAlias "own_log") s CombinedLog
| r_full s p : routes (OAlias "full") s p
| r_dict_screen l k ds s : In (k, ds) l -> k = "both" \/ k = src_name s -> listed "screen" ds -> routes (ODict l) s Screen
| r_dict_log l k ds s : In (k, ds) l -> k = "both" \/ k = src_name s -> listed "log" ds -> routes (ODict l) s LaunchLog
| r_dict_own l ds s : In (src_name s, ds) l -> listed "own_log" ds -> routes (ODict l) s OwnLog
| r_dict_combined l ds s : In ("both", ds) l -> listed "own_log" ds -> routes (ODict l) s CombinedLog.

Inductive valid : oconf -> Prop :=
| v_alias a : In a ["screen"; "log"; "both"; "own_log"; "full"] -> valid (OAlias a)
| v_dict l :
    (forall k ds, In (k, ds) l -> In k ["stdout"; "stderr"; "both"] /\ forall d, listed d ds -> In d ["screen"; "log"; "own_log"]) ->
    valid (ODict l).
(** A python dictionary has no two entries with one key. *)
Definition is_dict (c : oconf) : Prop := match c with ODict l => NoDup (map fst l) | _ => True end.

(** The sinks that a logger writes to. *)
Definition sinks (st : lstate) (logger : string) : list sink :=
  omap (fun h => hd_sink <$> ls_handlers st !! h) (handlers_of st logger).
(** [o] leaves a logger alone: it is not about that logger, and does not reset logging. *)
Definition not_about (logger : string) (o : lop) : Prop :=
  match o with
  | LLogger n => n <> logger
  | LOutput p _ => logger_of p Stdout <> logger /\ logger_of p Stderr <> logger
  | LReset => False
  | _ => True
  end.
Definition keeps_dir (o : lop) : Prop := match o with LDir _ => False | _ => True end.
(** The names of processes end with their number. *)
Definition numbered (p : string) : Prop :=
  exists q c, p = (q ++ String c "")%string /\ In c ["0"; "1"; "2"; "3"; "4"; "5"; "6"; "7"; "8"; "9"]%char.

(** ** Log directories *)
(** What the clock reads: 26 characters, from the year to the microseconds. *)
Definition is_time (t : string) : Prop := String.length t = 26 /\ starts_with "/" t = false.
(** The names that callers on one host with one log root may use. *)
Definition log_name (base host p : string) : Prop :=
  exists pid t, is_time t /\ p = candidate {| mk_base := base; mk_host := host; mk_pid := pid |} t.
Definition at_work (c : mcall) : bool := match mc_pc c with MTest _ | MMake _ => true | _ => false end.
(** A step that can happen when the callers share [base] and [host], differ in their process
    numbers or call one after the other, and nobody else uses their names. *)
Definition allowed (base host : string) (s : msys) (o : mop) : Prop :=
  match o with
  | MStart m t =>
      is_time t /\ mk_base m = base /\ mk_host m = host /\
      forall k c, ms_calls s !! k = Some c -> mk_pid (mc_maker c) = mk_pid m -> at_work c = false
  | MStep k t => is_time t
  | MOther p e => ~ log_name base host p
  end.
Fixpoint all_allowed (base host : string) (s : msys) (l : list mop) : Prop :=
  match l with
  | [] => True
  | o :: l' => allowed base host s o /\ all_allowed base host (mstep s o) l'
  end.
Definition returned (s : msys) (k : nat) (p : string) : Prop :=
  exists c, ms_calls s !! k = Some c /\ mc_pc c = MReturned p.

(** Model of the logging configuration, the output loggers of processes and the log
    directory (launch/launch/logging/__init__.py, launch/launch/logging/handlers.py). *)
From Verif Require Export Base.

(** ** Paths *)
(** os.path.join of two paths on POSIX. *)
Definition path_join (a b : string) : string :=
  if starts_with "/" b then b
  else if String.eqb a "" || ends_with "/" a then (a ++ b)%string
  else (a ++ "/" ++ b)%string.

(** logging/__init__.py:41-61 [_get_logging_directory]: [normal] stands for
    [os.path.normpath(os.path.expanduser(...))]. *)
Definition logging_directory (normal : string -> string) (env : dict string) : string :=
  let nonempty k := match env !! k with Some v => if String.eqb v "" then None else Some v | None => None end in
  normal (match nonempty "ROS_LOG_DIR" with
          | Some d => d
          | None =>
              path_join (match nonempty "ROS_HOME" with Some d => d | None => path_join "~" ".ros" end) "log"
          end).

(** ** Formatters, handlers, loggers *)
(** [logging.Formatter]: [FMsg] is [Formatter('{msg}', style='{')] and [Formatter(fmt=None)]
    (both print the message alone when it is logged without arguments, as process output is),
    [FStampMsg] is [Formatter('{created:.7f} {msg}', style='{')], [FOther f] any other format. *)
Inductive fmt := FMsg | FStampMsg | FOther (f : string).
Record lrec := { lr_name : string; lr_created : string; lr_msg : string }.
Definition render (other : string -> lrec -> string) (f : fmt) (r : lrec) : string :=
  match f with
  | FMsg => lr_msg r
  | FStampMsg => (lr_created r ++ " " ++ lr_msg r)%string
  | FOther s => other s r
  end.

(** Where a handler writes: sys.stdout, or the file [name] of the log directory [dir]. *)
Inductive sink := ToScreen | ToFile (dir name : string).
Global Instance sink_eq_dec : EqDecision sink.
Proof. solve_decision. Defined.

(** logging/handlers.py:21-51: a handler with its formatter and the formatters it uses for
    particular loggers.  Handlers are referred to by their number; a custom handler factory
    is not modelled. *)
Record hand := { hd_sink : sink; hd_fmt : fmt; hd_for : dict fmt }.

(** The [launch_config] singleton (logging/__init__.py:106-118) with the handlers of every
    logger; [ls_written] records what has been written, oldest first.  Loggers do not
    propagate (logging/__init__.py:518-528); levels are not modelled: every record passes. *)
Record lstate := {
  ls_dir : option string;
  ls_files : dict nat;
  ls_screen : option nat;
  ls_screen_fmt : fmt;
  ls_file_fmt : fmt;
  ls_handlers : list hand;
  ls_loggers : dict (list nat);
  ls_written : list (sink * string) }.

Definition with_handlers (f : list hand -> list hand) (st : lstate) : lstate :=
  {| ls_dir := ls_dir st; ls_files := ls_files st; ls_screen := ls_screen st; ls_screen_fmt := ls_screen_fmt st;
     ls_file_fmt := ls_file_fmt st; ls_handlers := f (ls_handlers st); ls_loggers := ls_loggers st;
     ls_written := ls_written st |}.
Definition with_loggers (f : dict (list nat) -> dict (list nat)) (st : lstate) : lstate :=
  {| ls_dir := ls_dir st; ls_files := ls_files st; ls_screen := ls_screen st; ls_screen_fmt := ls_screen_fmt st;
     ls_file_fmt := ls_file_fmt st; ls_handlers := ls_handlers st; ls_loggers := f (ls_loggers st);
     ls_written := ls_written st |}.
Definition with_written (f : list (sink * string) -> list (sink * string)) (st : lstate) : lstate :=
  {| ls_dir := ls_dir st; ls_files := ls_files st; ls_screen := ls_screen st; ls_screen_fmt := ls_screen_fmt st;
     ls_file_fmt := ls_file_fmt st; ls_handlers := ls_handlers st; ls_loggers := ls_loggers st;
     ls_written := f (ls_written st) |}.

(** logging/__init__.py:109-118 [LaunchConfig.reset] and 531-538 [reset]: the configuration
    starts anew and every logger loses its handlers.  What was written stays written. *)
Definition default_screen : fmt := FOther "[{levelname}] [{name}]: {msg}".
Definition default_file : fmt := FOther "{created:.7f} [{levelname}] [{name}]: {msg}".
Definition log_reset (st : lstate) : lstate :=
  {| ls_dir := None; ls_files := ∅; ls_screen := None; ls_screen_fmt := default_screen;
     ls_file_fmt := default_file; ls_handlers := ls_handlers st; ls_loggers := ∅;
     ls_written := ls_written st |}.
Definition log_start : lstate :=
  {| ls_dir := None; ls_files := ∅; ls_screen := None; ls_screen_fmt := default_screen;
     ls_file_fmt := default_file; ls_handlers := []; ls_loggers := ∅; ls_written := [] |}.

(** logging/__init__.py:133-171 [log_dir]: [made] is what [_make_unique_log_dir] returns. *)
Definition log_dir (made : string) (st : lstate) : string := default made (ls_dir st).
Definition set_dir (d : option string) (st : lstate) : lstate :=
  {| ls_dir := d; ls_files := ls_files st; ls_screen := ls_screen st; ls_screen_fmt := ls_screen_fmt st;
     ls_file_fmt := ls_file_fmt st; ls_handlers := ls_handlers st; ls_loggers := ls_loggers st;
     ls_written := ls_written st |}.

(** logging/__init__.py:248-262 [get_screen_handler]. *)
Definition get_screen_handler (st : lstate) : nat * lstate :=
  match ls_screen st with
  | Some h => (h, st)
  | None =>
      let h := length (ls_handlers st) in
      (h, {| ls_dir := ls_dir st; ls_files := ls_files st; ls_screen := Some h; ls_screen_fmt := ls_screen_fmt st;
             ls_file_fmt := ls_file_fmt st;
             ls_handlers := ls_handlers st ++ [{| hd_sink := ToScreen; hd_fmt := ls_screen_fmt st; hd_for := ∅ |}];
             ls_loggers := ls_loggers st; ls_written := ls_written st |})
  end.

(** logging/__init__.py:303-329 [get_log_file_path], [get_log_file_handler]. *)
Definition get_log_file_handler (made : string) (name : string) (st : lstate) : nat * lstate :=
  match ls_files st !! name with
  | Some h => (h, st)
  | None =>
      let h := length (ls_handlers st) in
      (h, {| ls_dir := Some (log_dir made st); ls_files := <[name := h]> (ls_files st); ls_screen := ls_screen st;
             ls_screen_fmt := ls_screen_fmt st; ls_file_fmt := ls_file_fmt st;
             ls_handlers := ls_handlers st ++ [{| hd_sink := ToFile (log_dir made st) name; hd_fmt := ls_file_fmt st; hd_for := ∅ |}];
             ls_loggers := ls_loggers st; ls_written := ls_written st |})
  end.

(** [logger.handlers], [logger.addHandler], [handler.setFormatter], [handler.setFormatterFor]. *)
Definition handlers_of (st : lstate) (logger : string) : list nat := default [] (ls_loggers st !! logger).
Definition add_handler (logger : string) (h : nat) (st : lstate) : lstate :=
  with_loggers (fun m => <[logger := handlers_of st logger ++ [h]]> m) st.
Definition set_fmt (f : fmt) (h : nat) (st : lstate) : lstate :=
  with_handlers (alter (fun x => {| hd_sink := hd_sink x; hd_fmt := f; hd_for := hd_for x |}) h) st.
Definition set_fmt_for (logger : string) (f : fmt) (h : nat) (st : lstate) : lstate :=
  with_handlers (alter (fun x => {| hd_sink := hd_sink x; hd_fmt := hd_fmt x; hd_for := <[logger := f]> (hd_for x) |}) h) st.
Definition is_in (h : nat) (l : list nat) : bool := existsb (Nat.eqb h) l.

(** logging/__init__.py:344-353 [get_logger] ([launch.log] is the launch main log file). *)
Definition get_logger (made : string) (logger : string) (st : lstate) : lstate :=
  let '(h, st) := get_screen_handler st in
  let st := if is_in h (handlers_of st logger) then st else add_handler logger h st in
  let '(h, st) := get_log_file_handler made "launch.log" st in
  if is_in h (handlers_of st logger) then st else add_handler logger h st.

(** logging/__init__.py:238-246 and 293-301: changing the format reaches the handlers that
    already exist (the aliases and the style are not modelled). *)
Definition set_screen_format (f : fmt) (st : lstate) : lstate :=
  let st := {| ls_dir := ls_dir st; ls_files := ls_files st; ls_screen := ls_screen st; ls_screen_fmt := f;
               ls_file_fmt := ls_file_fmt st; ls_handlers := ls_handlers st; ls_loggers := ls_loggers st;
               ls_written := ls_written st |} in
  match ls_screen st with Some h => set_fmt f h st | None => st end.
Definition set_log_format (f : fmt) (st : lstate) : lstate :=
  let st := {| ls_dir := ls_dir st; ls_files := ls_files st; ls_screen := ls_screen st; ls_screen_fmt := ls_screen_fmt st;
               ls_file_fmt := f; ls_handlers := ls_handlers st; ls_loggers := ls_loggers st;
               ls_written := ls_written st |} in
  fold_left (fun st h => set_fmt f h st) (map snd (map_to_list (ls_files st))) st.

(** ** Output configurations *)
(** The values of a dictionary: one destination, or several. *)
Inductive odest := DOne (d : string) | DMany (ds : list string).
(** A configuration: an alias, a dictionary (in insertion order), or something else. *)
Inductive oconf := OAlias (s : string) | ODict (l : list (string * odest)) | OOther.

Record nconf := { nc_both : list string; nc_stdout : list string; nc_stderr : list string }.
Definition nc_empty : nconf := {| nc_both := []; nc_stdout := []; nc_stderr := [] |}.

(** logging/__init__.py:394-414: the loop over the dictionary. *)
Fixpoint norm_dict (l : list (string * odest)) (n : nconf) : res nconf :=
  match l with
  | [] => Ok n
  | (source, ds) :: l' =>
      if negb (existsb (String.eqb source) ["stdout"; "stderr"; "both"]) then Exn XValue
      else
        let ds := match ds with DOne d => [d] | DMany ds => ds end in
        if negb (forallb (fun d => existsb (String.eqb d) ["screen"; "log"; "own_log"]) ds) then Exn XValue
        else
          norm_dict l'
            (if String.eqb source "stdout" then {| nc_both := nc_both n; nc_stdout := ds; nc_stderr := nc_stderr n |}
             else if String.eqb source "stderr" then {| nc_both := nc_both n; nc_stdout := nc_stdout n; nc_stderr := ds |}
             else {| nc_both := ds; nc_stdout := nc_stdout n; nc_stderr := nc_stderr n |})
  end.

(** logging/__init__.py:356-416 [_normalize_output_configuration]. *)
Definition normalize (c : oconf) : res nconf :=
  match c with
  | OAlias s =>
      if String.eqb s "screen" then Ok {| nc_both := ["screen"]; nc_stdout := []; nc_stderr := [] |}
      else if String.eqb s "log" then Ok {| nc_both := ["log"]; nc_stdout := []; nc_stderr := ["screen"] |}
      else if String.eqb s "both" then Ok {| nc_both := ["log"; "screen"]; nc_stdout := []; nc_stderr := [] |}
      else if String.eqb s "own_log" then Ok {| nc_both := ["own_log"]; nc_stdout := ["own_log"]; nc_stderr := ["own_log"] |}
      else if String.eqb s "full" then Ok {| nc_both := ["screen"; "log"; "own_log"]; nc_stdout := ["own_log"]; nc_stderr := ["own_log"] |}
      else Exn XValue
  | ODict l => norm_dict l nc_empty
  | OOther => Exn XValue
  end.

(** logging/__init__.py:463-501: the body of the loop over the two sources. *)
Definition wanted (d : string) (l : list string) : bool := existsb (String.eqb d) l.
Definition out_screen (logger : string) (st : lstate) : lstate :=
  let '(h, st) := get_screen_handler st in
  if is_in h (handlers_of st logger) then st else add_handler logger h (set_fmt_for logger FMsg h st).
Definition out_launch (made logger : string) (st : lstate) : lstate :=
  let '(h, st) := get_log_file_handler made "launch.log" st in
  if is_in h (handlers_of st logger) then st else add_handler logger h (set_fmt_for logger FStampMsg h st).
Definition out_file (made logger file : string) (st : lstate) : lstate :=
  let '(h, st) := get_log_file_handler made file st in
  let st := set_fmt FMsg h st in
  if is_in h (handlers_of st logger) then st else add_handler logger h st.
Definition out_source (made pname source : string) (both own : list string) (st : lstate) : lstate :=
  let logger := (pname ++ "-" ++ source)%string in
  let st := if wanted "screen" (both ++ own) then out_screen logger st else st in
  let st := if wanted "log" (both ++ own) then out_launch made logger st else st in
  let st := if wanted "own_log" own then out_file made logger (pname ++ "-" ++ source ++ ".log") st else st in
  if wanted "own_log" both then out_file made logger (pname ++ ".log") st else st.

(** logging/__init__.py:419-507 [get_output_loggers]; the loggers are named after the process
    and the source. *)
Definition get_output_loggers (made pname : string) (c : oconf) (st : lstate) : res lstate :=
  match normalize c with
  | Ok n =>
      let st := out_source made pname "stdout" (nc_both n) (nc_stdout n) st in
      Ok (out_source made pname "stderr" (nc_both n) (nc_stderr n) st)
  | Exn e => Exn e
  | OutOfFuel => OutOfFuel
  end.

(** [logger.info(msg)]: every handler of the logger formats and writes the record.  A handler
    without a formatter for the logger uses its own (logging/handlers.py:41-45). *)
Definition hand_line (other : string -> lrec -> string) (x : hand) (r : lrec) : sink * string :=
  (hd_sink x, render other (default (hd_fmt x) (hd_for x !! lr_name r)) r).
Definition log_info (other : string -> lrec -> string) (r : lrec) (st : lstate) : lstate :=
  with_written (fun w => w ++ omap (fun h => (fun x => hand_line other x r) <$> ls_handlers st !! h) (handlers_of st (lr_name r))) st.

(** ** Histories *)
Inductive lop :=
| LLogger (name : string)
| LOutput (pname : string) (c : oconf)
| LInfo (r : lrec)
| LDir (d : option string)
| LScreenFormat (f : fmt)
| LLogFormat (f : fmt)
| LReset.
(** One call; a call that raises changes nothing.  [made] is the directory that
    [_make_unique_log_dir] would return now. *)
Definition lstep (other : string -> lrec -> string) (made : string) (o : lop) (st : lstate) : lstate :=
  match o with
  | LLogger n => get_logger made n st
  | LOutput p c => match get_output_loggers made p c st with Ok st' => st' | _ => st end
  | LInfo r => log_info other r st
  | LDir d => set_dir d st
  | LScreenFormat f => set_screen_format f st
  | LLogFormat f => set_log_format f st
  | LReset => log_reset st
  end.
Definition lrun (other : string -> lrec -> string) (l : list (string * lop)) (st : lstate) : lstate :=
  fold_left (fun st mo => lstep other (fst mo) (snd mo) st) l st.

(** ** Log directories *)
(** What exists at a path. *)
Inductive fentry := FDir | FFile | FLink (target : string).
Global Instance fentry_eq_dec : EqDecision fentry.
Proof. solve_decision. Defined.
Notation fsys := (gmap string fentry).
(** [os.path.isdir] (a link to a link is not followed). *)
Definition is_dir (fs : fsys) (p : string) : bool :=
  match fs !! p with
  | Some FDir => true
  | Some (FLink t) => bool_decide (fs !! t = Some FDir)
  | _ => false
  end.
(** [os.makedirs(p, exist_ok=True)]: FileExistsError, an OSError, if something else is there.
    The parents of [p], made on the way, are not recorded. *)
Definition makedirs (p : string) (fs : fsys) : option fsys :=
  if is_dir fs p then Some fs else match fs !! p with None => Some (<[p := FDir]> fs) | Some _ => None end.

(** logging/__init__.py:73-77: the name for a time, a host and a process. *)
Definition log_dirname (time host pid : string) : string := (time ++ "-" ++ host ++ "-" ++ pid)%string.

(** logging/__init__.py:64-82 [_make_unique_log_dir], run by one of several processes that
    share a file system: reading the clock, testing, and making the directory are separate
    steps.  A caller that finds a directory there reads the clock again. *)
Inductive mpc :=
| MTest (name : string)       (* about to test whether the directory exists *)
| MMake (name : string)       (* about to make it *)
| MReturned (name : string)
| MFailed.
Record maker := { mk_base : string; mk_host : string; mk_pid : string }.
Definition candidate (m : maker) (time : string) : string :=
  path_join (mk_base m) (log_dirname time (mk_host m) (mk_pid m)).

(** A call in progress: who makes it, and where it is. *)
Record mcall := { mc_maker : maker; mc_pc : mpc }.
Record msys := { ms_fs : fsys; ms_calls : list mcall }.
Inductive mop :=
| MStart (m : maker) (time : string)   (* a call begins and reads the clock *)
| MStep (k : nat) (time : string)      (* call [k] makes a step; [time] if it reads the clock *)
| MOther (p : string) (e : fentry).    (* another program creates something where nothing was *)
Definition set_call (k : nat) (c : mcall) (pc : mpc) (s : msys) (fs : fsys) : msys :=
  {| ms_fs := fs; ms_calls := <[k := {| mc_maker := mc_maker c; mc_pc := pc |}]> (ms_calls s) |}.
Definition mstep (s : msys) (o : mop) : msys :=
  match o with
  | MStart m time =>
      {| ms_fs := ms_fs s; ms_calls := ms_calls s ++ [{| mc_maker := m; mc_pc := MTest (candidate m time) |}] |}
  | MStep k time =>
      match ms_calls s !! k with
      | Some c =>
          match mc_pc c with
          | MTest p =>
              if is_dir (ms_fs s) p then set_call k c (MTest (candidate (mc_maker c) time)) s (ms_fs s)
              else set_call k c (MMake p) s (ms_fs s)
          | MMake p =>
              match makedirs p (ms_fs s) with
              | Some fs' => set_call k c (MReturned p) s fs'
              | None => set_call k c MFailed s (ms_fs s)
              end
          | _ => s
          end
      | None => s
      end
  | MOther p e =>
      match ms_fs s !! p with
      | None => {| ms_fs := <[p := e]> (ms_fs s); ms_calls := ms_calls s |}
      | Some _ => s
      end
  end.
Definition mrun (s : msys) (l : list mop) : msys := fold_left mstep l s.

(** The whole call by itself: [clock k] is the [k]-th reading. *)
Fixpoint make_unique (fuel : nat) (m : maker) (clock : nat -> string) (k : nat) (fs : fsys) : res (string * fsys) :=
  match fuel with
  | O => OutOfFuel
  | S fuel =>
      let p := candidate m (clock k) in
      if is_dir fs p then make_unique fuel m clock (S k) fs
      else match makedirs p fs with Some fs' => Ok (p, fs') | None => Exn XRuntime end
  end.

(** logging/__init__.py:85-100 [_renew_latest_log_dir], given [os.path.dirname log_dir]. *)
Definition renew_latest (base dir : string) (fs : fsys) : bool * fsys :=
  let latest := path_join base "latest" in
  match fs !! latest with
  | Some (FLink _) => (true, <[latest := FLink dir]> (delete latest fs))
  | Some _ => (false, fs)
  | None => (true, <[latest := FLink dir]> fs)
  end.

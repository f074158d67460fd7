(** Model of the verbosity of loggers: launch/launch/logging/__init__.py, and what it uses of python's
    logging module. *)
From Verif Require Export Base.

(** logging.DEBUG, INFO, WARNING; NOTSET is 0. *)
Definition DEBUG := 10. Definition INFO := 20. Definition WARNING := 30.
(** The level of the root logger; the other loggers by name, with their levels, and whether they are of
    class LaunchLogger, so that reset() knows them (logging/__init__.py:511-526).  The names of the root
    logger, the empty one and root, are not used for other loggers. *)
Record levels := { lv_root : nat; lv_own : dict (nat * bool) }.
(** logging.getLogger: makes a logger that is not there; since the first reset() these are of class
    LaunchLogger (537). *)
Definition get_logger (n : string) (s : levels) : levels :=
  match lv_own s !! n with
  | Some _ => s
  | None => {| lv_root := lv_root s; lv_own := <[n := (0, true)]> (lv_own s) |}
  end.
(** Logger.setLevel *)
Definition set_level (n : string) (l : nat) (s : levels) : levels :=
  let s := get_logger n s in
  {| lv_root := lv_root s; lv_own := alter (fun x => (l, x.2)) n (lv_own s) |}.
(** LaunchConfig.level, 124-131 *)
Definition set_root (l : nat) (s : levels) : levels := {| lv_root := l; lv_own := lv_own s |}.
(** reset, 529-537; LaunchConfig.reset, 109-118 *)
Definition reset (s : levels) : levels :=
  {| lv_root := INFO; lv_own := (fun x : nat * bool => if x.2 then (0, true) else x) <$> lv_own s |}.
(** LaunchService.__init__, launch_service.py:69 *)
Definition new_service (debug : bool) (s : levels) : levels := set_root (if debug then DEBUG else INFO) s.

(** The names of the loggers above a logger, nearest first: logging.Manager._fixupParents cuts at dots. *)
Fixpoint above (before : string) (rest : string) : list string :=
  match rest with
  | EmptyString => []
  | String c rest =>
      (above (before ++ String c "") rest ++ (if Ascii.eqb c "." && negb (String.eqb before "") then [before] else []))%list
  end.
(** Logger.getEffectiveLevel *)
Fixpoint first_level (s : levels) (l : list string) : nat :=
  match l with
  | [] => lv_root s
  | n :: l => match lv_own s !! n with
              | Some (S v, _) => S v
              | _ => first_level s l
              end
  end.
Definition effective (n : string) (s : levels) : nat := first_level s (n :: above "" n).
(** Logger.isEnabledFor; the handlers of launch have no levels of their own. *)
Definition enabled (n : string) (lvl : nat) (s : levels) : bool := (effective n s <=? lvl)%nat.
(** What processes print, to either stream, is logged with info(): actions/execute_local.py:390-403.
    The loggers are those of get_output_loggers, logging/__init__.py:441-508. *)
Definition output_logged (name : string) (stderr : bool) (s : levels) : bool :=
  let n := (name ++ (if stderr then "-stderr" else "-stdout"))%string in enabled n INFO (get_logger n s).

(** What a program does about it. *)
Inductive lop := Get (n : string) | SetLogger (n : string) (l : nat) | SetRoot (l : nat) | Reset | Service (debug : bool).
Definition lstep (s : levels) (o : lop) : levels :=
  match o with
  | Get n => get_logger n s
  | SetLogger n l => set_level n l s
  | SetRoot l => set_root l s
  | Reset => reset s
  | Service d => new_service d s
  end.
(** Importing launch.logging resets it (541); there may be loggers already, which are not of its class. *)
Definition import (early : dict nat) : levels := reset {| lv_root := WARNING; lv_own := (fun l => (l, false)) <$> early |}.
Definition lrun (early : dict nat) (h : list lop) : levels := fold_left lstep h (import early).

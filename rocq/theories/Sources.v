(** Model of launch_description_source.py, of
    launch_description_sources/any_launch_file_utilities.py and of the registry of parsers in
    frontend/parser.py.  (The choice among parsers is in Frontend.v.) *)
From Verif Require Export Base.

(** ** A source of a launch description *)
(** launch_description_source.py:30-113.  [D]: descriptions.  [expand c]: what performing the
    substitutions of the location gives in a context [c]; [text]: its substitutions as text;
    [load n l]: what loading [l] gives the [n]-th time ([None]: the file gives no description).
    Contexts are numbered. *)
Record source (D : Type) := { so_desc : option D; so_loc : option string; so_loads : list (bool * string) }.
Arguments so_desc {D}. Arguments so_loc {D}. Arguments so_loads {D}. Arguments Build_source {D}.
Section source.
Context {D : Type} (expand : nat -> res string) (text : string) (load : nat -> string -> res (option D)).
(** Loading, with what was loaded before: by a get (true) or without a context. *)
Definition do_load (by_get : bool) (loc : string) (s : source D) : source D * res (option D) :=
  ({| so_desc := so_desc s; so_loc := so_loc s; so_loads := so_loads s ++ [(by_get, loc)] |}, load (length (so_loads s)) loc).
(** 78-86 [get_launch_description] *)
Definition so_get (c : nat) (s : source D) : source D * res (option D) :=
  let with_loc (loc : string) (s : source D) :=
    match so_desc s with
    | Some d => (s, Ok (Some d))
    | None =>
        let '(s, r) := do_load true loc s in
        match r with
        | Ok d => ({| so_desc := d; so_loc := so_loc s; so_loads := so_loads s |}, Ok d)
        | _ => (s, r)
        end
    end in
  match so_loc s with
  | Some loc => with_loc loc s
  | None =>
      match expand c with
      | Ok loc => with_loc loc {| so_desc := so_desc s; so_loc := Some loc; so_loads := so_loads s |}
      | Exn e => (s, Exn e)
      | OutOfFuel => (s, OutOfFuel)
      end
  end.
(** 54-76 [try_get_launch_description_without_context]; [c] is the new context. *)
Definition so_try (c : nat) (s : source D) : source D * option D :=
  match so_desc s with
  | Some d => (s, Some d)
  | None =>
      match expand c with
      | Ok loc => let '(s, r) := do_load false loc s in (s, match r with Ok d => d | _ => None end)
      | _ => (s, None)
      end
  end.
(** 96-108 [location] *)
Definition so_location (s : source D) : string := match so_loc s with Some l => l | None => text end.
(** Uses of a source, and what they give. *)
Inductive souse := UGet (c : nat) | UTry (c : nat) | ULocation.
Inductive soresult := RGet (r : res (option D)) | RTry (d : option D) | RLocation (l : string).
Definition so_use (u : souse) (s : source D) : source D * soresult :=
  match u with
  | UGet c => let '(s, r) := so_get c s in (s, RGet r)
  | UTry c => let '(s, r) := so_try c s in (s, RTry r)
  | ULocation => (s, RLocation (so_location s))
  end.
Fixpoint so_uses (us : list souse) (s : source D) : source D * list soresult :=
  match us with
  | [] => (s, [])
  | u :: us' => let '(s, r) := so_use u s in let '(s, rs) := so_uses us' s in (s, r :: rs)
  end.
End source.
Arguments RGet {D}. Arguments RTry {D}. Arguments RLocation {D}.
(** 33-52: a new source. *)
Definition so_new {D} (d : option D) : source D := {| so_desc := d; so_loc := None; so_loads := [] |}.

(** ** Extensions *)
(** os.path.splitext on POSIX: the last component; its leading dots; what follows its last dot. *)
Fixpoint last_part (acc s : string) : string :=
  match s with
  | EmptyString => acc
  | String c r => if Ascii.eqb c "/"%char then last_part "" r else last_part (acc ++ String c "") r
  end.
Fixpoint skip_dots (s : string) : string :=
  match s with String c r => if Ascii.eqb c "."%char then skip_dots r else s | EmptyString => s end.
Fixpoint last_dot (s : string) : option string :=
  match s with
  | EmptyString => None
  | String c r => match last_dot r with Some e => Some e | None => if Ascii.eqb c "."%char then Some r else None end
  end.
(** The extension without its dot, [""] if there is none or nothing follows the dot. *)
Definition extension (name : string) : string :=
  match last_dot (skip_dots (last_part "" name)) with Some e => e | None => "" end.

(** ** Any launch file *)
(** any_launch_file_utilities.py:29-61.  What a loader gives: a description, an Exception, or
    another exception (KeyboardInterrupt, SystemExit), which is not caught.  [valid]:
    Parser.is_filename_valid.  The errors are those of InvalidLaunchFileError. *)
Inductive loaded (D E : Type) := LDone (d : D) | LError (e : E) | LExit (e : E).
Arguments LDone {D E}. Arguments LError {D E}. Arguments LExit {D E}.
Inductive any_out (D E : Type) := ADone (d : D) | AInvalid (ext : string) (errors : list E) | AExit (e : E).
Arguments ADone {D E}. Arguments AInvalid {D E}. Arguments AExit {D E}.
Inductive loader := LPython | LFrontend.
Section any.
Context {D E : Type} (run : loader -> loaded D E) (valid : bool).
(** Which loaders were called, and the outcome. *)
Fixpoint try_loaders (ext : string) (l : list loader) (errors : list E) : list loader * any_out D E :=
  match l with
  | [] => ([], AInvalid ext errors)
  | x :: l' =>
      match run x with
      | LDone d => ([x], ADone d)
      | LError e => let '(t, r) := try_loaders ext l' (errors ++ [e]) in (x :: t, r)
      | LExit e => ([x], AExit e)
      end
  end.
Definition any_load (path : string) : list loader * any_out D E :=
  let ext := extension (last_part "" path) in
  if String.eqb ext "py" then try_loaders ext [LPython; LFrontend] []
  else try_loaders (if valid then ext else "") [LFrontend; LPython] [].
End any.
(** invalid_launch_file_error.py:21-40: the errors the message tells, and the cause. *)
Definition told {E} (ext : string) (errors : list E) : list E := if String.eqb ext "" then [] else errors.

(** ** The registry of parsers *)
(** parser.py:85-102: an entry point gives a parser or fails, with a warning; the dictionary is
    sorted by name.  Strings are compared by their characters. *)
Section registry.
Context {P : Type}.
Fixpoint reg_set (k : string) (v : P) (l : list (string * P)) : list (string * P) :=
  match l with
  | [] => [(k, v)]
  | (k', v') :: l' => if String.eqb k k' then (k', v) :: l' else (k', v') :: reg_set k v l'
  end.
Fixpoint reg_insert (x : string * P) (l : list (string * P)) : list (string * P) :=
  match l with [] => [x] | y :: l' => if String.leb (fst x) (fst y) then x :: l else y :: reg_insert x l' end.
Definition reg_sort (l : list (string * P)) : list (string * P) := fold_right reg_insert [] l.
Definition registry (entry_points : list (string * option P)) : list (string * P) :=
  reg_sort (fold_left (fun l e => match snd e with Some p => reg_set (fst e) p l | None => l end) entry_points []).
End registry.

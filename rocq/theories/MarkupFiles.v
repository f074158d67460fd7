(** Model of how markup launch files are opened, read and closed (launch/launch/frontend/parser.py:
    217-263, launch_yaml/launch_yaml/parser.py:33-55) and of the launch description sources for them
    (launch/launch/launch_description_sources/frontend_launch_description_source.py,
    frontend_launch_file_utilities.py, xml_launch_description_source.py and
    yaml_launch_description_source.py in launch_xml and launch_yaml). *)
From Verif Require Export Frontend.

(** What is done to a file: it is opened, a parser reads it from a position, it is rewound, it is
    closed. *)
Inductive fop := FOpen | FRead (parser pos : nat) | FSeek | FClose.
(** What is given to load: a name, of a file that can be opened or not, or a file object with its
    name, its position, and whether it can be rewound. *)
Inductive fileref := ByName (name : string) (there : bool) | ByObject (name : string) (pos : nat) (seekable : bool).
(** The exceptions of open() and seek() *)
Definition not_opened {A} : res A := Exn (XUser 0).
Definition not_rewound {A} : res A := Exn XValue.                 (* io.UnsupportedOperation *)
Section markup.
Context {R D : Type} (ps : list (fparser R)) (describe : R -> res D).
(** parser.py:248-254: a failing parser is followed by seek(0), whose exception is not caught. *)
Fixpoint read_each (l : list (fparser R)) (pos : nat) (seekable : bool) : list fop * res R :=
  match l with
  | [] => ([], Exn XRuntime)
  | p :: l' =>
      match fp_load p pos with
      | Ok r => ([FRead (fp_id p) pos], Ok r)
      | Exn _ => if seekable then let '(a, r) := read_each l' 0 seekable in (FRead (fp_id p) pos :: FSeek :: a, r)
                 else ([FRead (fp_id p) pos], not_rewound)
      | OutOfFuel => ([FRead (fp_id p) pos], OutOfFuel)
      end
  end.
(** parser.py:217-263 [load] of the base class *)
Definition base_load (f : fileref) : list fop * res R :=
  match f with
  | ByName n false => ([], not_opened)
  | ByName n true => let '(a, r) := read_each (implementations ps n) 0 true in (FOpen :: a ++ [FClose], r)
  | ByObject n pos sk => read_each (implementations ps n) pos sk
  end.
(** The load of one parser: launch_yaml/parser.py:33-55; ElementTree.parse does the same. *)
Definition own_load (p : fparser R) (f : fileref) : list fop * res R :=
  match f with
  | ByName n false => ([], not_opened)
  | ByName n true => ([FOpen; FRead (fp_id p) 0; FClose], fp_load p 0)
  | ByObject n pos _ => ([FRead (fp_id p) pos], fp_load p pos)
  end.
(** frontend_launch_file_utilities.py:27-35; the parser is the base class or another. *)
Definition frontend_description (parser : option (fparser R)) (f : fileref) : list fop * res D :=
  let '(a, r) := match parser with None => base_load f | Some p => own_load p f end in
  (a, match r with Ok x => describe x | Exn e => Exn e | OutOfFuel => OutOfFuel end).
(** frontend_launch_description_source.py:31-59: line 55 stores the base class, whatever was given. *)
Definition frontend_source (given : option (fparser R)) (path : string) (there : bool) : list fop * res D :=
  let stored := match given with Some _ => None | None => None end in
  frontend_description stored (ByName path there).
(** xml_launch_description_source.py:26-44 and yaml_launch_description_source.py:26-45, with the
    parser of their package *)
Definition format_source (p : fparser R) (path : string) (there : bool) : list fop * res D := frontend_source (Some p) path there.
End markup.

(** Specification for the theorems about the text shown for a launch description (C83). *)
From Verif Require Export Introspect.

(** What is shown for an entity itself. *)
Definition own_line (e : ient) : utext :=
  match e with
  | ILog msg => lit "LogInfo(" ++ u_join (lit " + ") msg ++ lit ")"
  | IEmit name => lit "EmitEvent(event='" ++ name ++ lit "')"
  | IExec cmd cwd env shell =>
      let subs := u_join (lit " + ") in
      lit "ExecuteProcess(cmd=[" ++ u_join (lit ", ") (map subs cmd) ++
      lit "], cwd=" ++ match cwd with None => lit "None" | Some c => lit "'" ++ subs c ++ lit "'" end ++
      lit ", env=" ++ match env with
                      | None => lit "None"
                      | Some kvs => lit "{" ++ u_join (lit ", ") (map (fun kv => subs kv.1 ++ lit ": " ++ subs kv.2) kvs) ++ lit "}"
                      end ++
      lit ", shell=" ++ (if shell then lit "True" else lit "False") ++ lit ")"
  | IRegister shown _ => lit "RegisterEventHandler('" ++ shown ++ lit "'):"
  | IAction shown => lit "Action('" ++ shown ++ lit "')"
  | IUnknown shown => lit "Unknown entity('" ++ shown ++ lit "')"
  end.
(** Everything that is shown, with its depth: each entity before what belongs to it, the handler
    one deeper than its registration, the entities of the handler one deeper again. *)
Fixpoint listing (d : nat) (e : ient) : list (nat * utext) :=
  (d, own_line e) :: match e with IRegister _ h => listing_handler (S d) h | _ => [] end
with listing_handler (d : nat) (h : ihand) : list (nat * utext) :=
  match h with
  | IDescribed description entities => (d, description) :: concat (map (listing (S d)) entities)
  | IOpaque id => [(d, lit "EventHandler('" ++ id ++ lit "')")]
  end.
(** How it is drawn: four characters for each level, then the branch, then the text.  The stem at
    the very left is left out in the last line; a branch goes on if the next line is not shallower. *)
Definition stem (d : nat) (last : bool) : utext :=
  match d with O => [] | S _ => (if last then u_space else u_bar) :: repeat u_space (4 * d - 1) end.
Fixpoint drawn (l : list (nat * utext)) : list utext :=
  match l with
  | [] => []
  | (d, t) :: l' =>
      let last := match l' with [] => true | _ => false end in
      let more := match l' with [] => false | (d', _) :: _ => Nat.leb d d' end in
      (stem d last ++ [if more then u_tee else u_corner; u_dash; u_dash; u_space] ++ t) :: drawn l'
  end.
(** Descriptions of handlers begin with a character that is not white space. *)
Inductive described : ient -> Prop :=
| de_other e : (forall shown h, e <> IRegister shown h) -> described e
| de_opaque shown id : described (IRegister shown (IOpaque id))
| de_handler shown c t entities : u_isspace c = false -> Forall described entities -> described (IRegister shown (IDescribed (c :: t) entities)).

(** Model of launch/launch/launch_introspector.py: the text shown for a launch description.
    Text is a list of code points, as in python. *)
From Verif Require Export Base.

Definition utext := list N.
(** The characters of the tree: ' ', '│', '└', '├', '─'. *)
Definition u_space : N := 32%N.
Definition u_bar : N := 9474%N.
Definition u_corner : N := 9492%N.
Definition u_tee : N := 9500%N.
Definition u_dash : N := 9472%N.
(** str.isspace on a code point, as used by str.lstrip. *)
Definition u_isspace (c : N) : bool :=
  ((9 <=? c) && (c <=? 13) || (28 <=? c) && (c <=? 32) || (8192 <=? c) && (c <=? 8202) || existsb (N.eqb c) [133; 160; 5760; 8232; 8233; 8239; 8287; 12288])%N.
(** str.lstrip *)
Fixpoint u_lstrip (s : utext) : utext :=
  match s with c :: s' => if u_isspace c then u_lstrip s' else s | [] => [] end.
(** Literals of the source: their ASCII characters. *)
Definition lit (s : string) : utext := map N_of_ascii (list_ascii_of_string s).
(** [sep.join(l)] *)
Fixpoint u_join (sep : utext) (l : list utext) : utext :=
  match l with [] => [] | [x] => x | x :: l' => x ++ sep ++ u_join sep l' end.

(** Entities as the functions of the module see them.  [shown] is what str() gives for an object;
    substitutions are given by their describe(). *)
Inductive ient :=
| ILog (msg : list utext)                                              (* LogInfo *)
| IEmit (event : utext)                                                (* EmitEvent, the name of the event *)
| IExec (cmd : list (list utext)) (cwd : option (list utext)) (env : option (list (list utext * list utext))) (shell : bool)  (* ExecuteProcess *)
| IRegister (shown : utext) (h : ihand)                                (* RegisterEventHandler *)
| IAction (shown : utext)                                              (* any other Action *)
| IUnknown (shown : utext)                                             (* not an Action *)
with ihand :=
| IDescribed (description : utext) (entities : list ient)              (* describe() *)
| IOpaque (id : utext).                                                (* without describe() *)

(** 34-36 [indent] *)
Definition indent (lines : list utext) : list utext := map (fun l => lit "    " ++ l) lines.
(** 76-79 [format_substitutions] *)
Definition format_substitutions (l : list utext) : utext := u_join (lit " + ") l.
(** 103-115: the line of an ExecuteProcess *)
Definition format_exec (cmd : list (list utext)) (cwd : option (list utext)) (env : option (list (list utext * list utext))) (shell : bool) : utext :=
  lit "ExecuteProcess(cmd=[" ++ u_join (lit ", ") (map format_substitutions cmd) ++ lit "], cwd=" ++
  (match cwd with None => lit "None" | Some c => lit "'" ++ format_substitutions c ++ lit "'" end) ++ lit ", env=" ++
  (match env with
   | None => lit "None"
   | Some kvs => lit "{" ++ u_join (lit ", ") (map (fun kv => format_substitutions (fst kv) ++ lit ": " ++ format_substitutions (snd kv)) kvs) ++ lit "}"
   end) ++ lit ", shell=" ++ (if shell then lit "True" else lit "False") ++ lit ")".
(** 66-74 [format_entities], 82-97 [format_event_handler], 100-127 [format_action] *)
Fixpoint format_entity (e : ient) : list utext :=
  match e with
  | ILog msg => [lit "LogInfo(" ++ format_substitutions msg ++ lit ")"]
  | IEmit name => [lit "EmitEvent(event='" ++ name ++ lit "')"]
  | IExec cmd cwd env shell => [format_exec cmd cwd env shell]
  | IRegister shown h => (lit "RegisterEventHandler('" ++ shown ++ lit "'):") :: indent (format_event_handler h)
  | IAction shown => [lit "Action('" ++ shown ++ lit "')"]
  | IUnknown shown => [lit "Unknown entity('" ++ shown ++ lit "')"]
  end
with format_event_handler (h : ihand) : list utext :=
  match h with
  | IDescribed description entities => description :: indent (concat (map format_entity entities))
  | IOpaque id => [lit "EventHandler('" ++ id ++ lit "')"]
  end.
Definition format_entities (l : list ient) : list utext := concat (map format_entity l).

(** [c in s], [s.replace(c, d, 1)] for one character *)
Definition u_has (c : N) (s : utext) : bool := existsb (N.eqb c) s.
Fixpoint u_replace1 (c d : N) (s : utext) : utext :=
  match s with [] => [] | x :: s' => if N.eqb x c then d :: s' else x :: u_replace1 c d s' end.
Definition u_starts (p s : utext) : bool := bool_decide (firstn (length p) s = p).
(** [l[-1] = f(l[-1])] *)
Definition on_last (f : utext -> utext) (l : list utext) : list utext :=
  match rev l with [] => [] | x :: r => rev (f x :: r) end.
(** 39-63 [tree_like_indent]; [None] is IndexError.  Slicing never raises; a negative end counts
    from the end, which cannot happen, as the line begins with four blanks. *)
Fixpoint tree_lines (lines : list utext) (result : list utext) (prev : option nat) : list utext :=
  match lines with
  | [] => result
  | old :: lines' =>
      if negb (u_starts (lit "    ") old) then tree_lines lines' result prev
      else
        let line := u_bar :: skipn 1 old in
        let first := length old - length (u_lstrip old) in
        let result := match prev with
                      | Some p => on_last (fun l => if u_has u_corner l && Nat.leb p first then u_replace1 u_corner u_tee l else l) result
                      | None => result
                      end in
        tree_lines lines' (result ++ [firstn (first - 4) line ++ [u_corner; u_dash; u_dash; u_space] ++ skipn first line]) (Some first)
  end.
Definition tree_like_indent (lines : list utext) : option (list utext) :=
  match rev (tree_lines lines [] None) with
  | [] => None
  | x :: r => Some (rev ((if u_starts [u_bar] x then u_space :: skipn 1 x else x) :: r))
  end.
(** 133-140 [format_launch_description], with what str() gives for the description *)
Definition format_launch_description (shown : utext) (l : list ient) : option utext :=
  option_map (fun lines => shown ++ lit (String "010" "") ++ u_join (lit (String "010" "")) lines) (tree_like_indent (indent (format_entities l))).

(** Properties of the markup frontends: entities and parse methods (C49), choice of the
    parser (C50), escapes (C51), command lines (C52). *)
From Verif Require Import SpecSubst SpecCmdline CmdlineFacts SpecFrontend ParseMethods FrontendFacts.

(** ** C49 *)
(** Whatever the parse methods do: every element accepted as an action has had all its
    attributes and all its child elements (XML), all its keys (YAML mapping) or its list of
    children (YAML list) asked for, before it was accepted. *)
Theorem C49_accepted yaml (K A : Type) (methods : string -> option (nat -> prog K A)) construct n el hp' l r l1 g l2 :
  parse_description yaml methods construct n (new_ent el) = (hp', l, r) -> l = l1 ++ TAccepted g :: l2 ->
  exists e, elems hp' g = Some e /\ all_read l1 g e.
Proof. intros E H. exact (description_events yaml methods construct n el hp' l r l1 (TAccepted g) l2 E H). Qed.
Print Assumptions C49_accepted.
(** A description is accepted only if each child of its root was accepted. *)
Theorem C49_children yaml (K A : Type) (methods : string -> option (nat -> prog K A)) construct n el hp' l acts :
  parse_description yaml methods construct n (new_ent el) = (hp', l, Ok acts) ->
  exists hs ks, kids_of el ks /\ map (elems hp') hs = map Some ks /\ length acts = length ks /\ forall h, In h hs -> In (TAccepted h) l.
Proof. exact (description_children yaml methods construct n el hp' l acts). Qed.
Print Assumptions C49_children.
(** If a parse method returns, then the element is accepted exactly if all of it was read. *)
Theorem C49_decided yaml (K A : Type) (methods : string -> option (nat -> prog K A)) construct n el m hp1 l k :
  methods (type_name (new_ent el)) = Some m ->
  run_with yaml (parse_action yaml methods construct n) [0%nat] [new_ent el] (m 0%nat) = (hp1, l, Ok k) ->
  (all_read l 0 el -> parse_action yaml methods construct (S n) [new_ent el] 0 = (hp1, l ++ [TAccepted 0], construct k))
  /\ (~ all_read l 0 el -> exists e, parse_action yaml methods construct (S n) [new_ent el] 0 = (hp1, l, Exn e)).
Proof. exact (accept_iff yaml methods construct n el m hp1 l k). Qed.
Print Assumptions C49_decided.
(** Every answer has the type asked for and agrees with the element. *)
Theorem C49_typed yaml (K A : Type) (methods : string -> option (nat -> prog K A)) construct n el hp' l r l1 g name t opt cbs ans l2 :
  parse_description yaml methods construct n (new_ent el) = (hp', l, r) -> l = l1 ++ TAttr g name t opt cbs ans :: l2 ->
  exists e, elems hp' g = Some e /\ good_answer (elems hp') e name t opt cbs ans.
Proof. intros E H. exact (description_events yaml methods construct n el hp' l r l1 (TAttr g name t opt cbs ans) l2 E H). Qed.
Print Assumptions C49_typed.
(** A list attribute is split at its separator. *)
Theorem C49_split s sep l : py_split s sep = Ok l -> splits sep s l.
Proof. exact (py_split_spec s sep l). Qed.
Print Assumptions C49_split.

(** For the examples: texts without substitutions, yaml that reads nothing. *)
Definition ex_sub (s : string) : res (list subst) := Ok [SText s].
Definition ex_yaml (s : string) : option (pv subst) :=
  if String.eqb s "true" then Some (PBool true) else if String.eqb s "1.5" then Some (PFloat (FFin (3 # 2))) else Some (PStr s).
Definition ex_make (k : string * list (string * kval)) : res act := Ok (Act (fst k) (snd k)).
Definition ex_parse (e : elem) : list tr * res (list act) :=
  let '(_, l, r) := parse_description ex_yaml (builtin ex_sub) ex_make 9 (new_ent e) in (l, r).
Definition classes (r : res (list act)) : option (list string) := match r with Ok l => Some (map (fun a => match a with Act c _ => c end) l) | _ => None end.
Definition accepted (l : list tr) : list nat := omap (fun t => match t with TAccepted g => Some g | _ => None end) l.
Definition ex_xml : elem := ElX (XElem "launch" [] [
  XElem "group" [("scoped", "true")] [XElem "keep" [("name", "a"); ("value", "b")] []; XElem "let" [("name", "x"); ("value", "y")] []];
  XElem "executable" [("cmd", "ls -l 'a b'"); ("respawn_delay", "1.5")] [XElem "env" [("name", "A"); ("value", "B")] []]])%string.
Example C49_ex_xml : let '(l, r) := ex_parse ex_xml in
  classes r = Some ["GroupAction"; "ExecuteProcess"]%string /\ accepted l = [5; 1; 2]%nat.
Proof. vm_compute. by repeat split. Qed.
Definition ex_yml : elem := ElY "launch" (YList [
  YDict [("group", YDict [("scoped", YBool true); ("children", YList [YDict [("let", YDict [("name", YStr "x"); ("value", YStr "y")])]])])];
  YDict [("timer", YDict [("period", YFloat (FFin (3 # 2))); ("children", YList [YDict [("log", YDict [("message", YStr "hi")])]])])]])%string.
Example C49_ex_yaml : let '(l, r) := ex_parse ex_yml in
  classes r = Some ["GroupAction"; "TimerAction"]%string /\ accepted l = [3; 1; 4; 2]%nat.
Proof. vm_compute. by repeat split. Qed.
(** Unknown attributes are refused in both. *)
Example C49_ex_unknown :
  snd (ex_parse (ElX (XElem "launch" [] [XElem "let" [("name", "x"); ("value", "y"); ("typo", "z")] []])))%string = Exn XValue
  /\ snd (ex_parse (ElY "launch" (YList [YDict [("let", YDict [("name", YStr "x"); ("value", YStr "y"); ("typo", YNull)])]])))%string = Exn XValue
  /\ snd (ex_parse (ElX (XElem "launch" [] [XElem "let" [("name", "x"); ("value", "y")] [XElem "log" [("message", "m")] []]])))%string = Exn XValue.
Proof. vm_compute. by repeat split. Qed.
Example C49_ex_split : py_split "a::b:c::" "::" = Ok ["a"; "b:c"; ""]%string.
Proof. vm_compute. by repeat split. Qed.

(** The root is not checked: unknown attributes of <launch> are accepted. *)
Theorem C49_root_refuted : exists el hp' l acts,
  parse_description ex_yaml (builtin ex_sub) ex_make 9 (new_ent el) = (hp', l, Ok acts) /\ ~ all_read l 0 el.
Proof.
  eexists (ElX (XElem "launch" [("typo", "z")] []))%string, _, _, _. split; [vm_compute; reflexivity|].
  intros [H _]. destruct (H "typo"%string) as [(d & o & c & r & Hi & _)|(n & d & o & c & r & En & Hi & _)]; [by left| |].
  - destruct Hi as [[=]|[[=]|[]]].
  - destruct Hi as [[= <- _ _ _ _]|[[=]|[]]]. discriminate En.
Qed.
Print Assumptions C49_root_refuted.
(** Nor are the choices of an argument: an attribute of a nested element that nothing reads
    is accepted. *)
Theorem C49_choice_refuted : exists el hp' l acts g a v,
  parse_description ex_yaml (builtin ex_sub) ex_make 9 (new_ent el) = (hp', l, Ok acts)
  /\ elems hp' g = Some (ElX (XElem "choice" [("value", v); (a, v)] []))%string
  /\ forall d o c r, ~ In (TAttr g a d o c r) l.
Proof.
  eexists (ElX (XElem "launch" [] [XElem "arg" [("name", "n")] [XElem "choice" [("value", "v"); ("typo", "v")] []]]))%string, _, _, _, 2%nat, "typo"%string, "v"%string.
  split; [vm_compute; reflexivity|]. split; [vm_compute; reflexivity|]. intros d o c r H. repeat destruct H as [[=]|H]; done.
Qed.
Print Assumptions C49_choice_refuted.

(** ** C50 *)
Theorem C50_load (R : Type) (ps : list (fparser R)) f pos att out :
  NoDup (map fp_id ps) -> load ps f pos = (att, out) ->
  exists order, tried_order ps order f /\ NoDup (map fst att) /\
  match out with
  | Ok r => exists l1 p l2, order = l1 ++ p :: l2 /\ att = attempts (l1 ++ [p]) pos
              /\ (forall i q, l1 !! i = Some q -> fails q (pos_at pos i)) /\ fp_load p (pos_at pos (length l1)) = Ok r
  | Exn _ => att = attempts order pos /\ (forall i q, order !! i = Some q -> fails q (pos_at pos i))
  | OutOfFuel => exists p pos, In p ps /\ fp_load p pos = OutOfFuel
  end.
Proof. exact (load_spec ps f pos att out). Qed.
Print Assumptions C50_load.
Theorem C50_all (R : Type) (ps order : list (fparser R)) f : tried_order ps order f -> Permutation order ps.
Proof. exact (order_perm ps order f). Qed.
Print Assumptions C50_all.
(** A parser class registered under two names is tried twice. *)
Theorem C50_refuted : exists (ps : list (fparser unit)) f att out, load ps f 0 = (att, out) /\ ~ NoDup (map fst att).
Proof. exact dup_refuted. Qed.
Print Assumptions C50_refuted.
Definition ex_parsers : list (fparser string) :=
  [FParser 0 ["launch.xml"; "xml"; "launch"] (fun _ => Exn XValue);
   FParser 1 ["launch.yaml"; "yaml"; "yml"] (fun pos => if Nat.eqb pos 0 then Ok "tree" else Exn XValue)]%string.
Example C50_ex : NoDup (map fp_id ex_parsers)
  /\ load ex_parsers "a.launch" 3 = ([(0, 3); (1, 0)]%nat, Ok "tree"%string)
  /\ load ex_parsers "a.yaml" 3 = ([(1, 3); (0, 0)]%nat, Exn XRuntime).
Proof. split; [|vm_compute; by repeat split]. apply NoDup_cons; split; [by intros H%elem_of_list_In; destruct H as [|[]]|apply NoDup_singleton]. Qed.

(** ** C51 *)
Theorem C51_inverse t u : escaping t u -> unescape u = t.
Proof. exact (unescape_escaping t u). Qed.
Print Assumptions C51_inverse.
Theorem C51_every_text t : exists u, escaping t u.
Proof. exact (escaping_total t). Qed.
Print Assumptions C51_every_text.
Theorem C51_plain s : has_char backslash s = false -> unescape s = s.
Proof. exact (unescape_plain s). Qed.
Print Assumptions C51_plain.
Example C51_ex : unescape "a\$\\b\" = "a$\b\"%string /\ unescape (String backslash (String nl "x")) = String backslash (String nl "x").
Proof. vm_compute. by repeat split. Qed.
Example C51_ex_hyp : escaping "a$\b" "a\$\\b".
Proof. apply esc_plain; [done|]. apply esc_esc; [done|]. apply esc_esc; [done|]. apply esc_plain; [done|]. apply esc_nil. Qed.

(** ** C52 *)
(** The arguments are the sequences of items between gaps; gaps are the blanks at the ends of
    a text and between its tokens.  It fails exactly if some text cannot be split. *)
Theorem C52_arguments l r : parse_cmdline l = Ok r -> exists ps, pieces l ps /\ List.filter nonempty r = arguments [] ps.
Proof. exact (cmdline_spec l r). Qed.
Print Assumptions C52_arguments.
Theorem C52_succeeds l : (exists r, parse_cmdline l = Ok r) <-> exists ps, pieces l ps.
Proof. exact (pieces_fails l). Qed.
Print Assumptions C52_succeeds.
(** Nothing is dropped, duplicated or reordered. *)
Theorem C52_order l r : parse_cmdline l = Ok r -> expands l (concat r).
Proof. exact (cmdline_order l r). Qed.
Print Assumptions C52_order.
Theorem C52_substitutions l r : parse_cmdline l = Ok r ->
  List.filter (fun x => negb (is_text x)) (concat r) = List.filter (fun x => negb (is_text x)) l.
Proof. exact (cmdline_substitutions l r). Qed.
Print Assumptions C52_substitutions.
(** An empty argument appears exactly if the line begins with a text without tokens, and then
    only at the front. *)
Theorem C52_empty l r : parse_cmdline l = Ok r -> merged l ->
  (exists t l', l = SText t :: l' /\ shlex_split t = Ok [] /\ exists r', r = [] :: r' /\ Forall (fun a => a <> []) r')
  \/ ((forall t l', l = SText t :: l' -> shlex_split t <> Ok []) /\ Forall (fun a => a <> []) r).
Proof. exact (cmdline_empty l r). Qed.
Print Assumptions C52_empty.
(** Text without quotes and backslashes splits at white space. *)
Theorem C52_words s ws : spaced s ws -> shlex_split s = Ok ws.
Proof. exact (split_spaced s ws). Qed.
Print Assumptions C52_words.
Theorem C52_every_text s : all_chars (fun c => negb (Ascii.eqb c backslash || Ascii.eqb c squote || Ascii.eqb c dquote)) s = true -> exists ws, spaced s ws.
Proof. exact (spaced_total s). Qed.
Print Assumptions C52_every_text.
(** Quoted arguments, whatever they contain, come back as they are. *)
Theorem C52_quoted args : args <> [] -> parse_cmdline [SText (join space (map quoted args))] = Ok (map (fun a => [SText a]) args).
Proof. exact (cmdline_quoted args). Qed.
Print Assumptions C52_quoted.
Example C52_ex : parse_cmdline [SText "ls -l "; SLaunchConfig [SText "d"] None; SText "/x 'a b'"]%string
  = Ok [[SText "ls"]; [SText "-l"]; [SLaunchConfig [SText "d"] None; SText "/x"]; [SText "a b"]]%string.
Proof. vm_compute. by repeat split. Qed.
Example C52_ex_merged : merged [SText "ls "; SLaunchConfig [SText "d"] None]%string /\ merged [SText " "]%string.
Proof. vm_compute. by repeat split. Qed.
(** A blank before a substitution gives an empty argument, and quotes around one are refused. *)
Theorem C52_leading_refuted : exists l r, parse_cmdline l = Ok r /\ merged l /\ In [] r /\ List.filter (fun x => negb (is_text x)) l <> [].
Proof.
  exists [SText " "; SLaunchConfig [SText "d"] None]%string. eexists. split; [vm_compute; reflexivity|]. split; [vm_compute; by repeat split|]. split; [by left|done].
Qed.
Print Assumptions C52_leading_refuted.
Theorem C52_quotes_refuted : exists x, is_text x = false /\ parse_cmdline [SText "'"; x; SText "'"]%string = Exn XValue.
Proof. exists (SLaunchConfig [SText "d"] None)%string. by repeat split. Qed.
Print Assumptions C52_quotes_refuted.

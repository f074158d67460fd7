(** C73, C74: sources of launch descriptions; any launch file and the registry of parsers. *)
From Coq Require Import ssreflect Permutation Sorting.Sorted.
From Verif Require Import SpecSources SourcesFacts.

(** ** C73 *)
Section c73.
Context {D : Type} (expand : nat -> res string) (text : string) (load : nat -> string -> res (option D)).
Notation get := (so_get expand load).
Notation uses := (so_uses expand text load).
(** Once a get has given a description, every later use gives that one and the same location,
    in whatever context, and nothing is loaded any more. *)
Theorem C73_once c s s' d us : get c s = (s', Ok (Some d)) -> uses us s' = (s', map (answer d (so_location text s')) us).
Proof. exact (get_once expand text load c s s' d us). Qed.
(** So all gets that give one give the same. *)
Theorem C73_same us d0 s rs d d' : uses us (so_new d0) = (s, rs) -> In (RGet (Ok (Some d))) rs -> In (RGet (Ok (Some d'))) rs -> d = d'.
Proof. exact (gets_same expand text load us (so_new d0) s rs d d'). Qed.
(** The location is the text of its substitutions until a get can expand it; from then on what
    the first such get has expanded it to, and every get loads that one only. *)
Theorem C73_location us d0 s rs l : uses us (so_new d0) = (s, rs) ->
  (so_loc s = Some l <-> exists us1 c us2, us = us1 ++ UGet c :: us2 /\ expand c = Ok l /\ forall c', In (UGet c') us1 -> forall l', expand c' <> Ok l').
Proof. intros H. exact (uses_loc expand text load us (so_new d0) s rs l H eq_refl). Qed.
Theorem C73_location_text us d0 s rs : uses us (so_new d0) = (s, rs) -> (forall c l, In (UGet c) us -> expand c <> Ok l) -> so_location text s = text.
Proof.
  intros H Hno. rewrite /so_location. destruct (so_loc s) as [l|] eqn:E; [|done]. apply (C73_location us d0 s rs l H) in E as (us1 & c & us2 & -> & Hx & _). destruct (Hno c l); [|done]. apply in_app_iff. right. by left.
Qed.
Theorem C73_get_loads us d0 s rs l : uses us (so_new d0) = (s, rs) -> In l (get_loads s) -> so_loc s = Some l.
Proof. intros H. exact (uses_loc_ok expand text load us (so_new d0) s rs H ltac:(by intros ? []) l). Qed.
(** Trying without a context leaves the description and the location as they are, and loads at
    most once, from the location expanded in a new context. *)
Theorem C73_try c s s' r : so_try expand load c s = (s', r) -> so_desc s' = so_desc s /\ so_loc s' = so_loc s /\ get_loads s' = get_loads s /\
  (so_loads s' = so_loads s \/ exists l, expand c = Ok l /\ so_loads s' = so_loads s ++ [(false, l)]).
Proof. exact (try_keeps expand load c s s' r). Qed.
(** A source that is given a description never loads, and gives no other. *)
Theorem C73_given d us s rs : uses us (so_new (Some d)) = (s, rs) ->
  so_loads s = [] /\ forall r, In r rs -> match r with RGet (Ok x) => x = Some d | RTry x => x = Some d | _ => True end.
Proof. exact (given_uses expand text load d us s rs). Qed.
(** Finding: a file that gives no description is loaded again by every get. *)
Theorem C73_no_description c s l : so_desc s = None -> (forall n l, load n l = Ok None) -> (so_loc s = Some l \/ (so_loc s = None /\ expand c = Ok l)) ->
  exists s', get c s = (s', Ok None) /\ so_desc s' = None /\ so_loads s' = so_loads s ++ [(true, l)].
Proof. intros Hd HL Hl. exact (get_none expand load c s Hd HL l Hl). Qed.
End c73.
Print Assumptions C73_once.
Print Assumptions C73_same.
Print Assumptions C73_location.
Print Assumptions C73_get_loads.
Print Assumptions C73_try.
Print Assumptions C73_given.
Print Assumptions C73_no_description.
(** Finding: what is loaded is not always what the location is in the context: a get that fails
    to load fixes the location for the gets after it. *)
Definition ex_expand (c : nat) : res string := match c with 0 => Exn XSubst | 1 => Ok "one" | _ => Ok "two" end.
Definition ex_load (n : nat) (l : string) : res (option string) := if String.eqb l "two" then Ok (Some l) else Exn XRuntime.
Theorem C73_retry_refuted : ~ (forall (expand : nat -> res string) (load : nat -> string -> res (option string)) us c s rs l, so_uses expand "" load us (so_new None) = (s, rs) ->
  expand c = Ok l -> (forall n, load n l = Ok (Some l)) -> snd (so_get expand load c s) = Ok (Some l)).
Proof. intros H. discriminate (H ex_expand ex_load [UGet 0; UGet 1] 2 _ _ "two" eq_refl eq_refl (fun _ => eq_refl)). Qed.
Print Assumptions C73_retry_refuted.
Example C73_example : so_uses ex_expand "text" ex_load [UGet 0; ULocation; UTry 2; UGet 2; UGet 1; UTry 0; ULocation] (so_new None) =
  ({| so_desc := Some "two"; so_loc := Some "two"; so_loads := [(false, "two"); (true, "two")] |},
   [RGet (Exn XSubst); RLocation "text"; RTry (Some "two"); RGet (Ok (Some "two")); RGet (Ok (Some "two")); RTry (Some "two"); RLocation "two"]).
Proof. reflexivity. Qed.

(** ** C74 *)
(** A launch file is first read as Python iff its extension is py; otherwise as markup.  The
    other way is tried only if the first fails with an Exception.  If both fail the error holds
    both, in order. *)
Theorem C74_any {D E} (run : loader -> loaded D E) valid path tried out : any_load run valid path = (tried, out) ->
  exists a b ext, (has_ext path "py" /\ (a, b) = (LPython, LFrontend) /\ ext = "py" \/ ~ has_ext path "py" /\ (a, b) = (LFrontend, LPython) /\ ext = (if valid then extension path else "")) /\
  match run a with
  | LDone d => tried = [a] /\ out = ADone d
  | LExit e => tried = [a] /\ out = AExit e
  | LError e => tried = [a; b] /\ match run b with LDone d => out = ADone d | LExit e' => out = AExit e' | LError e' => out = AInvalid ext [e; e'] end
  end.
Proof.
  rewrite /any_load extension_base. pose proof (extension_law path "py" ltac:(done)) as HX. destruct (String.eqb_spec (extension path) "py") as [Ex|Ex]; rewrite two_loaders; intros H.
  - exists LPython, LFrontend, "py". split; [left; split; [by apply HX|done]|]. rewrite Ex in H. destruct (run LPython); [by injection H as <- <-| |by injection H as <- <-]. injection H as <- <-. split; [done|]. by destruct (run LFrontend).
  - exists LFrontend, LPython, (if valid then extension path else ""). split; [right; split; [by rewrite -HX|done]|]. destruct (run LFrontend); [by injection H as <- <-| |by injection H as <- <-]. injection H as <- <-. split; [done|]. by destruct (run LPython).
Qed.
Print Assumptions C74_any.
(** What the extension of a file is. *)
Theorem C74_extension name e : e <> "" -> extension name = e <-> has_ext name e.
Proof. exact (extension_law name e). Qed.
Print Assumptions C74_extension.
(** Finding: the errors are told only for known extensions. *)
Theorem C74_untold_refuted : ~ (forall (E : Type) (run : loader -> loaded unit E) valid path tried ext errors e, any_load run valid path = (tried, AInvalid ext errors) -> In e errors -> In e (told ext errors)).
Proof. intros H. apply (H nat (fun l => LError (match l with LPython => 1 | LFrontend => 2 end)) false "a.launch" _ _ _ 2 eq_refl). by left. Qed.
Print Assumptions C74_untold_refuted.
Theorem C74_told {E} (ext : string) (errors : list E) : ext <> "" -> told ext errors = errors.
Proof. intros H. rewrite /told. by destruct (String.eqb_spec ext ""). Qed.
(** The registry of parsers: sorted by names, every name once, with what the last entry point of
    that name gives that could be loaded. *)
Theorem C74_registry {P} (eps : list (string * option P)) :
  StronglySorted (fun x y : string * P => String.leb (fst x) (fst y) = true /\ fst x <> fst y) (registry eps) /\ forall n p, In (n, p) (registry eps) <-> last_entry eps n p.
Proof. exact (registry_law eps). Qed.
Print Assumptions C74_registry.
(** So the order in which parsers are tried does not depend on the order of entry points. *)
Theorem C74_registry_order {P} (eps eps' : list (string * option P)) : Permutation eps eps' -> List.NoDup (map fst eps) -> registry eps = registry eps'.
Proof. exact (registry_perm eps eps'). Qed.
Print Assumptions C74_registry_order.
Example C74_registry_example : registry [("yaml", Some 1); ("xml", None); ("xml", Some 2); ("yaml", Some 3); ("json", Some 4); ("yaml", None)] = [("json", 4); ("xml", 2); ("yaml", 3)].
Proof. reflexivity. Qed.
Example C74_extensions : map extension ["/a.b/c"; "x.launch.py"; ".py"; "..a.py"; "a.py."; "/a.py/b.xml"] = [""; "py"; ""; "py"; ""; "xml"].
Proof. reflexivity. Qed.
Example C74_python_first : any_load (D := nat) (E := nat) (fun l => match l with LPython => LError 1 | LFrontend => LDone 2 end) true "/x.xml/a.launch.py" = ([LPython; LFrontend], ADone 2).
Proof. reflexivity. Qed.

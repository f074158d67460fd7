(** Properties of individual actions (C43-C47). *)
From Verif Require Import SpecVisit SpecActions ExWorld ActionFacts ArgsFacts.

(** ** C43: variables *)
(** C43: SetLaunchConfiguration evaluates the value and the name, and then sets exactly
    that launch configuration; if evaluating raises, no variable changes. *)
Theorem C43_set_launch_configuration : forall (w : world) (fuel : nat) (a : aid) (n v : list subst) (s s' : st)
    (r : res (list entity)),
  exec_action w fuel a (ASetLC n v) s = (s', r) -> r <> OutOfFuel ->
  exists c, same_variables (cx s) c /\
   ((exists k x, evals w [v; n] (cx s) c [x; k] /\ r = Ok []
                 /\ s' = s <| cx := c <| lc := <[k := x]> (lc c) |> |>)
    \/ (exists e, evals_fail w [v; n] (cx s) c e /\ r = Exn e /\ s' = s <| cx := c |>)).
Proof. exact set_lc_law. Qed.
Print Assumptions C43_set_launch_configuration.

(** C43: SetEnvironmentVariable. *)
Theorem C43_set_environment : forall (w : world) (fuel : nat) (a : aid) (n v : list subst) (s s' : st)
    (r : res (list entity)),
  exec_action w fuel a (ASetEnv n v) s = (s', r) -> r <> OutOfFuel ->
  exists c, same_variables (cx s) c /\
   ((exists k x, evals w [v; n] (cx s) c [x; k] /\ r = Ok []
                 /\ s' = s <| cx := c <| env := <[k := x]> (env c) |> |>)
    \/ (exists e, evals_fail w [v; n] (cx s) c e /\ r = Exn e /\ s' = s <| cx := c |>)).
Proof. exact set_env_law. Qed.
Print Assumptions C43_set_environment.

(** C43: UnsetLaunchConfiguration. *)
Theorem C43_unset_launch_configuration : forall (w : world) (fuel : nat) (a : aid) (n : list subst) (s s' : st)
    (r : res (list entity)),
  exec_action w fuel a (AUnsetLC n) s = (s', r) -> r <> OutOfFuel ->
  exists c, same_variables (cx s) c /\
   ((exists k, evals w [n] (cx s) c [k] /\ r = Ok []
                 /\ s' = s <| cx := c <| lc := delete k (lc c) |> |>)
    \/ (exists e, evals_fail w [n] (cx s) c e /\ r = Exn e /\ s' = s <| cx := c |>)).
Proof. exact unset_lc_law. Qed.
Print Assumptions C43_unset_launch_configuration.

(** C43: UnsetEnvironmentVariable. *)
Theorem C43_unset_environment : forall (w : world) (fuel : nat) (a : aid) (n : list subst) (s s' : st)
    (r : res (list entity)),
  exec_action w fuel a (AUnsetEnv n) s = (s', r) -> r <> OutOfFuel ->
  exists c, same_variables (cx s) c /\
   ((exists k, evals w [n] (cx s) c [k] /\ r = Ok []
                 /\ s' = s <| cx := c <| env := delete k (env c) |> |>)
    \/ (exists e, evals_fail w [n] (cx s) c e /\ r = Exn e /\ s' = s <| cx := c |>)).
Proof. exact unset_env_law. Qed.
Print Assumptions C43_unset_environment.

(** C43: AppendEnvironmentVariable joins the old and the new value with the separator,
    in the chosen order, and just sets an unset variable. *)
Theorem C43_append_environment : forall (w : world) (fuel : nat) (a : aid) (n v : list subst) (p : bval)
    (sep : list subst) (s s' : st) (r : res (list entity)),
  exec_action w fuel a (AAppendEnv n v p sep) s = (s', r) -> r <> OutOfFuel ->
  exists c, same_variables (cx s) c /\
   ((exists c1 c2 k x front sp,
       evals w [n; v] (cx s) c1 [k; x] /\ perform_bval w p c1 = (c2, Ok front) /\ evals w [sep] c2 c [sp]
       /\ r = Ok []
       /\ s' = s <| cx := c <| env := <[k := match env (cx s) !! k with
                                             | None => x
                                             | Some old => if front then (x ++ sp ++ old)%string
                                                           else (old ++ sp ++ x)%string
                                             end]> (env c) |> |>)
    \/ (exists e, r = Exn e /\ s' = s <| cx := c |>)).
Proof. exact append_env_law. Qed.
Print Assumptions C43_append_environment.

Example C43_example :
  let s := (exec_action w0 1 (User 1) (ASetLC [SText "a"] [SEnvVar [SText "HOME"] None]) s0).1 in
  let s1 := (exec_action w0 1 (User 2) (AAppendEnv [SText "HOME"] [SLaunchConfig [SText "a"] None] (BV true) [SText ":"]) s).1 in
  let '(s2, r2) := exec_action w0 1 (User 3) (ASetLC [SText "a"] [SLaunchConfig [SText "a"] None; SText "b"]) s1 in
  let '(s3, r3) := exec_action w0 1 (User 4) (AUnsetEnv [SText "HOME"]) s2 in
  let '(s4, r4) := exec_action w0 1 (User 4) (ASetLC [SText "z"] [SLaunchConfig [SText "missing"] None]) s3 in
  lc (cx s) !! "a" = Some "/root" /\ env (cx s1) !! "HOME" = Some "/root:/root" /\
  lc (cx s2) !! "a" = Some "/rootb" /\ r2 = Ok [] /\ env (cx s3) !! "HOME" = None /\ r3 = Ok [] /\
  r4 = Exn XSubst /\ lc (cx s4) !! "z" = None.
Proof. vm_compute. repeat split. Qed.

(** ** C44: ResetLaunchConfigurations *)
(** C44: all names and values are evaluated in the configurations before the reset;
    afterwards the configurations are exactly the given ones, later ones winning. *)
Theorem C44_reset : forall (w : world) (fuel : nat) (a : aid) (l : list (list subst * list subst)) (s s' : st)
    (r : res (list entity)),
  exec_action w fuel a (AResetLC (Some l)) s = (s', r) -> r <> OutOfFuel ->
  exists c, same_variables (cx s) c /\
   ((exists ts, evals w (texts_of l) (cx s) c ts /\ r = Ok []
                /\ s' = s <| cx := c <| lc := dict_of (pairs_of ts) |> |>)
    \/ (exists e, evals_fail w (texts_of l) (cx s) c e /\ r = Exn e /\ s' = s <| cx := c |>)).
Proof. exact reset_law. Qed.
Print Assumptions C44_reset.

(** C44: without arguments, nothing is left. *)
Theorem C44_reset_all : forall (w : world) (fuel : nat) (a : aid) (s : st),
  exec_action w fuel a (AResetLC None) s = (s <| cx := (cx s) <| lc := ∅ |> |>, Ok []).
Proof. exact reset_all_law. Qed.
Print Assumptions C44_reset_all.

Example C44_example :
  let s := s0 <| cx ::= set_lc "a" "1" |> <| cx ::= set_lc "b" "2" |> in
  let '(s', r) := exec_action w0 1 (User 1) (AResetLC (Some
     [([SText "b"], [SLaunchConfig [SText "a"] None]); ([SText "c"], [SText "x"]);
      ([SText "c"], [SLaunchConfig [SText "b"] None])])) s in
  lc (cx s') !! "a" = None /\ lc (cx s') !! "b" = Some "1" /\ lc (cx s') !! "c" = Some "2" /\ r = Ok [].
Proof. vm_compute. repeat split. Qed.

(** ** C45: DeclareLaunchArgument *)
(** C45: the value afterwards is the one set before, or else the performed default; it
    raises exactly when there is no value and no default (or the default cannot be
    performed), or the value is not one of the choices. *)
Theorem C45_declare : forall (w : world) (fuel : nat) (a : aid) (n : string) (d : option (list subst))
    (ch : option (list string)) (s s' : st) (r : res (list entity)),
  exec_action w fuel a (ADeclare n d ch) s = (s', r) -> r <> OutOfFuel ->
  (exists c v, same_variables (cx s) c /\ s' = s <| cx := c <| lc := <[n := v]> (lc c) |> |>
      /\ (lc (cx s) !! n = Some v /\ c = cx s
          \/ lc (cx s) !! n = None /\ exists t, d = Some t /\ evals w [t] (cx s) c [v])
      /\ (r = Ok [] /\ (forall l, ch = Some l -> In v l)
          \/ r = Exn XRuntime /\ exists l, ch = Some l /\ ~ In v l))
  \/ (lc (cx s) !! n = None /\ d = None /\ r = Exn XRuntime /\ s' = s)
  \/ (exists t c e, lc (cx s) !! n = None /\ d = Some t /\ evals_fail w [t] (cx s) c e
        /\ r = Exn e /\ s' = s <| cx := c |>).
Proof. exact declare_law. Qed.
Print Assumptions C45_declare.

Example C45_example :
  let run d ch s := let '(s', r) := exec_action w0 1 (User 1) (ADeclare "x" d ch) s in (lc (cx s') !! "x", r) in
  run (Some [SText "dflt"]) (Some ["a"; "dflt"]) s0 = (Some "dflt", Ok []) /\
  run (Some [SText "dflt"]) None (s0 <| cx ::= set_lc "x" "given" |>) = (Some "given", Ok []) /\
  run None None s0 = (None, Exn XRuntime) /\
  run (Some [SText "a"]) (Some ["a"]) (s0 <| cx ::= set_lc "x" "given" |>) = (Some "given", Exn XRuntime).
Proof. vm_compute. repeat split. Qed.

(** ** C46: IncludeLaunchDescription *)
(** C46: a successful include returns one SetLaunchConfiguration per argument, in order,
    and then the description held by the source (loaded at most once), and every
    required argument was available.  Besides, only two context locals are set. *)
Theorem C46_include : forall (w : world) (fuel : nat) (a : aid) (src : nat)
    (args : list (list subst * list subst)) (s s' : st) (ents : list entity),
  exec_action w fuel a (AInclude src args) s = (s', Ok ents) ->
  exists loc ld c1 names listing,
    known_srcs s' src = Some ld
    /\ (forall ld0, known_srcs s src = Some ld0 -> ld = ld0)
    /\ (known_srcs s src = None -> exists n, w_load w src loc n = Ok ld)
    /\ ents = map (fun kv => anon (ASetLC kv.1 kv.2)) args ++ [ELaunch ld]
    /\ same_variables (cx s) c1
    /\ evals w (map fst args)
         (c1 <| locals := <["current_launch_file_directory" := LStr (w_launchdir w loc)]>
                          (<["current_launch_file_path" := LStr (w_abspath w loc)]> (locals c1)) |>
             <| cache := None |>) (cx s') names
    /\ get_launch_arguments w (cx s') (known_srcs s') fuel ld false = Ok listing
    /\ argument_available w (cx s') (a_heap listing) (a_decls listing) names.
Proof. exact include_ok. Qed.
Print Assumptions C46_include.

(** C46: if a required argument is not available, the include raises. *)
Theorem C46_missing : forall (w : world) (fuel : nat) (a : aid) (src : nat)
    (args : list (list subst * list subst)) (s s1 : st) (loc : string) (ld : list entity) (c : ctx)
    (names : list string) (listing : astate),
  get_launch_description w src s = (s1, Ok (loc, ld)) ->
  evals w (map fst args)
         ((cx s1) <| locals := <["current_launch_file_directory" := LStr (w_launchdir w loc)]>
                          (<["current_launch_file_path" := LStr (w_abspath w loc)]> (locals (cx s1))) |>
             <| cache := None |>) c names ->
  get_launch_arguments w c (known_srcs s1) fuel ld false = Ok listing ->
  ~ argument_available w c (a_heap listing) (a_decls listing) names ->
  exists s' e, exec_action w fuel a (AInclude src args) s = (s', Exn e) /\ (e = XRuntime \/ e = XType).
Proof. exact include_checks. Qed.
Print Assumptions C46_missing.

(** C46: visiting an include sets the arguments one after the other in the context of the
    include, each evaluated after the previous ones were set, and only then visits the
    included description in that same context. *)
Theorem C46_visit : forall (w : world) (a : aid) (src : nat) (args : list (list subst * list subst)) (s : st)
    (t : vtree) (fs : list nat) (s' : st),
  visit_run w (EAct a None (AInclude src args)) s t fs s' ->
  exists fuel s1 s2 s3 ld ts t2,
    exec_action w fuel a (AInclude src args) s1 = (s2, Ok (set_lcs args ++ [ELaunch ld]))
    /\ cx s1 = cx s /\ (cx s3 = cx s2 \/ cx s3 = (cx s2) <| queue := queue (cx s2) ++ [EvComplete a] |>)
    /\ t = VNode (EAct a None (AInclude src args)) (ts ++ [t2])
    /\ exists s4, visit_runs w (set_lcs args) s3 ts [] s4 /\ sets w args (cx s3) (cx s4)
               /\ visit_run w (ELaunch ld) s4 t2 fs s'.
Proof. exact include_visit. Qed.
Print Assumptions C46_visit.

Example C46_example :
  let inc n args := EAct (User 1) None (AInclude n args) in
  let run e := let '(s', r) := visit_all w2 20 e s0 in (lc (cx s') !! "x", r) in
  let given := [([SText "x"], [SText "v"]); ([SText "x"], [SLaunchConfig [SText "x"] None; SText "w"])] in
  run (inc 1 []) = (Some "d", Ok []) /\ run (inc 1 given) = (Some "vw", Ok []) /\
  run (inc 2 given) = (Some "vw", Ok []) /\ run (inc 2 []) = (None, Exn XRuntime).
Proof. vm_compute. repeat split. Qed.

(** C46: it is NOT true that the include raises whenever a required argument that is not
    inside any nested include is not given: here x is required by file 3 and given only
    by the include of file 4 within it.  Executing the include succeeds, and visiting
    the included description then raises. *)
Theorem C46_check_refuted : exists (w : world) (s s' : st) (ents : list entity) (listing : astate) (ld : list entity) (d : decl),
  exec_action w 20 (User 1) (AInclude 3 []) s = (s', Ok ents) /\
  ents = [ELaunch ld] /\ get_launch_arguments w (cx s') (known_srcs s') 20 ld false = Ok listing /\
  In d (a_decls listing) /\ required d = true /\ dl_nested d = None /\
  (visit_all w 20 (ELaunch ld) s').2 = Exn XRuntime.
Proof.
  set (s1 := (exec_action w2 20 (User 1) (AInclude 3 []) s0).1).
  set (ld := match w_load w2 3 "" 0 with Ok l => l | _ => [] end).
  set (a := match get_launch_arguments w2 (cx s1) (known_srcs s1) 20 ld false with Ok a => a | _ => mkA [] [] end).
  exists w2, s0, s1, [ELaunch ld], a, ld, (mkDecl "x" None None false None).
  split; [vm_compute; reflexivity|]. split; [reflexivity|]. split; [vm_compute; reflexivity|].
  split; [vm_compute; auto|]. split; [reflexivity|]. split; [reflexivity|]. vm_compute. reflexivity.
Qed.
Print Assumptions C46_check_refuted.

(** ** C47: listing the launch arguments *)
(** C47: the arguments listed are the first declarations, for each name, among those met
    when walking depth first through the description. *)
Theorem C47_listing : forall (w : world) (c : ctx) (known : nat -> option (list entity)) (fuel : nat)
    (l : list entity) (b : bool) (a : astate),
  get_launch_arguments w c known fuel l b = Ok a ->
  exists ds, declared w c known b l ds
    /\ NoDup (map dl_name (a_decls a))
    /\ (forall n, In n (map dl_name (a_decls a)) <-> In n (map li_name ds))
    /\ (forall d, In d (map listed_of (a_decls a)) <->
          exists before after, ds = before ++ d :: after /\ ~ In (li_name d) (map li_name before)).
Proof. exact listing_facts. Qed.
Print Assumptions C47_listing.

(** C47: ... in the order of the walk; and whenever the walk itself is possible (no entity
    refuses to describe its sub-entities) the listing succeeds. *)
Theorem C47_listing_order : forall (w : world) (c : ctx) (known : nat -> option (list entity)) (b : bool)
    (l : list entity) (ds : list listed),
  declared w c known b l ds ->
  exists n, forall fuel, (n <= fuel)%nat -> exists a, get_launch_arguments w c known fuel l b = Ok a
    /\ map listed_of (a_decls a) = first_entries [] ds.
Proof. exact listing_complete. Qed.
Print Assumptions C47_listing_order.

Example C47_example :
  let decl x := EAct (User 1) None (ADeclare x (Some [SText x]) None) in
  let l := [decl "a"; EAct (User 2) (Some (CIf [SText "true"])) (AGroup false true [] [decl "b"; decl "a"]);
            EAct (User 3) None (AInclude 1 []); ELaunch [decl "c"; EAct (User 4) None (AResetLC None); decl "hidden"];
            EAct (User 5) None (ATimer (FV (FFin 1)) [decl "late"] (BV true)); decl "b"] in
  match get_launch_arguments w2 c0 (fun _ => None) 10 l false with
  | Ok a => map (fun d => (dl_name d, dl_cond d)) (a_decls a)
            = [("a", false); ("b", true); ("x", false); ("c", false); ("late", true)]
  | _ => False
  end.
Proof. vm_compute. reflexivity. Qed.

(** C47: listing is NOT always possible: a description that registers an event handler
    made with a single entity runs, but its arguments cannot be listed. *)
Theorem C47_handler_refuted : exists (w : world) (c : ctx) (l : list entity) (s s' : st),
  (forall fuel, (3 <= fuel)%nat -> get_launch_arguments w c (fun _ => None) fuel l false = Exn XType) /\
  visit_all w 5 (ELaunch l) s = (s', Ok []).
Proof.
  exists w0, c0, [EAct (User 1) None (ARegister (MkH (User 2) (MFun 1) false (HEntity (ELaunch []))))], s0.
  eexists. split; [|reflexivity]. intros [|[|[|fuel]]] H; [lia..|reflexivity].
Qed.
Print Assumptions C47_handler_refuted.

(** C96: what the arguments shown for a launch description mean for running it. *)
From Verif Require Import SpecNeeded ExWorld NeededFacts.

(** C96: an argument that is listed without a default value has to be given, if nothing but its
    declarations, which are under no condition, gives it a value: the description cannot be visited to
    the end while it has none.  (Names that begin with anon can get one from AnonName.) *)
Theorem C96_required : forall (w : world) (c : ctx) (known : nat -> option (list entity)) (lfuel : nat) (l : list entity) (a : astate)
    (n : string) (d : decl) (fuel : nat) (s s' : st) fs,
  get_launch_arguments w c known lfuel l false = Ok a -> (forall m, n <> ("anon" ++ m)%string) -> Forall (undisputed n) l ->
  In d (a_decls a) -> dl_name d = n -> dl_default d = None -> lc (cx s) !! n = None ->
  visit_all w fuel (ELaunch l) s <> (s', Ok fs).
Proof. exact required_fails. Qed.
Print Assumptions C96_required.

(** C96: giving every argument that is listed is enough, as long as nothing in the description takes
    launch configurations away: should the visit raise at the declaration of an argument, then the
    argument had a value (so it is its choices, or a condition, that raised). *)
Theorem C96_enough : forall (w : world) (c : ctx) (known : nat -> option (list entity)) (lfuel : nat) (b : bool) (l : list entity) (a : astate)
    (s : st) vs x (s' : st) i k n d ch,
  get_launch_arguments w c known lfuel l b = Ok a -> Forall calm l ->
  (forall m, In m (map dl_name (a_decls a)) -> is_Some (lc (cx s) !! m)) ->
  visit_fails w (ELaunch l) s (vs ++ [EAct i k (ADeclare n d ch)]) x s' -> is_Some (lc (cx s') !! n).
Proof. exact given_enough. Qed.
Print Assumptions C96_enough.

(** C96: the listing names the arguments, with their default values and choices, that are found by
    following the description, and an argument that is marked as conditional is declared in some cases
    only ... *)
Theorem C96_marks : forall (w : world) (c : ctx) (known : nat -> option (list entity)) (lfuel : nat) (l : list entity) (b : bool) (a : astate),
  get_launch_arguments w c known lfuel l b = Ok a ->
  exists ds, walk_under (always w c known) (sometimes w c known) b l ds /\
    Forall2 says_less (map listed_of (a_decls a)) (first_entries [] ds).
Proof. exact marks. Qed.
Print Assumptions C96_marks.

Definition needs_x : entity := EAct (User 3) None (ADeclare "x" None None).
Definition nested : list entity :=
  [EAct (User 1) (Some (CIf [SText "false"])) (AGroup true true [] [EAct (User 2) None (AGroup true true [] [needs_x])])].
Definition w3 (l : list entity) : world := mkWorld
  (w_yaml w0) (w_sfun w0) (w_rand w0) (w_cond w0) (w_match w0) (w_tgt w0) (w_pmatch w0) (w_fun w0)
  (fun _ _ _ => Ok l) (w_loc w0) (w_abspath w0) (w_launchdir w0) (w_shlex w0) (w_rematch w0) (w_output_ok w0).
(** ... but it is NOT true that what is not marked is declared in all cases: the mark is lost in a
    group within a conditional group.  Such an argument is taken for a required one: a description
    that can be visited without it cannot be included without it. *)
Theorem C96_nested_refuted : exists (w : world) (l : list entity) (a : astate) (d : decl) (s s1 s2 : st),
  get_launch_arguments w (cx s) (known_srcs s) 20 l false = Ok a /\ In d (a_decls a) /\ required d = true /\
  lc (cx s) !! dl_name d = None /\ visit_all w 20 (ELaunch l) s = (s1, Ok []) /\
  (forall src loc k, w_load w src loc k = Ok l) /\ visit_all w 20 (EAct (User 9) None (AInclude 1 [])) s = (s2, Exn XRuntime).
Proof.
  exists (w3 nested), nested, (mkA [] [mkDecl "x" None None false None]), (mkDecl "x" None None false None), s0. do 2 eexists.
  split; [vm_compute; reflexivity|]. split; [left; reflexivity|]. split; [reflexivity|]. split; [vm_compute; reflexivity|].
  split; [vm_compute; reflexivity|]. split; [reflexivity|]. vm_compute. reflexivity.
Qed.
Print Assumptions C96_nested_refuted.

(** C96: it is NOT true that an argument that is listed with a default value need not be given: only
    the first declaration is listed, and what it sets in a scoped group is gone after it. *)
Theorem C96_default_refuted : exists (w : world) (l : list entity) (a : astate) (s s' : st),
  get_launch_arguments w (cx s) (known_srcs s) 20 l false = Ok a /\
  (forall d, In d (a_decls a) -> dl_default d <> None /\ dl_cond d = false) /\ Forall calm l /\
  visit_all w 20 (ELaunch l) s = (s', Exn XRuntime).
Proof.
  exists w0, [EAct (User 1) None (AGroup true true [] [EAct (User 2) None (ADeclare "x" (Some [SText "d"]) None)]); needs_x],
    (mkA [] [mkDecl "x" (Some [SText "d"]) None false None]), s0. eexists.
  split; [vm_compute; reflexivity|]. split; [intros d [<-|[]]; split; [discriminate|reflexivity]|].
  split; [constructor; [apply ca_group; [right; reflexivity|repeat constructor]|repeat constructor]|]. vm_compute. reflexivity.
Qed.
Print Assumptions C96_default_refuted.

(** The hypotheses can be met: a description that needs x, in a group after other things. *)
Definition plain : list entity :=
  [EAct (User 4) None (ADeclare "y" (Some [SText "d"]) None); EAct (User 5) (Some (CIf [SLaunchConfig [SText "y"] None])) (ASetLC [SText "z"] [SText "1"]);
   ELaunch [EAct (User 6) None (AGroup true true [] [EAct (User 7) None (ALog [SText "here"]); needs_x])]].
Example C96_example :
  let given := s0 <| cx ::= set_lc "y" "true" |> in
  let chosen := [EAct (User 8) None (ADeclare "x" None (Some ["a"; "b"]))] in
  (exists a d, get_launch_arguments w0 (cx given) (fun _ => None) 20 plain false = Ok a /\ In d (a_decls a) /\ dl_name d = "x" /\ dl_default d = None) /\
  Forall (undisputed "x") plain /\ (forall m, "x" <> ("anon" ++ m)%string) /\ lc (cx given) !! "x" = None /\
  (visit_all w0 20 (ELaunch plain) given).2 = Exn XRuntime /\
  (visit_all w0 20 (ELaunch plain) (given <| cx ::= set_lc "x" "1" |>)).2 = Ok [] /\
  Forall calm plain /\ Forall calm chosen /\
  exists vs s', visit_fails w0 (ELaunch chosen) (given <| cx ::= set_lc "x" "c" |>) (vs ++ chosen) XRuntime s'.
Proof.
  split. { eexists _, (mkDecl "x" None None false None). split; [vm_compute; reflexivity|]. split; [right; left; reflexivity|]. split; reflexivity. }
  split. { constructor; [apply un_other; constructor; discriminate|]. constructor; [apply un_other; constructor; discriminate|]. constructor; [|constructor].
    apply un_launch. constructor; [|constructor]. apply un_group; [auto|]. constructor; [apply un_other; constructor|]. constructor; [apply un_declare|constructor]. }
  split; [discriminate|]. split; [vm_compute; reflexivity|]. split; [vm_compute; reflexivity|]. split; [vm_compute; reflexivity|].
  split. { constructor; [constructor|]. constructor; [constructor|]. constructor; [|constructor]. apply ca_launch. constructor; [|constructor].
    apply ca_group; [right; reflexivity|repeat constructor]. }
  split; [repeat constructor|].
  exists [ELaunch [EAct (User 8) None (ADeclare "x" None (Some ["a"; "b"]))]]. eexists.
  eapply (vf_below _ 0 _ _ [] _ [] _ [] []); [reflexivity|constructor|]. simpl. apply (vf_here _ 0). vm_compute. reflexivity.
Qed.

(** The properties of the constructor of DeclareLaunchArgument (C94). *)
From Coq Require Import ssreflect.
From Verif Require Import SpecDeclareArg DeclareArgFacts ExWorld.

(** ** C94 *)
(** Refused are an empty list of choices, a text as default that is not one of the choices, an
    iterable that is not a list if there are choices, and iterables that have something else than
    texts and substitutions; nothing else. *)
Theorem C94_accepted : forall str n d desc ch,
  (exists a t, declare_arg str n d desc ch = Ok (a, t)) <-> good_default d /\ good_choices d ch.
Proof. exact accepted_law. Qed.
Print Assumptions C94_accepted.
(** An argument with a text as default that was accepted never fails for lack of a value: if none is
    given it is executed with success, in every state, and the value is the default. *)
Theorem C94_default : forall str n t desc ch a x (w : world) fuel i (s : st),
  declare_arg str n (DV_text t) desc ch = Ok (a, x) -> lc (cx s) !! n = None ->
  exists s' : st, exec_action w fuel i a s = (s', Ok []) /\ lc (cx s') !! n = Some t /\ s' = s <| cx ::= set_lc n t |>.
Proof. exact default_law. Qed.
Print Assumptions C94_default.
(** It is not true of a default given as list (as the markup frontends do): it is accepted even if it
    is a text that is not one of the choices, and fails when it is executed. *)
Theorem C94_list_refuted : forall str n t desc l, l <> [] -> ~ In t l ->
  exists a x, declare_arg str n (DV_list [DE_text t]) desc (Some l) = Ok (a, x) /\
    forall (w : world) fuel i (s : st), lc (cx s) !! n = None -> exists s', exec_action w fuel i a s = (s', Exn XRuntime).
Proof. exact list_law. Qed.
Print Assumptions C94_list_refuted.
(** Nor is every default that is one of the choices accepted: a tuple never is. *)
Theorem C94_tuple_refuted : forall str n t desc l, In t l -> declare_arg str n (DV_iter [DE_text t]) desc (Some l) = Exn XRuntime.
Proof. exact tuple_law. Qed.
Print Assumptions C94_tuple_refuted.
(** The description says what the user said, and the choices. *)
Theorem C94_described : forall str n d desc ch a x, declare_arg str n d desc ch = Ok (a, x) ->
  match desc, ch with
  | None, None => x = "no description given"%string
  | None, Some l => x = ("One of: " ++ str l)%string
  | Some t, None => x = t
  | Some t, Some l => x = (t ++ " Valid choices are: " ++ str l)%string /\ (exists u, t = (u ++ ".")%string) \/
                      x = (t ++ ". Valid choices are: " ++ str l)%string /\ ~ (exists u, t = (u ++ ".")%string)
  end.
Proof. exact described_law. Qed.
Print Assumptions C94_described.

Example C94_example :
  let str := fun l : list string => String.concat "," l in
  declare_arg str "x" (DV_text "b") (Some "The x") (Some ["a"; "b"]) = Ok (ADeclare "x" (Some [SText "b"]) (Some ["a"; "b"]), "The x. Valid choices are: a,b") /\
  declare_arg str "x" (DV_text "c") None (Some ["a"; "b"]) = Exn XRuntime /\
  declare_arg str "x" DV_none None (Some []) = Exn XRuntime /\
  declare_arg str "x" (DV_list [DE_text "c"]) (Some "The x.") (Some ["a"; "b"]) = Ok (ADeclare "x" (Some [SText "c"]) (Some ["a"; "b"]), "The x. Valid choices are: a,b") /\
  declare_arg str "x" (DV_list [DE_other]) None None = Exn XType /\
  lc (cx s0) !! "x" = None.
Proof. by vm_compute. Qed.

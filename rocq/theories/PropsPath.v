(** Theorems about conditions on launch configurations (C63) and about joining paths (C64). *)
From Coq Require Import ssreflect.
From Verif Require Import SpecPath PathFacts ExWorld.

(** ** C63: LaunchConfigurationEquals and LaunchConfigurationNotEquals *)
(** With an expression: true exactly if the launch configuration is set, in the context left
    by performing the expression, to the text performed; the other condition is the opposite. *)
Theorem C63_equals : forall w n e c c' v, perform_substitutions w e c = (c', Ok v) ->
  exists b, evaluate w (CLCEquals n (Some e)) c = (c', Ok b) /\ evaluate w (CLCNotEquals n (Some e)) c = (c', Ok (negb b)) /\ (b = true <-> lc c' !! n = Some v).
Proof. exact lc_equals_law. Qed.
Print Assumptions C63_equals.
(** With None: true exactly if the launch configuration is not set. *)
Theorem C63_unset : forall w n c,
  exists b, evaluate w (CLCEquals n None) c = (c, Ok b) /\ evaluate w (CLCNotEquals n None) c = (c, Ok (negb b)) /\ (b = true <-> lc c !! n = None).
Proof. exact lc_equals_none. Qed.
Print Assumptions C63_unset.
(** Both fail if the expression cannot be performed. *)
Theorem C63_fails : forall w n e c c' x, perform_substitutions w e c = (c', Exn x) ->
  evaluate w (CLCEquals n (Some e)) c = (c', Exn x) /\ evaluate w (CLCNotEquals n (Some e)) c = (c', Exn x).
Proof. exact lc_equals_fails. Qed.
Print Assumptions C63_fails.
Example C63_example :
  perform_substitutions w0 [SText "o"; SText "n"] (set_lc "x" "on" c0) = (set_lc "x" "on" c0, Ok "on") /\
  (evaluate w0 (CLCEquals "x" (Some [SText "o"; SText "n"])) (set_lc "x" "on" c0)).2 = Ok true /\
  (evaluate w0 (CLCEquals "y" (Some [SText ""])) (set_lc "x" "on" c0)).2 = Ok false /\
  (evaluate w0 (CLCNotEquals "y" None) (set_lc "x" "on" c0)).2 = Ok false.
Proof. by repeat split. Qed.

(** ** C64: PathJoinSubstitution *)
(** Succeeds exactly if every member can be performed and there is one; the members are
    performed from left to right, each once, and the results are joined. *)
Theorem C64_joined : forall w l c c' t, perform w (SPathJoin l) c = (c', Ok t) <-> exists ts, performed w l c c' ts /\ joined ts t.
Proof. exact path_law. Qed.
Print Assumptions C64_joined.
Theorem C64_none : forall w c, perform w (SPathJoin []) c = (c, Exn XType).
Proof. exact path_none. Qed.
Print Assumptions C64_none.
(** What precedes an absolute part does not count. *)
Theorem C64_absolute : forall pre a post t, absolute a -> joined (pre ++ a :: post) t <-> joined (a :: post) t.
Proof. exact joined_last. Qed.
Print Assumptions C64_absolute.
(** Nonempty relative parts that do not end with a slash are joined by slashes. *)
Theorem C64_plain : forall p l, Forall (fun b => ~ absolute b /\ ~ open_end b) l -> ~ open_end p -> joined (p :: l) (join "/" (p :: l)).
Proof. exact joined_plain. Qed.
Print Assumptions C64_plain.
Example C64_example :
  (perform w0 (SPathJoin [SText "/opt"; SText "ros"; SText "share/"; SText "x.py"]) c0).2 = Ok "/opt/ros/share/x.py" /\
  (perform w0 (SPathJoin [SText "a"; SText "/b"; SText "c"]) c0).2 = Ok "/b/c" /\
  absolute "/b" /\ ~ absolute "a" /\ ~ open_end "a" /\ open_end "share/".
Proof.
  repeat split; try (by exists "b"); try (by right; exists "share").
  - by intros (r & [=]).
  - intros [|(r & E)]; [done|]. by destruct r as [|? [|? ?]].
Qed.

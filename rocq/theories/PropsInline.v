(** C103: how a launch description is cut into launch descriptions makes no difference. *)
From Verif Require Import ExWorld SpecInline InlineLaws.

(** C103: two entities with the same actions in the same order, however these are put into launch descriptions within
    launch descriptions: what the visit of one returns or raises, the visit of the other returns or raises, and
    everything is then the same, and has happened in the same order. *)
Theorem C103_cut : forall (w : world) (e1 e2 : entity) (n : nat) (s s1 : st) (r : res (list nat)),
  leaves e1 = leaves e2 -> visit_all w n e1 s = (s1, r) -> r <> OutOfFuel ->
  exists m s2, visit_all w m e2 s = (s2, r) /\ same_but_descriptions s1 s2.
Proof. exact cut. Qed.
Print Assumptions C103_cut.

(** C103: a group without a scope and configurations does what its entities do in its place, if nobody waits for it to be
    executed: all is the same but that it is said that the group, and not a launch description, was visited. *)
Theorem C103_group : forall (w : world) (n : nat) (a : aid) (forwarding : bool) (body : list entity) (s s1 : st) (r : res (list nat)),
  (forall h, In h (handlers (cx s)) -> matches w h (EvComplete a) = false) ->
  visit_all w n (EAct a None (AGroup false forwarding [] body)) s = (s1, r) -> r <> OutOfFuel ->
  exists d, visit_all w n (ELaunch body) s = (s1 <| log := d ++ OVisit (ELaunch body) :: log s |>, r) /\
    log s1 = d ++ OExecDone a :: OExecuted a :: OVisit (EAct a None (AGroup false forwarding [] body)) :: log s.
Proof.
  intros w n a fw body s s1 r H. apply group_inline. unfold would_handle_event. destruct (existsb _ _) eqn:E; [|reflexivity].
  apply existsb_exists in E as (h & Hh & Hm). rewrite (H h Hh) in Hm. discriminate.
Qed.
Print Assumptions C103_group.

(** C103: what has been observed before has no influence on what a visit does, nor on what is observed of it. *)
Theorem C103_observed : forall (w : world) (n : nat) (e : entity) (s s1 : st) (r : res (list nat)),
  visit_all w n e s = (s1, r) ->
  exists d, log s1 = d ++ log s /\ forall o, visit_all w n e (s <| log := o |>) = (s1 <| log := d ++ o |>, r).
Proof. exact observed. Qed.
Print Assumptions C103_observed.

(** Three messages, in one description and cut up, beside empty descriptions. *)
Definition say (i : nat) : entity := EAct (User i) None (ALog [SText "x"]).
Definition uncut : entity := ELaunch [say 1; say 2; say 3].
Definition cut_up : entity := ELaunch [ELaunch []; ELaunch [say 1; ELaunch [ELaunch [say 2]]]; say 3].
Example C103_cut_example : leaves cut_up = leaves uncut /\
  (exists s1, visit_all w0 5 cut_up s0 = (s1, Ok []) /\ List.filter of_description (log s1) <> [] /\
    exists s2, visit_all w0 2 uncut s0 = (s2, Ok []) /\ log s1 <> log s2).
Proof.
  split; [reflexivity|]. eexists. split; [vm_compute; reflexivity|]. split; [vm_compute; discriminate|].
  eexists. split; [vm_compute; reflexivity|]. vm_compute. discriminate.
Qed.
Example C103_group_example : (forall h, In h (handlers (cx s0)) -> matches w0 h (EvComplete (User 4)) = false) /\
  exists s1, visit_all w0 3 (EAct (User 4) None (AGroup false true [] [say 1; say 2])) s0 = (s1, Ok []).
Proof. split; [|eexists; vm_compute; reflexivity]. intros h. vm_compute. intuition (subst; reflexivity). Qed.
(** With a scope it would not be so: what the group sets is gone afterwards. *)
Example C103_scope_example : exists s1 s2,
  visit_all w0 5 (EAct (User 4) None (AGroup true true [] [EAct (User 1) None (ASetLC [SText "x"] [SText "1"])])) s0 = (s1, Ok []) /\
  visit_all w0 5 (ELaunch [EAct (User 1) None (ASetLC [SText "x"] [SText "1"])]) s0 = (s2, Ok []) /\
  lc (cx s1) !! "x" = None /\ lc (cx s2) !! "x" = Some "1".
Proof. eexists _, _. split; [vm_compute; reflexivity|]. split; [vm_compute; reflexivity|]. split; vm_compute; reflexivity. Qed.

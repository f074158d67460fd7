(** Lemmas for C103: launch descriptions within launch descriptions. *)
From Coq Require Import ssreflect.
From Verif Require Import StrFacts SubstFacts ArgsFacts ExecFacts VisitFacts ActionFacts SpecNesting SpecInline NestingFacts InlineFacts.

Section laws.
Context (w : world).
Definition flt : list obs -> list obs := List.filter (fun o => negb (of_description o)).
Lemma visit_list_le n m l : (n <= m)%nat -> le_m (visit_list w n l) (visit_list w m l).
Proof.
  intros H. induction l as [|x l IH]; [apply le_refl|]. rewrite !visit_list_cons. apply le_bind; [by apply visit_all_le|]. intros a.
  apply le_bind; [exact IH|]. intros. apply le_refl.
Qed.
Lemma visit_list_app n l1 l2 s : visit_list w n (l1 ++ l2) s = (a <-- visit_list w n l1 ;; b <-- visit_list w n l2 ;; retS (a ++ b)) s.
Proof.
  revert s. induction l1 as [|x l1 IH]; intros s.
  - simpl. rewrite /bindS /retS. by destruct (visit_list w n l2 s) as [s1 [b|e|]].
  - change ((x :: l1) ++ l2) with (x :: (l1 ++ l2)). rewrite !visit_list_cons /bindS. destruct (visit_all w n x s) as [s1 [a|e|]]; [|done..].
    rewrite IH /bindS. destruct (visit_list w n l1 s1) as [s2 [b|e|]]; [|done..]. rewrite /retS.
    destruct (visit_list w n l2 s2) as [s3 [c|e|]]; [|done..]. by rewrite app_assoc.
Qed.
Lemma visit_act n e s s' r o : visit_all w n e s = (s', r) -> flt o = flt (log s) ->
  exists o', visit_all w n e (lg o s) = (lg o' s', r) /\ flt o' = flt (log s').
Proof.
  intros E Ho. destruct (P_visit_all w n e s (log s) o) as (d & s1 & r1 & E1 & E2). rewrite lg_log E in E1. injection E1 as -> ->.
  exists (d ++ o). rewrite E2. split; [done|]. rewrite /flt /= !List.filter_app. f_equal. exact Ho.
Qed.
Lemma visit_description n l s : visit_all w (S n) (ELaunch l) s = visit_list w n l (obs1 (OVisit (ELaunch l)) s).
Proof.
  rewrite visit_all_eq. cbn [visit_one]. rewrite /bindS /=. destruct (visit_list w n l _) as [s1 [a|e|]]; [|done..].
  by rewrite /own_future /= app_nil_r.
Qed.
Definition like (n : nat) (l : list entity) (s s' : st) (r : res (list nat)) : Prop :=
  forall o, flt o = flt (log s) -> exists o', visit_list w n l (lg o s) = (lg o' s', r) /\ flt o' = flt (log s').
Lemma like_app n l1 l2 s s1 a s' r : like n l1 s s1 (Ok a) -> like n l2 s1 s' r -> 
  like n (l1 ++ l2) s s' (res_bind r (fun b => Ok (a ++ b))).
Proof.
  intros H1 H2 o Ho. destruct (H1 o Ho) as (o1 & E1 & Ho1). destruct (H2 o1 Ho1) as (o2 & E2 & Ho2). exists o2. split; [|done].
  rewrite visit_list_app /bindS E1 E2. by destruct r.
Qed.
Lemma like_stop n l1 l2 s s' r : like n l1 s s' r -> (forall a, r <> Ok a) -> like n (l1 ++ l2) s s' r.
Proof.
  intros H1 Hr o Ho. destruct (H1 o Ho) as (o1 & E1 & Ho1). exists o1. split; [|done].
  rewrite visit_list_app /bindS E1. destruct r as [a|e|]; [by destruct (Hr a)|done..].
Qed.
Lemma like_le n m l s s' r : (n <= m)%nat -> r <> OutOfFuel -> like n l s s' r -> like m l s s' r.
Proof. intros Hm Hr H o Ho. destruct (H o Ho) as (o' & E & Ho'). exists o'. split; [|done]. by apply (visit_list_le n m l Hm). Qed.
Lemma visit_single n x s : visit_list w n [x] s = visit_all w n x s.
Proof. rewrite visit_list_cons /bindS /= /retS. destruct (visit_all w n x s) as [s1 [a|e|]]; [|done..]. by rewrite app_nil_r. Qed.
(** Two lists of entities that correspond one by one *)
Lemma like_all n m (f g : entity -> list entity) l :
  (forall x, In x l -> forall s s' r, visit_list w n (f x) s = (s', r) -> r <> OutOfFuel -> like m (g x) s s' r) ->
  forall s s' r, visit_list w n (flat_map f l) s = (s', r) -> r <> OutOfFuel -> like m (flat_map g l) s s' r.
Proof.
  intros H. induction l as [|x l IH]; intros s s' r.
  - intros [= <- <-] _ o Ho. by exists o.
  - simpl. rewrite visit_list_app /bindS. destruct (visit_list w n (f x) s) as [s1 r1] eqn:E1. pose proof (H x (or_introl eq_refl) _ _ _ E1) as Hx.
    destruct r1 as [a|e|]; [|intros [= <- <-] _; apply like_stop; [by apply Hx|done]|by intros [= <- <-]].
    destruct (visit_list w n (flat_map f l) s1) as [s2 r2] eqn:E2. intros E Hr.
    assert (s2 = s' /\ r = res_bind r2 (fun b => Ok (a ++ b)) /\ r2 <> OutOfFuel) as (-> & -> & Hr2).
    { destruct r2; injection E as <- <-; done. }
    apply (like_app _ _ _ _ s1); [by apply Hx|]. apply IH; [|done..]. intros y Hy. apply H. by right.
Qed.
Lemma like_description n l s s' r : like n l s s' r -> like (S n) [ELaunch l] s s' r.
Proof. intros H o Ho. rewrite visit_single visit_description. by apply (H (OVisit (ELaunch l) :: o)). Qed.
Lemma like_inside n l x s s' r : like n l (obs1 (OVisit (ELaunch x)) s) s' r -> like n l s s' r.
Proof. intros H o Ho. by apply (H o). Qed.
Lemma flat_map_single {A} (l : list A) : flat_map (fun x => [x]) l = l.
Proof. induction l as [|x l IH]; [done|]. simpl. by rewrite IH. Qed.
(** From nested to flat *)
Lemma flat_one n e s s' r : visit_all w n e s = (s', r) -> r <> OutOfFuel -> like n (leaves e) s s' r.
Proof.
  revert e s s' r. induction n as [|n IH]; intros e s s' r E Hr; [by injection E as _ <-|]. destruct e as [l|a c k].
  - rewrite visit_description in E. apply (like_le n); [lia|done|]. apply (like_inside _ _ l). simpl.
    eapply (like_all n n (fun x => [x])); [|by rewrite flat_map_single|done].
    intros x _ s1 s2 r1. rewrite visit_single. apply IH.
  - intros o Ho. simpl leaves. rewrite visit_single. by eapply visit_act.
Qed.
(** From flat to nested *)
Fixpoint height (e : entity) : nat := match e with ELaunch l => S (list_max (map height l)) | EAct _ _ _ => 0 end.
Lemma nest_one n h e s s' r : (height e <= h)%nat -> visit_list w n (leaves e) s = (s', r) -> r <> OutOfFuel -> like (h + n) [e] s s' r.
Proof.
  revert e s s' r. induction h as [|h IH]; intros [l|a c k] s s' r Hh E Hr; simpl in Hh; [lia|..].
  - intros o Ho. rewrite !visit_single in E |- *. by eapply visit_act.
  - apply (like_description (h + n)). rewrite -(flat_map_single l). eapply (like_all n (h + n) leaves (fun x => [x])); [|exact E|done].
    intros x Hx s1 s2 r1. apply IH. assert (list_max (map height l) <= h)%nat as Hm by lia. apply list_max_le in Hm. rewrite Forall_forall in Hm.
    apply Hm, elem_of_list_In, in_map. done.
  - eapply (like_le n); [lia|done|]. intros o Ho. rewrite !visit_single in E |- *. by eapply visit_act.
Qed.
Lemma like_same n l s s' r : like n l s s' r -> exists s2, visit_list w n l s = (s2, r) /\ same_but_descriptions s' s2.
Proof.
  intros H. destruct (H (log s) eq_refl) as (o & E & Ho). rewrite lg_log in E. exists (lg o s'). split; [done|]. split; [by exists o|]. by symmetry.
Qed.
Theorem cut e1 e2 n s s1 r : leaves e1 = leaves e2 -> visit_all w n e1 s = (s1, r) -> r <> OutOfFuel ->
  exists m s2, visit_all w m e2 s = (s2, r) /\ same_but_descriptions s1 s2.
Proof.
  intros Hl E Hr. apply flat_one in E; [|done]. rewrite Hl in E. destruct (E (log s) eq_refl) as (o & E1 & Ho). rewrite lg_log in E1.
  destruct (like_same _ _ _ _ _ (nest_one n (height e2) e2 _ _ _ (le_n _) E1 Hr)) as (s2 & E2 & (o2 & ->) & F2). rewrite visit_single in E2.
  exists (height e2 + n), (s1 <| log := o2 |>). split; [done|]. split; [by exists o2|]. simpl in F2 |- *. rewrite -F2. by symmetry.
Qed.

(** ** Groups without a scope *)
Lemma group_visit n a fw body s : would_handle_event w (EvComplete a) (cx s) = false ->
  visit_all w (S n) (EAct a None (AGroup false fw [] body)) s =
  visit_list w n body (lg ([OExecDone a; OExecuted a; OVisit (EAct a None (AGroup false fw [] body))] ++ log s) s).
Proof.
  intros H. rewrite visit_all_eq {1}/bindS.
  assert (visit_one w n (EAct a None (AGroup false fw [] body)) s =
    (lg ([OExecDone a; OExecuted a; OVisit (EAct a None (AGroup false fw [] body))] ++ log s) s, Ok body)) as ->.
  { rewrite /visit_one /bindS /retS. cbn [exec_action]. rewrite /retS /complete_action.
    match goal with |- context [would_handle_event w (EvComplete a) ?c] => change c with (cx s) end. by rewrite H. }
  rewrite /bindS. destruct (visit_list w n body _) as [s1 [b|e|]]; [|done..]. by rewrite /own_future /= app_nil_r.
Qed.
Lemma P_visit_list n l : par (visit_list w n l).
Proof.
  induction l as [|x l IH]; [apply par_ret|]. rewrite visit_list_cons. apply par_bind; [apply P_visit_all|]. intros a. apply par_bind; [exact IH|]. intros. apply par_ret.
Qed.
Theorem group_inline n a fw body s s1 r : would_handle_event w (EvComplete a) (cx s) = false ->
  visit_all w n (EAct a None (AGroup false fw [] body)) s = (s1, r) -> r <> OutOfFuel ->
  exists d, visit_all w n (ELaunch body) s = (s1 <| log := d ++ OVisit (ELaunch body) :: log s |>, r) /\ 
    log s1 = d ++ OExecDone a :: OExecuted a :: OVisit (EAct a None (AGroup false fw [] body)) :: log s.
Proof.
  intros H. destruct n as [|n]; [by intros [= _ <-] []|]. rewrite (group_visit _ _ _ _ _ H). rewrite visit_description. intros E Hr.
  destruct (P_visit_list n body s ([OExecDone a; OExecuted a; OVisit (EAct a None (AGroup false fw [] body))] ++ log s) (OVisit (ELaunch body) :: log s)) as (d & s' & r' & E1 & E2).
  rewrite E in E1. injection E1 as -> ->. exists d. split; [exact E2|reflexivity].
Qed.
Lemma observed n e s s1 r : visit_all w n e s = (s1, r) ->
  exists d, log s1 = d ++ log s /\ forall o, visit_all w n e (s <| log := o |>) = (s1 <| log := d ++ o |>, r).
Proof.
  intros E. assert (forall o, exists d, log s1 = d ++ log s /\ visit_all w n e (lg o s) = (lg (d ++ o) s1, r)) as H.
  { intros o. destruct (P_visit_all w n e s (log s) o) as (d & s' & r' & E1 & E2). rewrite lg_log E in E1. injection E1 as -> ->. by exists d. }
  destruct (H []) as (d & Hd & _). exists d. split; [done|]. intros o. destruct (H o) as (d' & Hd' & E').
  rewrite Hd in Hd'. apply app_inv_tail in Hd' as <-. exact E'.
Qed.
End laws.

(** Lemmas for C102. *)
From Coq Require Import ssreflect.
From Verif Require Import StrFacts SubstFacts ExecFacts VisitFacts ActionFacts Service SpecNesting.

(** ** More fuel gives the same outcome *)
Definition le_m {S A} (m1 m2 : S -> S * res A) : Prop := forall s s' r, m1 s = (s', r) -> r <> OutOfFuel -> m2 s = (s', r).
Lemma le_refl {S A} (m : S -> S * res A) : le_m m m.
Proof. intros s s' r H _. exact H. Qed.
Lemma le_bind {S A B} (m1 m2 : S -> S * res A) (k1 k2 : A -> S -> S * res B) :
  le_m m1 m2 -> (forall a, le_m (k1 a) (k2 a)) -> le_m (bindS m1 k1) (bindS m2 k2).
Proof.
  intros H1 H2 s s' r. rewrite /bindS. destruct (m1 s) as [s1 [a|e|]] eqn:E.
  - intros E2 Hr. rewrite (H1 _ _ _ E); [done|]. by apply H2.
  - intros [= <- <-] Hr. by rewrite (H1 _ _ _ E).
  - by intros [= <- <-].
Qed.
Section args.
Context (w : world) (c : ctx) (known : nat -> option (list entity)).
Definition desc (n : nat) (e : entity) (nest : option nat) : astate -> astate * res unit :=
  process_entities w c known n (describe_sub_entities w c known e) false nest ;;;
  cs <-- liftS (describe_conditional_sub_entities w c known e) ;;
  (fix gos (cs : list (list entity)) : astate -> astate * res unit :=
     match cs with [] => retS tt | x :: cs' => process_entities w c known n x true nest ;;; gos cs' end) cs.
Lemma entities_cons e l cnd nested s :
  (forall n, process_entities w c known (S n) (e :: l) cnd nested s = (s, Ok tt)) \/
  (forall n, process_entities w c known (S n) (e :: l) cnd nested s = process_entities w c known (S n) l cnd nested s) \/
  (exists s1 nest, forall n, process_entities w c known (S n) (e :: l) cnd nested s = (desc n e nest ;;; process_entities w c known (S n) l cnd nested) s1).
Proof.
  destruct e as [l0|a k []].
  all: try (right; right; exists s, nested; reflexivity).
  - left. reflexivity.
  - destruct (existsb (fun x => String.eqb (dl_name x) n) (a_decls s)) eqn:E.
    + right; left. intros m. cbn [process_entities]. by rewrite E.
    + right; right. eexists _, nested. intros m. cbn [process_entities]. rewrite E. reflexivity.
  - right; right. destruct nested; eexists _, _; reflexivity.
Qed.
Lemma entities_le n m : (n <= m)%nat -> forall l cnd nested, le_m (process_entities w c known n l cnd nested) (process_entities w c known m l cnd nested).
Proof.
  revert m. induction n as [|n IH]; intros m Hm.
  { intros l cnd nested s s' r [= <- <-] Hr. by destruct Hr. }
  destruct m as [|m]; [lia|]. intros l cnd nested.
  induction l as [|e l IHl]; [apply le_refl|].
  assert (forall nest, le_m (desc n e nest) (desc m e nest)) as HD.
  { intros nest. apply le_bind; [apply IH; lia|]. intros _. apply le_bind; [apply le_refl|]. intros cs.
    induction cs as [|x cs IHc]; [apply le_refl|]. apply le_bind; [apply IH; lia|]. intros _. exact IHc. }
  intros s s' r. destruct (entities_cons e l cnd nested s) as [H|[H|(s1 & nest & H)]]; rewrite (H n) (H m); [done|apply IHl|].
  apply le_bind; [apply HD|]. intros _. exact IHl.
Qed.
(** ** What is described without end is nested without end *)
Lemma entities_deep n l cnd nested s s' : process_entities w c known n l cnd nested s = (s', OutOfFuel) -> deep w c known n l.
Proof.
  revert l cnd nested s s'. induction n as [|n IH]; [intros; constructor|]. intros l cnd nested s s'. revert s.
  induction l as [|e l IHl]; [done|]. intros s.
  assert (deep w c known (S n) l -> deep w c known (S n) (e :: l)) as HL.
  { intros H. inversion H; subst. eapply deep_sub; [right|..]; eassumption. }
  destruct (entities_cons e l cnd nested s) as [H|[H|(s1 & nest & H)]]; rewrite (H n); clear H; [done|intros H; apply HL; by eapply IHl|].
  intros [(s2 & [] & _ & H)|[(x & _ & [=])|[H _]]]%bindS_inv; [apply HL; by eapply IHl|].
  revert H. rewrite /desc. intros [(s3 & [] & _ & H)|[(x & _ & [=])|[H _]]]%bindS_inv.
  2:{ eapply deep_sub; [by left|by left|by eapply IH]. }
  revert H. intros [(s4 & cs & E & H)|[(x & _ & [=])|[H _]]]%bindS_inv.
  2:{ exfalso. revert H. rewrite /liftS. destruct e as [l0|a [k|] []]; simpl; try done; rewrite /handler_entities; destruct (h_body h); done. }
  assert (describe_conditional_sub_entities w c known e = Ok cs) as Ecs by (injection E as _ <-; done). clear E.
  assert (exists x s5 s6, In x cs /\ process_entities w c known n x true nest s5 = (s6, OutOfFuel)) as (x & s5 & s6 & Hx & Ex).
  { clear Ecs. revert s4 H. induction cs as [|x cs IHc]; intros s4; [done|]. intros [(s5 & [] & _ & H)|[(x' & _ & [=])|[H _]]]%bindS_inv.
    - destruct (IHc _ H) as (y & ? & ? & ? & ?). exists y. eexists _, _. split; [by right|done].
    - eexists x, _, _. split; [by left|done]. }
  eapply deep_sub; [by left|right; by eauto|by eapply IH].
Qed.
Lemma deep_less n m l : (m <= n)%nat -> deep w c known n l -> deep w c known m l.
Proof.
  intros Hm H. revert m Hm. induction H as [l|n e l l' He Hl _ IH]; intros m Hm; [by replace m with 0%nat by lia; constructor|].
  destruct m as [|m]; [constructor|]. eapply deep_sub; [done|done|]. apply IH. lia.
Qed.
End args.

Section visits.
Context (w : world).
Lemma include_le n m src args : (n <= m)%nat -> le_m (exec_include w n src args) (exec_include w m src args).
Proof.
  intros Hm. rewrite /exec_include. apply le_bind; [apply le_refl|]. intros [loc ld]. do 3 (apply le_bind; [apply le_refl|]; intros ?).
  apply le_bind; [|intros; apply le_refl]. intros s s' r. rewrite /get_launch_arguments.
  destruct (process_entities w (cx s) (known_srcs s) n ld false None (mkA [] [])) as [s1 r1] eqn:E.
  intros H Hr. assert (r1 <> OutOfFuel) as H1. { intros ->. simpl in H. injection H as _ <-. by apply Hr. }
  by rewrite (entities_le _ _ _ _ _ Hm _ _ _ _ _ _ E H1).
Qed.
Lemma action_le n m a k : (n <= m)%nat -> le_m (exec_action w n a k) (exec_action w m a k).
Proof. intros Hm. destruct k; try apply le_refl. by apply include_le. Qed.
Lemma visit_one_le n m e : (n <= m)%nat -> le_m (visit_one w n e) (visit_one w m e).
Proof.
  intros Hm s s' r. destruct e as [l|a c k]; [done|]. rewrite /visit_one. generalize (obs1 (OVisit (EAct a c k)) s). clear s. revert s' r.
  intros s' r s. revert s s' r. apply le_bind; [apply le_refl|]. intros [|]; [|apply le_refl]. intros s s' r.
  destruct (exec_action w n a k _) as [s1 r1] eqn:E. intros [= <- <-] Hr. by rewrite (action_le _ _ _ _ Hm _ _ _ E Hr).
Qed.
Lemma visit_all_le n m : (n <= m)%nat -> forall e, le_m (visit_all w n e) (visit_all w m e).
Proof.
  revert m. induction n as [|n IH]; intros m Hm e.
  { intros s s' r [= <- <-] Hr. by destruct Hr. }
  destruct m as [|m]; [lia|]. cbn [visit_all]. apply le_bind; [apply visit_one_le; lia|]. intros subs. apply le_bind; [|intros; apply le_refl].
  induction subs as [|x l IHl]; [apply le_refl|]. apply le_bind; [apply IH; lia|]. intros. apply le_bind; [exact IHl|]. intros. apply le_refl.
Qed.
Lemma handle_one_le n m h e : (n <= m)%nat -> le_m (handle_one w n h e) (handle_one w m h e).
Proof.
  intros Hm. rewrite /handle_one. do 3 (apply le_bind; [apply le_refl|]; intros ?). apply le_bind; [|intros; apply le_refl].
  induction a1 as [|x l IHl]; [apply le_refl|]. apply le_bind; [by apply visit_all_le|]. intros. apply le_bind; [apply le_refl|]. intros. exact IHl.
Qed.
Lemma process_one_le n m : (n <= m)%nat -> le_m (process_one w n) (process_one w m).
Proof.
  intros Hm s s' r. rewrite /process_one. destruct (queue (cx s)) as [|e q]; [done|]. rewrite /process_event.
  set (s0 := obs1 _ _). clearbody s0. generalize (handlers (cx s0)). intros hs. revert s0 s' r.
  induction hs as [|h hs IH]; [apply le_refl|]. cbn [handle_list]. apply le_bind; [|intros _; exact IH].
  destruct (matches w h e); [by apply handle_one_le|apply le_refl].
Qed.
Lemma event_le n m s s1 : (n <= m)%nat -> step w (LEvent n) s = Some s1 -> step w (LEvent m) s = Some s1.
Proof.
  intros Hm. simpl. rewrite /loop_step. destruct (in_loop s); [|done]. destruct (evt s); try done. destruct (queue (cx s)) eqn:Eq; [done|].
  destruct (process_one w n s) as [s2 r] eqn:E. destruct r as [u|x|]; [| |done]; intros H; rewrite (process_one_le _ _ Hm _ _ _ E); done.
Qed.
End visits.

(** What executing actions and handling events can and cannot change. *)
From Coq Require Import ssreflect.
From Verif Require Import SubstFacts SpecContext SpecExec.

Lemma emitted_app l1 l2 : emitted (l1 ++ l2) = emitted l1 ++ emitted l2.
Proof. apply omap_app. Qed.
Lemma processed_app l1 l2 : processed (l1 ++ l2) = processed l1 ++ processed l2.
Proof. apply omap_app. Qed.
Lemma handled_app l1 l2 : handled (l1 ++ l2) = handled l1 ++ handled l2.
Proof. apply omap_app. Qed.
Lemma visited_app l1 l2 : visited (l1 ++ l2) = visited l1 ++ visited l2.
Proof. apply omap_app. Qed.
Lemma executed_app l1 l2 : executed (l1 ++ l2) = executed l1 ++ executed l2.
Proof. apply omap_app. Qed.
Lemma hist_obs1 o s : hist (obs1 o s) = hist s ++ [o].
Proof. done. Qed.

(** ** Relations preserved by computations *)
Definition pres {A} (R : st -> st -> Prop) (m : st -> st * res A) : Prop :=
  forall s s' r, m s = (s', r) -> R s s'.
Section pres.
Context (R : st -> st -> Prop) `{!PreOrder R}.
Lemma pres_ret {A} (a : A) : pres R (retS a).
Proof. by intros s s' r [= <- _]. Qed.
Lemma pres_raise {A} e : pres R (@raiseS st A e).
Proof. by intros s s' r [= <- _]. Qed.
Lemma pres_lift {A} (f : st -> res A) : pres R (fun s => (s, f s)).
Proof. by intros s s' r [= <- _]. Qed.
Lemma pres_mod f : (forall s, R s (f s)) -> pres R (modS f).
Proof. intros H s s' r [= <- _]. apply H. Qed.
Lemma pres_bind {A B} (m : st -> st * res A) (k : A -> st -> st * res B) :
  pres R m -> (forall a, pres R (k a)) -> pres R (bindS m k).
Proof.
  intros Hm Hk s s' r. rewrite /bindS. destruct (m s) as [s1 [a|e|]] eqn:E; intros H; simplify_eq.
  - etrans; [by eapply Hm|by eapply Hk].
  - by eapply Hm.
  - by eapply Hm.
Qed.
Lemma pres_pre {A} (m : st -> st * res A) f : (forall s, R s (f s)) -> pres R m -> pres R (fun s => m (f s)).
Proof. intros Hf Hm s s' r H. etrans; [apply Hf|by eapply Hm]. Qed.
End pres.

(** ** The frame of visiting entities *)
Definition quiet (o : obs) : bool :=
  match o with
  | OProcess _ | OHandle _ _ | OBody _ _ _ | OSpawn _ _ | OReap _ _ | OFire _ _ | OArmed _ _ _ | OLife _ | ORun | OReturn _ | ORejected => false
  | _ => true
  end.
(** ... and within the execution of one action *)
Definition inner (o : obs) : bool :=
  match o with OVisit _ | OExecuted _ | OExecDone _ => false | _ => quiet o end.
Definition new_task (t : task) : bool :=
  match t with TTimerInit _ | TProcInit _ => true | _ => false end.
Definition futs_le (s s' : st) : Prop :=
  (next s <= next s')%nat /\
  (forall f x, futs s !! f = Some x -> exists x', futs s' !! f = Some x' /\ (f_done x = true -> x' = x)) /\
  (forall f, futs s !! f = None -> is_Some (futs s' !! f) -> next s <= f < next s')%nat.
(** fields of the service and of the operating system *)
Definition svc_same (s s' : st) : Prop :=
  pipes s' = pipes s /\ now s' = now s /\ loop_thread s' = loop_thread s /\
  rpc s' = rpc s /\ evt s' = evt s /\ rcode s' = rcode s /\ when_idle s' = when_idle s /\
  sigint_seen s' = sigint_seen s /\ sdt s' = sdt s /\
  loop_set (cx s') = loop_set (cx s) /\ noninteractive (cx s') = noninteractive (cx s) /\
  env_reset (cx s') = env_reset (cx s).
Definition same_stacks (s s' : st) : Prop :=
  lc_stack (cx s') = lc_stack (cx s) /\ env_stack (cx s') = env_stack (cx s).
(** Launch descriptions held by sources come from loading. *)
Definition loaded (w : world) (src : nat) (ld : list entity) : Prop :=
  exists loc n, w_load w src loc n = Ok ld.
Definition srcs_le (w : world) (s s' : st) : Prop :=
  forall src ld, known_srcs s' src = Some ld -> known_srcs s src = Some ld \/ loaded w src ld.
(** Registered handlers: internal ones are added, users' ones only with an observation. *)
Definition internal (h : handler) : Prop := exists n, h_id h = Gen n.
Definition occ (n : nat) (s : st) : nat := occurrences (User n) (handlers (cx s)).
Definition regs (n : nat) (s : st) : nat :=
  length (List.filter (fun o => match o with OReg h => bool_decide (h_id h = User n) | _ => false end) (log s)).
Definition unregs (n : nat) (s : st) : nat :=
  length (List.filter (fun o => match o with OUnreg i => bool_decide (i = User n) | _ => false end) (log s)).
Definition regs_le (s s' : st) : Prop :=
  forall n, (occ n s' + unregs n s' + regs n s = occ n s + unregs n s + regs n s')%nat.
Definition noreg (o : obs) : bool := match o with OReg _ | OUnreg _ => false | _ => true end.
Definition hsrc (s s' : st) : Prop := (forall o, In o (log s) -> In o (log s')) /\
  forall h, In h (handlers (cx s')) -> In h (handlers (cx s)) \/ In (OReg h) (log s') \/ internal h.
Inductive hreg (l : list handler) : list handler -> Prop :=
| hreg_same : hreg l l
| hreg_new h : internal h -> hreg l (h :: l)
| hreg_less i l' : remove_first (Gen i) l = Some l' -> hreg l l'.
Lemma remove_first_occ i l l' j : remove_first i l = Some l' ->
  occurrences j l = ((if bool_decide (i = j) then 1 else 0) + occurrences j l')%nat.
Proof.
  revert l'. induction l as [|h l IH]; intros l'; [done|]. simpl. destruct (bool_decide_reflect (h_id h = i)) as [H1|H1].
  - intros [= ->]. rewrite /occurrences /=. rewrite H1. case_bool_decide; simpl; lia.
  - destruct (remove_first i l) as [r|]; [|done]. intros [= <-]. specialize (IH _ eq_refl).
    rewrite /occurrences /= in IH |- *. destruct (bool_decide (h_id h = j)); simpl; lia.
Qed.
Lemma remove_first_in i l l' h : remove_first i l = Some l' -> In h l' -> In h l.
Proof.
  revert l'. induction l as [|h' l IH]; intros l'; [done|]. simpl. case_bool_decide.
  - intros [= ->]. by right.
  - destruct (remove_first i l) as [r|]; [|done]. intros [= <-]. intros [->|Hi]; [by left|right; eauto].
Qed.
Lemma hreg_occ l l' n : hreg l l' -> occurrences (User n) l' = occurrences (User n) l.
Proof.
  destruct 1 as [|h [m Hh]|i l' H]; [done| |].
  - rewrite /occurrences /= Hh. by rewrite bool_decide_false.
  - rewrite (remove_first_occ _ _ _ (User n) H) bool_decide_false //.
Qed.
Lemma hreg_in l l' h : hreg l l' -> In h l' -> In h l \/ internal h.
Proof.
  destruct 1 as [|h' [m Hh]|i l' H]; [by left| |left; by eapply remove_first_in].
  intros [->|]; [right; by exists m|by left].
Qed.
#[local] Hint Resolve hreg_same : core.
#[local] Hint Extern 0 (hreg _ (MkH (Gen ?n) _ _ _ :: _)) => apply hreg_new; exists n; reflexivity : core.
(** Futures created on the way. *)
Definition newf (s s' : st) (f : nat) : Prop := (next s <= f < next s')%nat /\ is_Some (futs s' !! f).
(** Locals are only added. *)
Definition ldom (s s' : st) : Prop := forall k, is_Some (locals (cx s) !! k) -> is_Some (locals (cx s') !! k).
Lemma ldom_extend s m : ldom s (s <| cx := extend_locals m (cx s) |>).
Proof.
  intros k. rewrite /= lookup_union. destruct (m !! k) as [v|]; intros [x Hx]; rewrite Hx; by eexists.
Qed.
#[global] Hint Extern 0 (ldom _ (set cx (fun _ => extend_locals _ _) _)) => apply ldom_extend : core.
#[global] Hint Extern 0 (ldom _ _) => intros ? ldH; exact ldH : core.
(** [q]: what may be logged; [b]: no Push or Pop action is executed. *)
Record gframe (w : world) (q : obs -> bool) (b : bool) (s s' : st) : Prop := {
  vf_log : exists l, hist s' = hist s ++ l /\ Forall (fun o => q o = true) l /\
                     queue (cx s') = queue (cx s) ++ emitted l;
  vf_futs : futs_le s s';
  vf_svc : svc_same s s';
  vf_lstack : locals_stack (cx s') = locals_stack (cx s);
  vf_flags : shutting_down s' = shutting_down s /\ is_shutdown (cx s') = is_shutdown (cx s);
  vf_efuts : efuts s' = efuts s;
  vf_tasks : exists t, tasks s' = tasks s ++ t /\ Forall (fun x => new_task x = true) t;
  vf_cfuts : exists l, cfuts (cx s') = cfuts (cx s) ++ l /\ Forall (newf s s') l;
  vf_ufuts : exists l, ufuts s' = l ++ ufuts s /\ Forall (newf s s') l;
  vf_cbs : exists l, cbs s' = cbs s ++ l;
  vf_pcount : (pcount s <= pcount s')%Z;
  vf_stacks : b = true -> same_stacks s s';
  vf_srcs : srcs_le w s s';
  vf_regs : regs_le s s';
  vf_hsrc : hsrc s s';
  vf_ldom : ldom s s' }.

Section generic.
Context {w : world} {q : obs -> bool} {nb : bool}.
Notation vframe := (gframe w q nb).

Lemma futs_le_refl s : futs_le s s.
Proof. split_and!; [lia|eauto|]. intros f H [x Hx]. congruence. Qed.
Lemma futs_le_trans a b c : futs_le a b -> futs_le b c -> futs_le a c.
Proof.
  intros (N1 & F1 & G1) (N2 & F2 & G2). split_and!; [lia| |].
  - intros f x Hx. destruct (F1 _ _ Hx) as (y & Hy & Hxy). destruct (F2 _ _ Hy) as (z & Hz & Hyz).
    exists z. split; [done|]. intros Hd. specialize (Hxy Hd). subst y. by apply Hyz.
  - intros f Hf Hs. destruct (futs b !! f) eqn:Eb.
    + assert (is_Some (futs b !! f)) as Hb by (by rewrite Eb). specialize (G1 f Hf Hb). lia.
    + specialize (G2 f Eb Hs). lia.
Qed.
Lemma srcs_le_same s s' : srcs s' = srcs s -> srcs_le w s s'.
Proof. intros E src ld. rewrite /known_srcs E. by left. Qed.
Lemma regs_le_hreg s s' : hreg (handlers (cx s)) (handlers (cx s')) ->
  (exists l, log s' = l ++ log s /\ forallb noreg l = true) -> regs_le s s'.
Proof.
  intros Hh (l & Hl & HF) n. rewrite /occ /regs /unregs Hl !List.filter_app !app_length (hreg_occ _ _ n Hh).
  enough (forall f, (forall o, noreg o = true -> f o = false) -> length (List.filter f l) = 0%nat) as HE.
  { rewrite !HE; [by destruct o|by destruct o|]. lia. }
  intros f Hf. clear Hl. induction l as [|o l IH]; [done|]. simpl in *. apply andb_true_iff in HF as [H1 H2].
  rewrite (Hf _ H1). by apply IH.
Qed.
Lemma hsrc_hreg s s' : hreg (handlers (cx s)) (handlers (cx s')) -> (exists l, log s' = l ++ log s) -> hsrc s s'.
Proof.
  intros Hh [l Hl]. split.
  - intros o Ho. rewrite Hl. apply in_or_app. by right.
  - intros h Hi. destruct (hreg_in _ _ _ Hh Hi); auto.
Qed.
Lemma vframe_refl s : vframe s s.
Proof.
  constructor; try done; try by (exists []; rewrite ?app_nil_r; repeat constructor).
  - apply futs_le_refl.
  - by apply srcs_le_same.
  - apply hsrc_hreg; [done|by exists []].
Qed.
Lemma newf_l a b c l : (next a <= next b)%nat -> Forall (newf b c) l -> Forall (newf a c) l.
Proof. intros H1 H. apply (Forall_impl _ _ _ H). intros f [? ?]. split; [lia|done]. Qed.
Lemma newf_r a b c l : futs_le b c -> Forall (newf a b) l -> Forall (newf a c) l.
Proof.
  intros (N & F & _) H. apply (Forall_impl _ _ _ H). intros f [? [x Hx]].
  destruct (F _ _ Hx) as (x' & Hx' & _). split; [lia|by rewrite Hx'].
Qed.
Lemma vframe_trans a b c : vframe a b -> vframe b c -> vframe a c.
Proof.
  intros [L1 F1 S1 K1 G1 E1 T1 C1 U1 B1 P1 X1 Y1 R1 I1 D1] [L2 F2 S2 K2 G2 E2 T2 C2 U2 B2 P2 X2 Y2 R2 I2 D2].
  pose proof F1 as (N1 & _). pose proof F2 as (N2 & _).
  destruct L1 as (l1 & Hl1 & Q1 & Hq1), L2 as (l2 & Hl2 & Q2 & Hq2).
  destruct T1 as (t1 & Ht1 & Tn1), T2 as (t2 & Ht2 & Tn2).
  destruct C1 as (c1 & Hc1 & Cn1), C2 as (c2 & Hc2 & Cn2).
  destruct U1 as (u1 & Hu1 & Un1), U2 as (u2 & Hu2 & Un2).
  destruct B1 as (b1 & Hb1), B2 as (b2 & Hb2).
  constructor.
  - exists (l1 ++ l2). split_and!; [by rewrite Hl2 Hl1 app_assoc|by apply Forall_app|].
    by rewrite Hq2 Hq1 emitted_app app_assoc.
  - by eapply futs_le_trans.
  - destruct S1 as (?&?&?&?&?&?&?&?&?&?&?&?), S2 as (?&?&?&?&?&?&?&?&?&?&?&?).
    repeat split; congruence.
  - congruence.
  - destruct G1, G2; split; congruence.
  - congruence.
  - exists (t1 ++ t2). split; [by rewrite Ht2 Ht1 app_assoc|by apply Forall_app].
  - exists (c1 ++ c2). split; [by rewrite Hc2 Hc1 app_assoc|].
    apply Forall_app; split; [by eapply newf_r|by eapply newf_l].
  - exists (u2 ++ u1). split; [by rewrite Hu2 Hu1 app_assoc|].
    apply Forall_app; split; [by eapply newf_l|by eapply newf_r].
  - exists (b1 ++ b2). by rewrite Hb2 Hb1 app_assoc.
  - lia.
  - intros Hb. destruct (X1 Hb), (X2 Hb). split; congruence.
  - intros src ld Hld. destruct (Y2 _ _ Hld) as [H|]; [|by right]. exact (Y1 _ _ H).
  - intros n. specialize (R1 n). specialize (R2 n). lia.
  - destruct I1 as [I1 J1], I2 as [I2 J2]. split; [auto|].
    intros h Hh. destruct (J2 _ Hh) as [H|[H|H]]; [|by auto..].
    destruct (J1 _ H) as [H1|[H1|H1]]; auto.
  - intros k Hk. by apply D2, D1.
Qed.
#[global] Instance vframe_preorder : PreOrder vframe.
Proof. split; [exact vframe_refl|exact vframe_trans]. Qed.

Lemma futs_le_same s s' : futs s' = futs s -> (next s <= next s')%nat -> futs_le s s'.
Proof. intros E N. split_and!; [lia| |]; rewrite E; [eauto|]. intros f H [x Hx]. congruence. Qed.

(** Changes confined to the context. *)
Lemma vframe_cx s c :
  queue c = queue (cx s) -> locals_stack c = locals_stack (cx s) -> is_shutdown c = is_shutdown (cx s) ->
  cfuts c = cfuts (cx s) -> loop_set c = loop_set (cx s) -> noninteractive c = noninteractive (cx s) ->
  env_reset c = env_reset (cx s) ->
  (nb = true -> lc_stack c = lc_stack (cx s) /\ env_stack c = env_stack (cx s)) ->
  hreg (handlers (cx s)) (handlers c) -> ldom s (s <| cx := c |>) -> vframe s (s <| cx := c |>).
Proof.
  intros Hq Hl Hi Hc Hls Hn He Hst Hhr Hld. constructor; simpl.
  - exists []. rewrite !app_nil_r. split_and!; [done|constructor|done].
  - apply futs_le_same; done.
  - by repeat split.
  - done.
  - done.
  - done.
  - exists []. by rewrite app_nil_r.
  - exists []. by rewrite app_nil_r.
  - by exists [].
  - exists []. by rewrite app_nil_r.
  - lia.
  - done.
  - by apply srcs_le_same.
  - apply regs_le_hreg; [done|by exists []].
  - apply hsrc_hreg; [done|by exists []].
  - done.
Qed.
Lemma vframe_cx_fun s f : 
  let c := f (cx s) in
  queue c = queue (cx s) -> locals_stack c = locals_stack (cx s) -> is_shutdown c = is_shutdown (cx s) ->
  cfuts c = cfuts (cx s) -> loop_set c = loop_set (cx s) -> noninteractive c = noninteractive (cx s) ->
  env_reset c = env_reset (cx s) ->
  (nb = true -> lc_stack c = lc_stack (cx s) /\ env_stack c = env_stack (cx s)) ->
  hreg (handlers (cx s)) (handlers c) -> ldom s (s <| cx := c |>) -> vframe s (s <| cx ::= f |>).
Proof. intros c. apply vframe_cx. Qed.
Lemma vframe_obs o s : q o = true -> (forall e, o <> OEmit e) -> noreg o = true -> vframe s (obs1 o s).
Proof.
  intros Hq He Hnr. constructor; simpl; try done.
  - exists [o]. split_and!; [done|by repeat constructor|].
    destruct o; simpl; rewrite ?app_nil_r //. by destruct (He e).
  - by apply futs_le_same.
  - exists []. by rewrite app_nil_r.
  - exists []. by rewrite app_nil_r.
  - by exists [].
  - exists []. by rewrite app_nil_r.
  - by apply srcs_le_same.
  - apply regs_le_hreg; [done|]. exists [o]. by rewrite /= Hnr.
  - apply hsrc_hreg; [done|by eexists [_]].
Qed.
Lemma vframe_emit e s : q (OEmit e) = true -> vframe s (emit e s).
Proof.
  intros Hq.
  constructor; simpl; try done.
  - exists [OEmit e]. split_and!; [done|by repeat constructor|done].
  - by apply futs_le_same.
  - exists []. by rewrite app_nil_r.
  - exists []. by rewrite app_nil_r.
  - by exists [].
  - exists []. by rewrite app_nil_r.
  - by apply srcs_le_same.
  - apply hsrc_hreg; [done|by eexists [_]].
Qed.
Lemma vframe_reg h ap s : q (OReg h) = true -> vframe s (obs1 (OReg h) (s <| cx ::= register_event_handler h ap |>)).
Proof.
  intros Hq. destruct ap; constructor; simpl; try done.
  all: try by (exists []; rewrite app_nil_r).
  all: try by apply futs_le_same.
  all: try by apply srcs_le_same.
  all: try by exists [].
  all: try by (exists [OReg h]; split_and!; [done|by repeat constructor|by rewrite app_nil_r]).
  - intros n. rewrite /occ /regs /unregs /= /occurrences List.filter_app app_length /=. case_bool_decide; simpl; lia.
  - split; [by right|]. intros h' Hh. simpl in Hh.
    apply in_app_or in Hh as [|[->|[]]]; [by left|right; left; by left].
  - intros n. rewrite /occ /regs /unregs /= /occurrences /=. case_bool_decide; simpl; lia.
  - split; [by right|]. intros h' Hh. simpl in Hh. destruct Hh as [->|]; [right; left; by left|by left].
Qed.
Lemma sframe_vframe s c : sframe (cx s) c -> vframe s (s <| cx := c |>).
Proof. intros [E _ _ _ _]. apply vframe_cx; by rewrite E. Qed.
Lemma pres_on_ctx {A} (m : ctx -> ctx * res A) : frames m -> pres vframe (on_ctx m).
Proof.
  intros Hm s s' r. rewrite /on_ctx. destruct (m (cx s)) as [c x] eqn:E. intros [= <- <-].
  apply sframe_vframe. by eapply Hm.
Qed.
(** Changes to maps and to the next identity. *)
Lemma vframe_fields s s' :
  cx s' = cx s -> futs s' = futs s -> (next s <= next s')%nat -> ufuts s' = ufuts s -> cbs s' = cbs s ->
  tasks s' = tasks s -> pipes s' = pipes s -> (pcount s <= pcount s')%Z -> now s' = now s ->
  shutting_down s' = shutting_down s -> efuts s' = efuts s -> loop_thread s' = loop_thread s ->
  rpc s' = rpc s -> evt s' = evt s -> rcode s' = rcode s -> when_idle s' = when_idle s ->
  sigint_seen s' = sigint_seen s -> sdt s' = sdt s -> log s' = log s -> srcs_le w s s' -> vframe s s'.
Proof.
  intros Hc Hf Hn Hu Hb Ht Hp Hpc Hnow Hsd He Hlt Hr Hev Hrc Hw Hsg Hs Hl Hsr. constructor.
  - exists []. rewrite !app_nil_r /hist Hl Hc. split_and!; [done|constructor|done].
  - by apply futs_le_same.
  - rewrite /svc_same Hc. by repeat split.
  - by rewrite Hc.
  - by rewrite Hc.
  - done.
  - exists []. by rewrite app_nil_r.
  - exists []. by rewrite app_nil_r Hc.
  - by exists [].
  - exists []. by rewrite app_nil_r.
  - done.
  - by rewrite /same_stacks Hc.
  - done.
  - apply regs_le_hreg; [by rewrite Hc|by exists []].
  - apply hsrc_hreg; [by rewrite Hc|by exists []].
  - intros k. by rewrite Hc.
Qed.

(** Well-formedness: no future has an identity that is still to be given. *)
Definition wf (s : st) : Prop := forall f, (next s <= f)%nat -> futs s !! f = None.
Lemma wf_vframe s s' : wf s -> vframe s s' -> wf s'.
Proof.
  intros Hw [_ (N & _ & G) _ _ _ _ _ _ _ _ _ _ _ _ _ _] f Hf.
  destruct (futs s' !! f) eqn:E; [|done]. exfalso.
  destruct (decide (futs s !! f = None)) as [Hn|Hn].
  - assert (is_Some (futs s' !! f)) as Hs by (by rewrite E). specialize (G f Hn Hs). lia.
  - apply Hn, Hw. lia.
Qed.

(** New futures: only well formed states. *)
Definition gframe_wf (s s' : st) : Prop := wf s -> vframe s s'.
Notation vframe_wf := gframe_wf.
#[global] Instance vframe_wf_preorder : PreOrder vframe_wf.
Proof.
  split.
  - intros s _. apply vframe_refl.
  - intros a b c H1 H2 Hw. specialize (H1 Hw). specialize (H2 (wf_vframe _ _ Hw H1)).
    by eapply vframe_trans.
Qed.
Lemma vframe_wf_of s s' : vframe s s' -> vframe_wf s s'.
Proof. by intros ? _. Qed.
Lemma pres_wf {A} (m : st -> st * res A) : pres vframe m -> pres vframe_wf m.
Proof. intros H s s' r E _. by eapply H. Qed.

Lemma new_future_frame s : vframe_wf s (new_future s).1.
Proof.
  intros Hw. constructor; simpl; try done.
  - exists []. rewrite !app_nil_r. split_and!; [done|constructor|done].
  - split_and!; simpl; [lia| |].
    + intros f x Hx. assert (f <> next s) as Hne. { intros ->. rewrite Hw in Hx; [lia|done]. }
      exists x. by rewrite lookup_insert_ne.
    + intros f Hf [x Hx]. destruct (decide (f = next s)) as [->|Hne]; [lia|].
      rewrite lookup_insert_ne // in Hx. congruence.
  - exists []. by rewrite app_nil_r.
  - exists []. by rewrite app_nil_r.
  - by exists [].
  - exists []. by rewrite app_nil_r.
  - by apply srcs_le_same.
  - apply hsrc_hreg; [done|by exists []].
Qed.
Lemma new_future_frame' s s' f : new_future s = (s', f) -> vframe_wf s s'.
Proof. intros E. pose proof (new_future_frame s) as H. by rewrite E in H. Qed.
Lemma set_result_frame f s s' r : set_result f s = (s', r) -> vframe s s'.
Proof.
  rewrite /set_result. destruct (futs s !! f) as [[]|] eqn:Hx; intros [= <- _]; try apply vframe_refl.
  constructor; simpl; try done.
  - exists []. rewrite !app_nil_r. split_and!; [done|constructor|done].
  - split_and!; simpl; [lia| |].
    + intros g y Hy. destruct (decide (g = f)) as [->|Hne].
      * rewrite lookup_insert. exists FOk. split; [done|]. intros; by simplify_eq.
      * rewrite lookup_insert_ne //. eauto.
    + intros g Hg [y Hy]. destruct (decide (g = f)) as [->|Hne]; [congruence|].
      rewrite lookup_insert_ne // in Hy. congruence.
  - exists []. by rewrite app_nil_r.
  - exists []. by rewrite app_nil_r.
  - by exists [].
  - exists []. by rewrite app_nil_r.
  - by apply srcs_le_same.
  - apply hsrc_hreg; [done|by exists []].
Qed.

End generic.
Arguments gframe_wf : clear implicits.
Ltac vf_fields := apply vframe_fields; simpl; try done; try lia; by apply srcs_le_same.
Lemma gframe_weaken w (q q' : obs -> bool) b b' s s' :
  (forall o, q o = true -> q' o = true) -> (b' = true -> b = true) -> gframe w q b s s' -> gframe w q' b' s s'.
Proof.
  intros H Hb [L ? ? ? ? ? ? ? ? ? ? ? ? ? ? ?]. constructor; try done; [|auto].
  destruct L as (l & ? & HF & ?). exists l. split_and!; [done| |done]. by apply (Forall_impl _ _ _ HF).
Qed.
Lemma inner_quiet o : inner o = true -> quiet o = true.
Proof. by destruct o. Qed.

(** ** Every action is framed *)
Section exec.
Context (w : world).
Notation vframe := (gframe w inner true).
Notation vframe_wf := (gframe_wf w inner true).
Notation P := (pres vframe_wf).

Lemma P_of_vframe {A} (m : st -> st * res A) : (forall s s' r, m s = (s', r) -> vframe s s') -> P m.
Proof. intros H s s' r E _. by eapply H. Qed.
Lemma P_mod f : (forall s, vframe s (f s)) -> P (modS f).
Proof. intros H. apply pres_mod. intros s _. apply H. Qed.
Lemma P_perform l : P (perform_st w l).
Proof. apply pres_wf, pres_on_ctx, perform_substitutions_frames. Qed.
Lemma P_bval b : P (on_ctx (perform_bval w b)).
Proof. apply pres_wf, pres_on_ctx, perform_bval_frame. Qed.
Lemma P_fval b : P (on_ctx (perform_fval w b)).
Proof. apply pres_wf, pres_on_ctx, perform_fval_frame. Qed.
Lemma P_list l : P (on_ctx (perform_list w l)).
Proof. apply pres_wf, pres_on_ctx, perform_list_frame. Qed.
Lemma P_evaluate c : P (on_ctx (evaluate w c)).
Proof. apply pres_wf, pres_on_ctx, evaluate_frame. Qed.
Lemma P_get_local k : P (on_ctx (get_local k)).
Proof. apply pres_wf, pres_on_ctx, frames_get_local. Qed.
Lemma P_bind {A B} (m : st -> st * res A) (k : A -> st -> st * res B) :
  P m -> (forall a, P (k a)) -> P (bindS m k).
Proof. apply pres_bind, _. Qed.
Lemma P_ret {A} (a : A) : P (retS a).
Proof. apply pres_ret, _. Qed.
Lemma P_raise {A} e : P (@raiseS st A e).
Proof. apply pres_raise, _. Qed.
Lemma P_lift {A} (f : st -> res A) : P (fun s => (s, f s)).
Proof. apply pres_lift, _. Qed.
Lemma P_set_result f : P (set_result f).
Proof. apply P_of_vframe. intros. by eapply set_result_frame. Qed.
Lemma P_fresh : P fresh.
Proof. apply P_of_vframe. intros s s' r [= <- _]. vf_fields. Qed.
Lemma P_need_loop {A} (m : st -> st * res A) : P m -> P (need_loop m).
Proof. intros H s s' r. rewrite /need_loop. destruct (loop_set (cx s)); [apply H|]. by intros [= <- _]. Qed.
(** a computation that looks at the state first *)
Lemma P_state {A} (m : st -> st -> st * res A) : (forall s0, P (m s0)) -> P (fun s => m s s).
Proof. intros H s. apply H. Qed.

Ltac cxf := intros s0; apply vframe_cx_fun; simpl; rewrite ?/register_event_handler; by try case_match.
Ltac pr := repeat first
  [ apply P_ret | apply P_raise | apply P_perform | apply P_bval | apply P_fval | apply P_list
  | apply P_evaluate | apply P_get_local | apply P_set_result | apply P_fresh
  | apply P_bind; [|intros ?] ].

Lemma timer_cancel_frame a s : vframe s (timer_cancel a s).
Proof.
  rewrite /timer_cancel. destruct (timers s !! a) as [t|]; [|vf_fields].
  assert (vframe s (upd_timer a (fun t => t <| t_canceled := true |>) s)) as H1 by vf_fields.
  destruct (t_canceled_fut t) as [f|]; [|done].
  destruct (f_is_done f _); [done|]. etrans; [exact H1|].
  destruct (set_result f _) as [s2 r] eqn:E. by eapply set_result_frame.
Qed.
Lemma unregister_user_frame i s : vframe s (unregister i s).1.
Proof.
  rewrite /unregister /on_ctx /unregister_event_handler. destruct (remove_first i _) as [l|] eqn:E; simpl; [|by apply vframe_cx].
  constructor; simpl; try done.
  all: try by (exists []; rewrite app_nil_r).
  all: try by apply futs_le_same.
  all: try by apply srcs_le_same.
  all: try by exists [].
  all: try by (exists [OUnreg i]; split_and!; [done|by repeat constructor|by rewrite app_nil_r]).
  - intros n. rewrite /occ /regs /unregs /= (remove_first_occ _ _ _ (User n) E). case_bool_decide; simpl; lia.
  - split; [by right|]. intros h' Hh. left. by eapply remove_first_in.
Qed.
Lemma unregister_frame i s : vframe s (on_ctx (unregister_event_handler (Gen i)) s).1.
Proof.
  rewrite /on_ctx /unregister_event_handler. destruct (remove_first (Gen i) _) eqn:E; simpl; [|by apply vframe_cx].
  apply vframe_cx; try done. by eapply hreg_less.
Qed.
Lemma apply_op_frame o s : vframe_wf s (apply_op o s).
Proof.
  destruct o; intros Hw; simpl; try by apply vframe_cx_fun.
  - by apply vframe_emit.
  - by apply vframe_reg.
  - apply unregister_user_frame.
  - pose proof (new_future_frame (w:=w) (q:=inner) (nb:=true) s Hw) as [L F S K G E T C U B PC X Y R I D]. constructor; simpl in *; try done.
    + exists [next s]. split; [done|]. constructor; [|done]. split; [simpl; lia|]. simpl. by rewrite lookup_insert.
    + exists [next s]. split; [done|]. constructor; [|done]. split; [simpl; lia|]. simpl. by rewrite lookup_insert.
  - apply timer_cancel_frame.
Qed.
Lemma apply_ops_frame os s : vframe_wf s (apply_ops os s).
Proof.
  revert s. induction os as [|o os IH]; intros s; [by intros ?; apply vframe_refl|].
  etrans; [apply apply_op_frame|apply IH].
Qed.
Lemma P_call_user f : P (call_user w f).
Proof.
  intros s s' r. rewrite /call_user. destruct (w_fun w f (cx s)) as [ops x]. intros [= <- <-].
  etrans; [|apply apply_ops_frame]. intros _. by apply vframe_cx_fun.
Qed.

Lemma P_eval_cfgs l acc : P (eval_cfgs w l acc).
Proof. revert acc. induction l as [|[k v] l IH]; intros acc; simpl; pr. apply IH. Qed.
Lemma P_eval_env l acc : P (eval_env w l acc).
Proof. revert acc. induction l as [|[k v] l IH]; intros acc; simpl; pr. apply IH. Qed.

Lemma P_get_ld src : P (get_launch_description w src).
Proof.
  rewrite /get_launch_description. apply P_bind.
  - assert (forall s x, srcs s !! src = x -> match x with Some (Some _, _) => False | _ => True end -> forall s' r,
      (l <-- perform_st w (w_loc w src) ;;
       modS (fun s => s <| srcs ::= <[src := (Some l, match x with Some (_, ld) => ld | None => None end)]> |>) ;;;
       retS l) s = (s', r) -> vframe_wf s s') as HP.
    { intros s x <- _ s' r. rewrite /bindS. destruct (perform_st w (w_loc w src) s) as [s1 r1] eqn:E.
      pose proof (P_perform _ _ _ _ E) as H1. intros H2 Hw. specialize (H1 Hw).
      assert (srcs s1 = srcs s) as Hs1.
      { rewrite /perform_st /on_ctx in E. destruct (perform_substitutions w _ _). by simplify_eq. }
      destruct r1 as [l|e|]; [|by simplify_eq..]. rewrite /modS /retS /= in H2. injection H2 as <- _. etrans; [exact H1|].
      apply vframe_fields; try done. intros src' ld'.
      rewrite /known_srcs /=. destruct (decide (src' = src)) as [->|Hne]; [|rewrite lookup_insert_ne //; by left].
      rewrite lookup_insert Hs1. destruct (srcs s !! src) as [[? ?]|]; by left. }
    intros s s' r. destruct (srcs s !! src) as [[[l|] ld]|] eqn:Ex; [by intros [= <- _]| |].
    + by apply (HP s _ Ex).
    + by apply (HP s _ Ex).
  - intros loc s s' r. set (s1 := s <| cx ::= _ |>). 
    assert (vframe s s1) as H1 by (by apply vframe_cx_fun).
    destruct (srcs s !! src) as [[l [ld|]]|]; [by intros [= <- _]| |].
    all: destruct (w_load w src loc _) as [ld'|e|] eqn:El; intros [= <- _]; intros _; try done.
    all: etrans; [exact H1|]; apply vframe_fields; try done; intros src' ld1;
      rewrite /known_srcs /=; (destruct (decide (src' = src)) as [->|Hne]; [|rewrite lookup_insert_ne //; by left]);
      rewrite lookup_insert; intros [= <-]; right; by do 2 eexists.
Qed.
Lemma P_exec_include fuel src args : P (exec_include w fuel src args).
Proof.
  rewrite /exec_include. apply P_bind; [apply P_get_ld|]. intros [loc ld].
  apply P_bind; [apply P_mod; cxf|]. intros _.
  apply P_bind; [apply P_mod; cxf|]. intros _. pr. apply P_lift.
Qed.
Lemma P_event_of_locals : P event_of_locals.
Proof. rewrite /event_of_locals. pr. destruct a; pr. Qed.
Lemma task_frame s l : Forall (fun x => new_task x = true) l -> vframe s (s <| tasks ::= fun t => t ++ l |>).
Proof.
  intros H. constructor; simpl; try done.
  - exists []. rewrite !app_nil_r. by split_and!.
  - by apply futs_le_same.
  - by exists l.
  - exists []. by rewrite app_nil_r.
  - by exists [].
  - exists []. by rewrite app_nil_r.
  - by apply srcs_le_same.
  - apply hsrc_hreg; [done|by exists []].
Qed.
Lemma P_exec_timer a p b c : P (exec_timer w a p b c).
Proof.
  rewrite /exec_timer. apply P_need_loop. intros s s' r.
  destruct (new_future s) as [s1 fc] eqn:E1. destruct (new_future s1) as [s2 fx] eqn:E2.
  assert (vframe_wf s s2) as H12.
  { etrans; eapply new_future_frame'; eassumption. }
  set (canc := match timers s2 !! a with Some t => _ | None => _ end).
  set (s3 := s2 <| timers ::= _ |>).
  assert (vframe_wf s s3) as H3. { etrans; [exact H12|]. intros _. vf_fields. }
  destruct canc.
  - destruct (set_result fc s3) as [s4 r4] eqn:E4. intros [= <- _]. etrans; [exact H3|].
    intros _. by eapply set_result_frame.
  - intros H. etrans; [exact H3|]. revert H.
    match goal with |- ?m s3 = _ -> _ => assert (P m) as HP; [|apply HP] end.
    apply P_bind.
    { intros s4 s5 r5. destruct (timer_installed (cx s4)); [by intros [= <- _]|].
      match goal with |- ?m s4 = _ -> _ => assert (P m) as HP; [|apply HP] end.
      pr. apply P_mod. rewrite /timers_handler. cxf. }
    intros _. apply P_bind.
    { apply pres_wf, pres_on_ctx. intros c1 c2 r1. destruct (get_combined_locals c1) as [c3 d] eqn:Eg.
      intros [= <- _]. pose proof (frames_get_local "" c1) as Hf. rewrite /get_local Eg in Hf. by eapply Hf. }
    intros d. apply P_bind; [apply P_mod; intros s4; vf_fields|]. intros _.
    apply P_bind; [apply P_mod; intros s4; etrans; [apply (task_frame _ [TTimerInit a]); by repeat constructor|by apply vframe_obs]|]. intros _.
    pr. destruct a0; pr. apply P_mod. intros s4. by apply vframe_reg.
Qed.
Lemma P_exec_timer_handle : P exec_timer_handle.
Proof.
  rewrite /exec_timer_handle. apply P_bind; [apply P_event_of_locals|]. intros e. destruct e; try apply P_raise.
  intros s s' r. destruct (timers s !! a); intros [= <- _]; [|done]. intros _. by apply vframe_cx_fun.
Qed.
Lemma P_exec_coro a : P (exec_coro a).
Proof.
  rewrite /exec_coro. apply P_need_loop. intros s s' r.
  destruct (new_future s) as [s1 f] eqn:E1. intros H.
  assert (vframe_wf s (s1 <| ufuts ::= cons f |> <| coros ::= <[a := f]> |>)) as H1.
  { intros Hw. pose proof (new_future_frame (w:=w) (q:=inner) (nb:=true) s Hw) as HF. rewrite E1 /= in HF. injection E1 as E1 <-. subst s1.
    destruct HF as [L F S K G E T C U B PC X Y R I D]. constructor; simpl in *; try done.
    exists [next s]. split; [done|]. constructor; [|done]. split; [simpl; lia|]. simpl. by rewrite lookup_insert. }
  etrans; [exact H1|]. revert H.
  match goal with |- ?m ?s3 = _ -> _ => assert (P m) as HP; [|apply HP] end.
  pr. apply P_mod. intros s4. by apply vframe_reg.
Qed.
Lemma P_upd_proc a f : P (modS (upd_proc a f)).
Proof. apply P_mod. intros s. vf_fields. Qed.
Lemma P_prepare_executable c : P (prepare_executable w c).
Proof.
  rewrite /prepare_executable. pr.
  - destruct (p_prefix c); pr. destruct a; pr.
  - destruct a0; pr.
  - destruct (p_name c); pr. destruct a1; pr.
  - apply P_mod. intros s. vf_fields.
  - intros s s' r. match goal with |- ?m ?s3 = _ -> _ => assert (P m) as HP; [|apply HP] end. pr.
    + destruct (p_cwd c); pr.
    + destruct (p_env c); [apply P_eval_env|apply P_lift].
    + destruct (p_addenv c); [apply P_eval_env|pr].
Qed.
Lemma P_prepare_proc a : P (prepare_proc w a).
Proof.
  intros s s' r. rewrite /prepare_proc. destruct (procs s !! a) as [p|]; [|by intros [= <- _]].
  match goal with |- ?m ?s3 = _ -> _ => assert (P m) as HP; [|apply HP] end.
  apply P_bind; [apply P_prepare_executable|intros d]. pr; apply P_upd_proc.
Qed.
Lemma register_all_cons h hs s :
  register_all (h :: hs) s = register_all hs (obs1 (OReg h) (s <| cx ::= register_event_handler h false |>)).
Proof. rewrite /register_all /obs1. destruct s. rewrite /set /=. by rewrite -app_assoc. Qed.
Lemma register_all_frame hs s : Forall internal hs -> vframe s (register_all hs s).
Proof.
  intros H. revert s. induction H as [|h hs Hh _ IH]; intros s; [by destruct s|].
  rewrite register_all_cons. etrans; [|apply IH]. by apply vframe_reg.
Qed.
Lemma proc_handlers_internal a b n : Forall internal (proc_handlers a b n).
Proof. repeat constructor; by eexists. Qed.
Lemma unregister_all_frame hs s : vframe s (unregister_all hs s).1.
Proof.
  revert s. induction hs as [|h hs IH]; intros s; [by apply vframe_refl|].
  rewrite /= /bindS. pose proof (unregister_user_frame (h_id h) s) as H1.
  destruct (unregister (h_id h) s) as [s1 [u|e|]]; simpl in *; [|done..]. etrans; [exact H1|apply IH].
Qed.
Lemma P_guard hs m : Forall internal hs -> P m -> P (guard_handlers hs m).
Proof.
  intros HF Hm s s' r. rewrite /guard_handlers. destruct (m s) as [s1 [u|e|]] eqn:E.
  - intros [= <- _]. by eapply Hm.
  - pose proof (unregister_all_frame hs s1) as H1.
    destruct (unregister_all hs s1) as [s2 [u|e'|]]; simpl in H1; intros [= <- _];
      (etrans; [by eapply Hm|by intros _]).
  - intros [= <- _]. by eapply Hm.
Qed.
Lemma P_start_proc a o : P (start_proc w a o).
Proof.
  rewrite /start_proc. apply P_need_loop. intros s s' r.
  destruct (new_future s) as [s1 fc] eqn:E1. 
  set (s2 := upd_proc a _ s1). destruct (new_future s2) as [s3 fs] eqn:E2. set (s4 := upd_proc a _ s3).
  assert (vframe_wf s s4) as H.
  { etrans; [eapply new_future_frame'; eassumption|].
    etrans; [|etrans; [eapply new_future_frame'; eassumption|]].
    - intros _. vf_fields.
    - intros _. vf_fields. }
  intros Hm. etrans; [exact H|]. revert Hm.
  match goal with |- ?m ?s3 = _ -> _ => assert (P m) as HP; [|apply HP] end.
  pr; [destruct (w_output_ok w a0); pr|]. apply P_mod. intros s5. etrans; [|apply task_frame; by repeat constructor]. vf_fields.
Qed.
Lemma P_exec_proc a c oe : P (exec_proc w a c oe).
Proof.
  rewrite /exec_proc. apply P_bind; [apply P_mod; intros s; vf_fields|]. intros _.
  apply P_bind; [apply P_prepare_proc|]. intros _ s s' r.
  destruct (procs s !! a) as [p|]; [|by intros [= <- _]].
  destruct (x_executed p); [by intros [= <- _]|].
  set (s1 := upd_proc a _ s). assert (vframe s s1) as H1 by vf_fields.
  destruct (is_shutdown (cx s1)); [intros [= <- _]; by intros _|].
  set (hs := proc_handlers _ _ _). set (s2 := s1 <| next ::= _ |>).
  assert (vframe s (register_all hs s2)) as H2.
  { etrans; [exact H1|]. etrans; [|apply register_all_frame, proc_handlers_internal]. vf_fields. }
  intros H. etrans; [intros _; exact H2|]. revert H.
  match goal with |- ?m ?s3 = _ -> _ => assert (P m) as HP; [|apply HP] end.
  pr. apply P_guard; [apply proc_handlers_internal|apply P_start_proc].
Qed.
Lemma P_shutdown_process a b : P (shutdown_process a b).
Proof.
  intros s0 s' r. rewrite /shutdown_process. intros H.
  assert (vframe s0 (obs1 (OAsked a) s0)) as H0 by (by apply vframe_obs).
  etrans; [intros _; exact H0|]. revert H. generalize (obs1 (OAsked a) s0). clear s0 H0. intros s.
  destruct (procs s !! a) as [p|]; [|by intros [= <- _]].
  destruct (x_shutdown p) as [sf|]; [|by intros [= <- _]].
  destruct (f_is_done sf s); [by intros [= <- _]|].
  match goal with |- ?m = _ -> _ => assert (exists m', P m' /\ m = m' s) as (m' & HP & ->); [|apply HP] end.
  destruct (x_completed p) as [cf|]; [|eexists; split; [|done]; pr].
  destruct (f_is_done cf s); [eexists; split; [|done]; pr|].
  destruct (x_det p) as [d|]; [destruct (x_transport p) as [tr|]|].
  - eexists; split; [|done]. pr; [|apply P_upd_proc|]; apply P_mod; [cxf|]. intros s1. by apply vframe_obs.
  - eexists; split; [|done]. pr. apply P_mod. intros s1. by apply vframe_reg.
  - eexists; split; [|done]. pr. apply P_mod. intros s1. by apply vframe_reg.
Qed.
Lemma P_exec_proc_shutdown a : P (exec_proc_shutdown w a).
Proof.
  rewrite /exec_proc_shutdown. apply P_bind; [apply P_event_of_locals|]. intros e. destruct e; try apply P_raise.
  apply P_bind; [apply P_lift|]. intros []; [apply P_shutdown_process|apply P_ret].
Qed.
Lemma P_exec_proc_signal a : P (exec_proc_signal w a).
Proof.
  rewrite /exec_proc_signal. apply P_bind; [apply P_event_of_locals|]. intros e. destruct e; try apply P_raise.
  apply P_bind; [apply P_lift|]. intros []; [|apply P_ret]. intros s1 s' r.
  destruct (procs s1 !! a) as [p|]; [|by intros [= <- _]].
  destruct (x_det p), (x_transport p); try by intros [= <- _].
  destruct (f_is_done n s1); intros [= <- _]; [done|]. intros _. by apply vframe_obs.
Qed.
Lemma P_exec_test a c oe t : P (exec_test w a c oe t).
Proof.
  rewrite /exec_test. apply P_bind; [apply P_exec_proc|]. intros l. destruct t; [|apply P_ret]. destruct (no_timeout _); [apply P_ret|].
  pr. apply P_mod. intros s1. by apply vframe_reg.
Qed.
(** The four actions that move between scopes. *)
Definition push_pop (k : action) : bool :=
  match k with APushLC | APopLC | APushEnv | APopEnv => true | _ => false end.
Lemma P_exec_action fuel a k : pres (gframe_wf w inner (negb (push_pop k))) (exec_action w fuel a k).
Proof.
  destruct (push_pop k) eqn:Ek; destruct k; try done; simpl.
  - apply pres_bind; [apply _| |intros; apply pres_ret, _]. apply pres_mod. intros s _. by apply vframe_cx_fun.
  - apply pres_bind; [apply _| |intros; apply pres_ret, _].
    intros s s' r. rewrite /on_ctx /pop_lc. destruct (lc_stack (cx s)); intros [= <- _] _; by apply vframe_cx.
  - apply pres_bind; [apply _| |intros; apply pres_ret, _]. apply pres_mod. intros s _. by apply vframe_cx_fun.
  - apply pres_bind; [apply _| |intros; apply pres_ret, _].
    intros s s' r. rewrite /on_ctx /pop_env. destruct (env_stack (cx s)); intros [= <- _] _; by apply vframe_cx.
  - rewrite /exec_set. pr. apply P_mod. cxf.
  - rewrite /exec_unset. pr. apply P_mod. cxf.

  - rewrite /exec_reset_lc. destruct cfgs; pr; [apply P_eval_cfgs| |]; apply P_mod; cxf.
  - pr. apply P_mod. cxf.
  - rewrite /exec_set. pr. apply P_mod. cxf.
  - rewrite /exec_unset. pr. apply P_mod. cxf.
  - rewrite /exec_append_env. pr. apply P_mod. cxf.
  - rewrite /exec_declare. apply P_bind.
    + intros s s' r. destruct (lc (cx s) !! n); [by intros [= <- _]|]. destruct default; [|by intros [= <- _]].
      match goal with |- ?m ?s3 = _ -> _ => assert (P m) as HP; [|apply HP] end. pr. apply P_mod. cxf.
    + intros _. destruct choices; pr. intros s s' r. destruct (lc (cx s) !! n); [|by intros [= <- _]].
      destruct (existsb _ _); by intros [= <- _].
  - pr.
  - apply P_exec_include.
  - apply P_call_user.
  - pr. apply P_mod. intros. by apply vframe_emit.
  - apply P_bind; [|intros _; pr; apply P_mod; intros; by apply vframe_emit].
    apply pres_wf, pres_on_ctx. intros c c' r. intros [= <- _].
    destruct (get_local "event" c) as [c1 x] eqn:E. simpl. by eapply frames_get_local.
  - pr. apply P_mod. intros s0. by apply vframe_reg.
  - apply P_bind; [|intros _; pr]. apply P_of_vframe. intros s s' r H. pose proof (unregister_user_frame (h_id h) s) as HF. by rewrite H in HF.
  - pr. apply P_mod. intros. by apply vframe_obs.
  - apply P_exec_timer.
  - apply P_exec_proc.
  - apply P_exec_coro.
  - apply P_exec_test.
  - apply P_bind; [apply P_event_of_locals|]. intros e; destruct e; pr.
  - apply P_exec_timer_handle.
  - pr. apply P_mod. intros. apply timer_cancel_frame.
  - apply P_exec_proc_shutdown.
  - apply P_exec_proc_signal.
  - pr. destruct t; pr.
  - apply P_shutdown_process.
Qed.
Lemma complete_action_frame e a s : vframe s (complete_action w e a s).
Proof.
  rewrite /complete_action. destruct (would_handle_event _ _ _); [|done].
  destruct (get_future e s); [|by apply vframe_emit].
  constructor; simpl; try done.
  - exists []. rewrite !app_nil_r. by split_and!.
  - by apply futs_le_same.
  - exists []. by rewrite app_nil_r.
  - exists []. by rewrite app_nil_r.
  - by exists [].
  - by eexists.
  - by apply srcs_le_same.
  - apply hsrc_hreg; [done|by exists []].
Qed.
Definition visit_push_pop (e : entity) : bool :=
  match e with EAct _ _ k => push_pop k | _ => false end.
Lemma P_visit_one fuel e : pres (gframe_wf w quiet (negb (visit_push_pop e))) (visit_one w fuel e).
Proof.
  intros s s' r. rewrite /visit_one.
  assert (gframe w quiet (negb (visit_push_pop e)) s (obs1 (OVisit e) s)) as H1 by (by apply vframe_obs).
  destruct e as [l|a c k]; [by intros [= <- _]; intros _|].
  intros H. etrans; [intros _; exact H1|]. revert H.
  match goal with |- ?m ?s3 = _ -> _ => assert (pres (gframe_wf w quiet (negb (visit_push_pop (EAct a c k)))) m) as HP; [|apply HP] end.
  apply pres_bind; [apply _| |].
  { destruct c; [|apply pres_ret, _]. intros s1 s2 r1 E Hw. eapply gframe_weaken; [apply inner_quiet|done|].
    by eapply P_evaluate. }
  intros []; [|apply pres_ret, _]. intros s1 s2 r1.
  destruct (exec_action w fuel a k (obs1 (OExecuted a) s1)) as [s3 r3] eqn:E. intros [= <- _].
  etrans; [|etrans; [intros Hw; eapply gframe_weaken; [apply inner_quiet| |by eapply P_exec_action, Hw]; done|]].
  - intros _. by apply vframe_obs.
  - intros _. etrans; [|eapply gframe_weaken; [apply inner_quiet| |apply complete_action_frame]; done]. by apply vframe_obs.
Qed.
End exec.

(** Visiting a tree preserves what visiting one entity preserves. *)
Definition visit_list w (fuel : nat) : list entity -> st -> st * res (list nat) :=
  fix go (l : list entity) :=
  match l with
  | [] => retS []
  | x :: l' => a <-- visit_all w fuel x ;; b <-- go l' ;; retS (a ++ b)
  end.
Definition own_future (e : entity) (s : st) : list nat :=
  match get_future e s with Some f => [f] | None => [] end.
Lemma visit_all_eq w fuel e s :
  visit_all w fuel e s =
  match fuel with
  | O => (s, OutOfFuel)
  | S fuel' =>
      (subs <-- visit_one w fuel' e ;;
       fs <-- visit_list w fuel' subs ;;
       fun s => (s, Ok (fs ++ own_future e s))) s
  end.
Proof.
  destruct fuel as [|fuel]; [done|]. simpl. rewrite /bindS.
  destruct (visit_one w fuel e s) as [s1 [subs|x|]]; try done.
Qed.
Lemma visit_all_pres w (R : st -> st -> Prop) `{!PreOrder R} :
  (forall fuel e, pres R (visit_one w fuel e)) -> forall fuel e, pres R (visit_all w fuel e).
Proof.
  intros H1 fuel. induction fuel as [|fuel IH]; intros e s s' r; rewrite visit_all_eq.
  { by intros [= <- _]. }
  match goal with |- ?m ?s3 = _ -> _ => assert (pres R m) as HP; [|apply HP] end.
  apply pres_bind; [done|apply H1|]. intros subs. apply pres_bind; [done| |].
  - induction subs as [|x l IHl]; simpl; [apply pres_ret, _|].
    apply pres_bind; [done|apply IH|]. intros a. apply pres_bind; [done|apply IHl|]. intros b. apply pres_ret, _.
  - intros fs. apply pres_lift, _.
Qed.
Lemma visit_all_frame w fuel e : pres (gframe_wf w quiet false) (visit_all w fuel e).
Proof.
  apply visit_all_pres; [apply _|]. intros fuel' e' s s' r E Hw.
  eapply gframe_weaken; [| |by eapply P_visit_one]; done.
Qed.

(** Lemmas about waiting in tests. *)
From Coq Require Import ssreflect.
From Verif Require Import SpecWaiting.

Lemma ends_in_snoc l x : ends_in (l ++ [x]) = ends_in l + (match x with WEnd => 1 | _ => 0 end).
Proof. rewrite /ends_in List.filter_app app_length. by destruct x. Qed.

Section facts.
Context (sync : bool) (cond : list string -> option bool) (timeout : option Z).
Notation run := (w_run sync cond timeout).
Notation all_false := (Forall (fun x : list string * bool => snd x = false)).

Lemma run_snoc o c l x : run o c (l ++ [x]) = w_do sync cond timeout (run o c l) x.
Proof. unfold w_run. by rewrite fold_left_app. Qed.

(** ** The evaluations *)
Definition good (st : wst) (x : list string * bool) : Prop := cond (fst x) = Some (snd x) /\ exists later, wt_output st = fst x ++ later.
Definition reg_of (pc : wpc) : bool := match pc with PFirst | PRegister _ | PReturned _ => false | _ => true end.
Definition ends (b : bool) (l : list (list string * bool)) : Prop := exists before out, l = before ++ [(out, b)] /\ all_false before.
Definition late (st : wst) : Prop := exists t, timeout = Some t /\ (wt_start st + t <= wt_clock st)%Z.
Definition res_inv (st : wst) (r : wres) : Prop :=
  match r with
  | WBool true => ends true (wt_seen st)
  | WBool false => ends false (wt_seen st) /\ late st
  | WType => ends false (wt_seen st) /\ timeout = None /\ length (wt_seen st) = 1
  | WRaised => all_false (wt_seen st) /\ exists out later, wt_output st = out ++ later /\ cond out = None
  end.
Definition pc_inv (st : wst) : Prop :=
  match wt_pc st with
  | PFirst => wt_seen st = []
  | PRegister b | PTime b => ends b (wt_seen st) /\ length (wt_seen st) = 1
  | PTest b now => ends b (wt_seen st) /\ (now <= wt_clock st)%Z /\ (timeout = None -> length (wt_seen st) = 1)
  | PWait u => ends false (wt_seen st) /\ exists t, timeout = Some t /\ (wt_start st + t <= u)%Z
  | PClear | PEval => ends false (wt_seen st) /\ timeout <> None
  | PNow b => ends b (wt_seen st) /\ timeout <> None
  | PLeave r | PReturned r => res_inv st r
  end.
Definition inv1 (st : wst) : Prop := wt_registered st = reg_of (wt_pc st) /\ Forall (good st) (wt_seen st) /\ pc_inv st.

Lemma ends_false l : ends false l -> all_false l.
Proof. intros (a & o & -> & H). apply Forall_app. split; [done|]. by constructor. Qed.
Lemma ends_snoc b l o : all_false l -> ends b (l ++ [(o, b)]).
Proof. intros H. by exists l, o. Qed.
Lemma ends_all b l : ends b l -> b = false -> all_false l.
Proof. intros H ->. by apply ends_false. Qed.
(** The environment changes only the output (it grows), the event, the clock (it grows) and
    what is being handled. *)
Lemma env_inv st out e c h : inv1 st -> (exists later, out = wt_output st ++ later) -> (wt_clock st <= c)%Z -> inv1 (w_set out e c h st).
Proof.
  intros (H1 & H2 & H3) (later & ->) Hc. split; [done|]. split.
  - cbn [w_set wt_seen]. eapply Forall_impl; [exact H2|]. intros x (Hx & l & El). split; [done|]. cbn [wt_output]. exists (l ++ later). by rewrite El app_assoc.
  - unfold pc_inv in *. cbn [w_set wt_pc wt_seen wt_clock]. destruct (wt_pc st); try done.
    + destruct H3 as (? & ? & ?). repeat split; [done|lia|done].
    + unfold res_inv, late in *. cbn [w_set wt_seen wt_clock wt_output wt_start]. destruct r as [[]| |]; try done.
      * destruct H3 as (? & t & ? & ?). split; [done|]. exists t. split; [done|lia].
      * destruct H3 as (? & o & l & -> & ?). split; [done|]. exists o, (l ++ later). by rewrite app_assoc.
    + unfold res_inv, late in *. cbn [w_set wt_seen wt_clock wt_output wt_start]. destruct r as [[]| |]; try done.
      * destruct H3 as (? & t & ? & ?). split; [done|]. exists t. split; [done|lia].
      * destruct H3 as (? & o & l & -> & ?). split; [done|]. exists o, (l ++ later). by rewrite app_assoc.
Qed.
Lemma good_goto pc st : Forall (good st) (wt_seen st) -> Forall (good (w_goto pc st)) (wt_seen (w_goto pc st)).
Proof. done. Qed.
Lemma step_inv w st : inv1 st -> inv1 (w_step sync cond timeout w st).
Proof.
  intros (H1 & H2 & H3). unfold w_step. destruct (wt_pc st) as [|b|b|b now|u| | |b|r|r] eqn:E; unfold pc_inv in H3; rewrite E in H3; simpl in H1.
  - unfold w_eval. destruct (cond (wt_output st)) as [b|] eqn:Ec.
    + split; [done|]. cbn [wt_seen wt_pc]. rewrite H3 /=. split.
      * constructor; [|done]. split; [done|]. exists []. by rewrite app_nil_r.
      * unfold pc_inv; cbn [wt_pc wt_seen]. split; [|done]. exists [], (wt_output st). by split.
    + split; [done|]. split; [done|]. unfold pc_inv; cbn [w_goto wt_pc res_inv wt_seen]. rewrite H3. split; [done|]. exists (wt_output st), []. by rewrite app_nil_r.
  - split; [done|]. split; done.
  - split; [done|]. split; [done|]. unfold pc_inv; cbn [wt_pc wt_seen wt_clock]. destruct H3. repeat split; [done|lia|done].
  - destruct H3 as (He & Hn & Ht). destruct b.
    + split; [done|]. by split.
    + destruct timeout as [t|] eqn:Et.
      * destruct (Z.ltb_spec now (wt_start st + t)).
        -- split; [done|]. split; [done|]. unfold pc_inv; cbn [w_goto wt_pc wt_seen wt_start]. split; [done|]. exists t. split; [done|lia].
        -- split; [done|]. split; [done|]. unfold pc_inv; cbn [w_goto wt_pc]. split; [done|]. exists t. split; [done|]. cbn [w_goto wt_start wt_clock]. lia.
      * split; [done|]. split; [done|]. unfold pc_inv; cbn [w_goto wt_pc]. by split; [|split; [|apply Ht]].
  - destruct H3 as (He & t & Et & Hu). assert (timeout <> None) as Hnn by (by rewrite Et).
    destruct w; [destruct (wt_event st)|destruct (Z.leb_spec u (wt_clock st))].
    + split; [done|]. by split.
    + split; [by rewrite E|]. split; [done|]. unfold pc_inv. rewrite E. eauto.
    + destruct sync.
      * split; [done|]. by split.
      * split; [done|]. split; [done|]. unfold pc_inv; cbn [w_goto wt_pc]. split; [done|]. exists t. split; [done|]. cbn [w_goto wt_start wt_clock]. lia.
    + split; [by rewrite E|]. split; [done|]. unfold pc_inv. rewrite E. eauto.
  - split; [done|]. by split.
  - destruct H3 as (He & Hn). unfold w_eval. destruct (cond (wt_output st)) as [b|] eqn:Ec.
    + split; [done|]. cbn [wt_seen wt_pc]. split.
      * apply Forall_app. split; [done|]. constructor; [|done]. split; [done|]. exists []. by rewrite app_nil_r.
      * unfold pc_inv; cbn [wt_pc wt_seen]. split; [|done]. apply ends_snoc. by apply ends_false.
    + split; [done|]. split; [done|]. unfold pc_inv; cbn [w_goto wt_pc]. split; [by apply ends_false|]. exists (wt_output st), []. by rewrite app_nil_r.
  - destruct H3 as (He & Hn). split; [done|]. split; [done|]. unfold pc_inv; cbn [w_goto wt_pc wt_seen wt_clock]. repeat split; [done|lia|done].
  - split; [done|]. by split.
  - split; [by rewrite E|]. split; [done|]. unfold pc_inv. by rewrite E.
Qed.
Lemma do_inv st o : inv1 st -> inv1 (w_do sync cond timeout st o).
Proof.
  intros H. assert (exists later, wt_output st = wt_output st ++ later) as Hsame by (exists []; by rewrite app_nil_r).
  destruct o as [w|d|t| |]; cbn [w_do].
  - pose proof (step_inv w st H) as Hs. destruct (wt_handling st); [destruct sync; done|done].
  - apply env_inv; [done|done|lia].
  - destruct (wt_handling st); [done|]. destruct (sync || at_await (wt_pc st)); [|done]. apply env_inv; [done|done|lia].
  - destruct (wt_handling st) as [h|]; [|done]. destruct (hg_kept h); [done|]. apply env_inv; [done|eauto|lia].
  - destruct (wt_handling st) as [h|]; [|done]. destruct (hg_kept h); [|done]. apply env_inv; [done|done|lia].
Qed.
Lemma run_inv o c l : inv1 (run o c l).
Proof. induction l as [|x l IH] using rev_ind; [split; [done|]; split; [constructor|done]|]. rewrite run_snoc. by apply do_inv. Qed.

(** The laws. *)

(** ** The number of evaluations *)
Definition tokens (st : wst) : nat :=
  match wt_pc st with PFirst => 1 + (if wt_event st then 1 else 0) | PClear => 1 | PEval => 1 + (if wt_event st then 1 else 0) | _ => if wt_event st then 1 else 0 end.
Definition over (st : wst) : Prop := exists t, timeout = Some t /\ (wt_start st + t <= wt_clock st)%Z /\
  match wt_pc st with PClear | PEval | PNow _ | PLeave _ | PReturned _ => True | PTest _ now => (wt_start st + t <= now)%Z | _ => False end.
Definition quiet (n : nat) (st : wst) : Prop :=
  length (wt_seen st) + tokens st <= 1 + n \/ sync = true /\ length (wt_seen st) + tokens st <= 2 + n /\ over st.
Lemma quiet_more n m st : n <= m -> quiet n st -> quiet m st.
Proof. rewrite /quiet. intros H [?|(? & ? & ?)]; [left; lia|right; split; [done|]; split; [lia|done]]. Qed.
Lemma step_quiet n w st : inv1 st -> quiet n st -> quiet n (w_step sync cond timeout w st).
Proof.
  intros (_ & _ & H1) HQ. rewrite /quiet /tokens /over /pc_inv in H1 HQ |- *. destruct st as [out reg ev clk start pc h seen]. cbn in H1, HQ |- *.
  rewrite /w_step /w_eval. cbn. destruct pc as [|b|b|b now|u| | |b|r|r]; cbn in H1, HQ |- *.
  - destruct HQ as [HQ|(_ & _ & t & _ & _ & [])]. destruct (cond out); cbn; rewrite ?app_length; cbn; left; destruct ev; lia.
  - destruct HQ as [HQ|(_ & _ & t & _ & _ & [])]. by left.
  - destruct HQ as [HQ|(_ & _ & t & _ & _ & [])]. by left.
  - destruct b; [cbn; destruct HQ as [HQ|(? & ? & t & ? & ? & ?)]; [by left|right; split; [done|]; split; [done|]; by exists t]|].
    destruct timeout as [t|] eqn:Et.
    + destruct (Z.ltb_spec now (start + t)) as [Hlt|Hge]; cbn; (destruct HQ as [HQ|(? & ? & t' & [= <-] & ? & ?)]; [by left|]); [lia|].
      right. split; [done|]. split; [done|]. by exists t.
    + cbn. destruct HQ as [HQ|(? & ? & t' & ? & ? & ?)]; [by left|done].
  - destruct HQ as [HQ|(_ & _ & t & _ & _ & [])]. destruct w.
    + destruct ev; cbn; [left|by left]. done.
    + destruct (Z.leb_spec u clk) as [Hu|Hu]; [|by left]. destruct sync eqn:Es; cbn; [|by left].
      destruct H1 as (_ & t & -> & Ht). right. split; [done|]. split; [destruct ev; lia|]. exists t. split; [done|]. split; [lia|done].
  - destruct HQ as [HQ|(? & ? & t & ? & ? & ?)]; [left; lia|right]. split; [done|]. split; [lia|]. by exists t.
  - destruct (cond out); cbn; rewrite ?app_length; cbn; (destruct HQ as [HQ|(? & ? & t & ? & ? & ?)]; [left; destruct ev; lia|right; split; [done|]; split; [destruct ev; lia|]; by exists t]).
  - destruct HQ as [HQ|(? & ? & t & ? & ? & ?)]; [by left|right]. split; [done|]. split; [done|]. by exists t.
  - destruct HQ as [HQ|(? & ? & t & ? & ? & ?)]; [by left|right]. split; [done|]. split; [done|]. by exists t.
  - destruct HQ as [HQ|(? & ? & t & ? & ? & ?)]; [by left|right]. split; [done|]. split; [done|]. by exists t.
Qed.
Lemma env_quiet n m out e c h st : quiet n st -> (wt_clock st <= c)%Z -> n <= m -> (e = wt_event st \/ n < m) -> quiet m (w_set out e c h st).
Proof.
  intros HQ Hc Hn He. rewrite /quiet /tokens /over in HQ |- *. cbn in HQ |- *. destruct HQ as [HQ|(? & HQ & t & ? & Ht & Hp)]; [left|right; split; [done|]; split; [|exists t; split; [done|]; split; [lia|done]]];
    (destruct He as [->|He]; [destruct (wt_pc st), (wt_event st); lia|]); destruct (wt_pc st), e, (wt_event st); lia.
Qed.
Lemma quiet_run o c l : quiet (ends_in l) (run o c l).
Proof.
  induction l as [|x l IH] using rev_ind; [left; cbn; lia|]. rewrite run_snoc ends_in_snoc. destruct x as [w|d|text| |]; rewrite ?Nat.add_0_r; cbn [w_do].
  - pose proof (step_quiet _ w _ (run_inv o c l) IH) as HS. destruct (wt_handling _); [|done]. revert IH HS. by destruct sync.
  - eapply env_quiet; [done|lia|lia|by left].
  - destruct (wt_handling _); [done|]. destruct (_ || _); [|done]. eapply env_quiet; [done|lia|lia|by left].
  - destruct (wt_handling _) as [hg|]; [|done]. destruct (hg_kept hg); [done|]. eapply env_quiet; [done|lia|lia|by left].
  - destruct (wt_handling _) as [hg|]; [|by eapply quiet_more, IH; lia]. destruct (hg_kept hg); [|by eapply quiet_more, IH; lia]. eapply env_quiet; [done|lia|lia|right; lia].
Qed.
Lemma quiet_law o c l : length (wt_seen (run o c l)) <= (if sync then 2 else 1) + ends_in l.
Proof. destruct (quiet_run o c l) as [H|(-> & H & _)]; [destruct sync; lia|lia]. Qed.

Lemma to_evaluated st b : inv1 st -> ends b (wt_seen st) -> evaluated cond st b.
Proof. intros (_ & H & _) (a & o & E & Ha). exists a, o. by split; [|split]. Qed.
Lemma result_law o c l r : let st := run o c l in wt_pc st = PReturned r ->
  wt_registered st = false /\
  match r with
  | WBool true => evaluated cond st true
  | WBool false => evaluated cond st false /\ exists t, timeout = Some t /\ (wt_start st + t <= wt_clock st)%Z
  | WType => evaluated cond st false /\ timeout = None /\ length (wt_seen st) = 1
  | WRaised => Forall (fun x => snd x = false) (wt_seen st) /\ exists out later, wt_output st = out ++ later /\ cond out = None
  end.
Proof.
  intros st E. pose proof (run_inv o c l) as Hi. fold st in Hi. pose proof Hi as (H1 & H2 & H3). rewrite E /= in H1. split; [done|].
  unfold pc_inv in H3. rewrite E in H3. destruct r as [[]| |]; cbn [res_inv] in H3.
  - by apply to_evaluated.
  - destruct H3. split; [by apply to_evaluated|done].
  - destruct H3. split; [by apply to_evaluated|done].
  - done.
Qed.
Lemma waiting_law o c l u : let st := run o c l in wt_pc st = PWait u ->
  wt_registered st = true /\ evaluated cond st false /\ exists t, timeout = Some t /\ (wt_start st + t <= u)%Z.
Proof.
  intros st E. pose proof (run_inv o c l) as Hi. fold st in Hi. pose proof Hi as (H1 & H2 & H3). rewrite E /= in H1. split; [done|].
  unfold pc_inv in H3. rewrite E in H3. destruct H3. split; [by apply to_evaluated|done].
Qed.
(** Woken while the condition holds, it returns True. *)
Lemma wake_law o c l : let st := run o c l in (exists u, wt_pc st = PWait u) -> wt_event st = true -> wt_handling st = None ->
  cond (wt_output st) = Some true ->
  wt_pc (fold_left (w_do sync cond timeout) (repeat (WStep true) 6) st) = PReturned (WBool true).
Proof.
  intros st (u & E) Ee Eh Ec. clearbody st. destruct st as [ou re ev cl sta pc hd se]. simpl in E, Ee, Eh, Ec. subst.
  change (repeat (WStep true) 6) with ([WStep true; WStep true; WStep true] ++ [WStep true; WStep true; WStep true]). rewrite fold_left_app.
  assert (forall x, x = fold_left (w_do sync cond timeout) [WStep true; WStep true; WStep true] {| wt_output := ou; wt_registered := re; wt_event := true; wt_clock := cl; wt_start := sta; wt_pc := PWait u; wt_handling := None; wt_seen := se |} ->
    wt_pc x = PNow true /\ wt_handling x = None) as H.
  { intros x ->. cbn [fold_left w_do w_step w_goto wt_pc wt_event wt_handling]. unfold w_eval. cbn [wt_output]. by rewrite Ec. }
  destruct (H _ eq_refl) as [H1 H2]. destruct (fold_left _ _ _) as [ou' re' ev' cl' sta' pc' hd' se']. simpl in H1, H2. by subst.
Qed.
End facts.

(** ** No wakeup is lost *)
Section awake.
Context (cond : list string -> option bool) (timeout : option Z).
Definition fresh_out (st : wst) : Prop := exists l b, wt_seen st = l ++ [(wt_output st, b)].
(** In a coroutine. *)
Definition inv2 (st : wst) : Prop :=
  (at_await (wt_pc st) = false -> wt_handling st = None) /\
  match wt_pc st with
  | PFirst => wt_registered st = false
  | PRegister _ | PTime _ | PTest _ _ | PNow _ => fresh_out st
  | PWait _ => wt_registered st = true /\ (wt_event st = true \/ (fresh_out st /\ wt_handling st = None) \/ exists h, wt_handling st = Some h /\ hg_ours h = true)
  | _ => True
  end.
Lemma do_inv2 st o : inv1 cond timeout st -> inv2 st -> inv2 (w_do false cond timeout st o).
Proof.
  intros Hi1 (H1 & H2). assert (wt_registered st = reg_of (wt_pc st)) as Hr by apply Hi1. destruct o as [w|d|t| |]; cbn [w_do].
  - destruct (wt_handling st) as [h|] eqn:Eh; [by split; rewrite Eh|]. unfold w_step. destruct (wt_pc st) as [|b|b|b now|u| | |b|r|r] eqn:E.
    + unfold w_eval. destruct (cond (wt_output st)) as [b|].
      * split; [done|]. cbn [wt_pc]. by exists (wt_seen st), b.
      * by split.
    + split; [done|]. cbn [wt_pc]. done.
    + by split.
    + destruct b; [by split|]. destruct timeout as [t|]; [|by split]. destruct (now <? wt_start st + t)%Z; [|by split].
      split; [done|]. cbn [w_goto wt_pc wt_registered wt_event wt_handling]. split; [by rewrite Hr|]. right. left. by split.
    + destruct w; [destruct (wt_event st) eqn:Ee|destruct (u <=? wt_clock st)%Z]; (split; [rewrite ?E; done|]); try done; rewrite E Eh ?Ee //.
    + by split.
    + unfold w_eval. destruct (cond (wt_output st)) as [b|]; [|by split]. split; [done|]. cbn [wt_pc]. by exists (wt_seen st), b.
    + by split.
    + by split.
    + by split; rewrite E.
  - split; [done|]. done.
  - destruct (wt_handling st) as [h|] eqn:Eh; [by split; rewrite Eh|]. cbn [orb]. destruct (at_await (wt_pc st)) eqn:Ea; [|by split; rewrite ?Eh].
    split; [by rewrite /= Ea|]. cbn [w_set wt_pc wt_handling]. destruct (wt_pc st); try done. destruct H2 as [Hreg _]. split; [done|]. right. right. eexists. split; [reflexivity|done].
  - destruct (wt_handling st) as [h|] eqn:Eh; [|by split; rewrite ?Eh]. destruct (hg_kept h); [by split; rewrite ?Eh|].
    destruct (at_await (wt_pc st)) eqn:Ea; [|by specialize (H1 eq_refl)].
    split; [by rewrite /= Ea|]. cbn [w_set wt_pc wt_handling wt_event]. destruct (wt_pc st); try done. destruct H2 as (Hreg & [He|[[_ Hn]|(h' & [= <-] & Ho)]]); (split; [done|]); [by left|done|].
    right. right. eexists. split; [reflexivity|done].
  - destruct (wt_handling st) as [h|] eqn:Eh; [|by split; rewrite ?Eh]. destruct (hg_kept h); [|by split; rewrite ?Eh].
    destruct (at_await (wt_pc st)) eqn:Ea; [|by specialize (H1 eq_refl)].
    split; [done|]. cbn [w_set wt_pc wt_handling wt_event]. destruct (wt_pc st); try done. destruct H2 as (Hreg & [He|[[_ Hn]|(h' & [= <-] & Ho)]]); (split; [done|]); left; rewrite ?He ?Ho ?orb_true_r //.
Qed.
Lemma run_inv2 o c l : inv2 (w_run false cond timeout o c l).
Proof.
  induction l as [|x l IH] using rev_ind; [done|]. rewrite run_snoc. apply do_inv2; [apply run_inv|done].
Qed.
Lemma awake_law o c l : let st := w_run false cond timeout o c l in idle st -> cond (wt_output st) = Some false.
Proof.
  intros st ((u & E) & Ee & Eh). pose proof (run_inv2 o c l) as [_ H2]. fold st in H2. rewrite E in H2.
  destruct H2 as (_ & [He|[[(s & b & Es) _]|(h & Hh & _)]]); [congruence| |congruence].
  pose proof (run_inv false cond timeout o c l) as (_ & Hg & Hp). fold st in Hg, Hp. unfold pc_inv in Hp. rewrite E in Hp. destruct Hp as [(a & o' & Ea & Hf) _].
  rewrite Es in Ea. apply app_inj_tail in Ea as [_ [= <- ->]]. rewrite Es in Hg. apply Forall_app in Hg as [_ Hg]. apply Forall_cons in Hg as [[Hg _] _]. done.
Qed.

(** In another thread, once it has been woken. *)
Definition none_or_ours (st : wst) : Prop := forall h, wt_handling st = Some h -> hg_ours h = true.
Definition safe (st : wst) : Prop := none_or_ours st /\ (wt_event st = true \/ fresh_out st \/ wt_handling st <> None).
Definition past (now : Z) (st : wst) : Prop := exists t, timeout = Some t /\ (wt_start st + t <= now)%Z.
Definition inv3 (st : wst) : Prop :=
  match wt_pc st with
  | PFirst | PRegister _ => wt_event st = false /\ (forall h, wt_handling st = Some h -> hg_ours h = false)
  | PTime _ => wt_event st = true -> none_or_ours st
  | PTest _ now => (wt_event st = true -> none_or_ours st) /\ (1 < length (wt_seen st) -> past now st \/ safe st)
  | PWait _ => (wt_event st = true -> none_or_ours st) /\ (1 < length (wt_seen st) -> safe st)
  | PClear | PEval => (wt_event st = true -> none_or_ours st) /\ (past (wt_clock st) st \/ none_or_ours st)
  | PNow _ => (wt_event st = true -> none_or_ours st) /\ (past (wt_clock st) st \/ safe st)
  | _ => True
  end.
Lemma past_mono st n n' : (n <= n')%Z -> past n st -> past n' st.
Proof. intros H (t & ? & ?). exists t. split; [done|lia]. Qed.
(** An environment step keeps the invariant if it keeps these. *)
Lemma env_inv3 st out e c h : (wt_clock st <= c)%Z ->
  let st' := w_set out e c h st in
  (wt_event st = false -> (forall h, wt_handling st = Some h -> hg_ours h = false) -> wt_registered st = false -> e = false /\ forall h', h = Some h' -> hg_ours h' = false) ->
  (wt_registered st = true -> none_or_ours st -> none_or_ours st') ->
  (wt_registered st = true -> (wt_event st = true -> none_or_ours st) -> e = true -> none_or_ours st') ->
  (wt_registered st = true -> safe st -> safe st') ->
  wt_registered st = reg_of (wt_pc st) -> inv3 st -> inv3 st'.
Proof.
  intros Hc st' H1 H2 H3 H4 Hr H. unfold inv3 in *. change (wt_pc st') with (wt_pc st). destruct (wt_pc st); cbn [reg_of] in Hr.
  - destruct H as [Ha Hb]. destruct (H1 Ha Hb Hr). by split.
  - destruct H as [Ha Hb]. destruct (H1 Ha Hb Hr). by split.
  - intros He. by apply H3.
  - destruct H as [Ha Hb]. split; [intros He; by apply H3|]. intros Hl. destruct (Hb Hl); [by left|right; by apply H4].
  - destruct H as [Ha Hb]. split; [intros He; by apply H3|]. intros Hl. apply H4; [done|by apply Hb].
  - destruct H as [Ha Hb]. split; [intros He; by apply H3|]. destruct Hb; [left|right; by apply H2]. by eapply past_mono; [|eassumption].
  - destruct H as [Ha Hb]. split; [intros He; by apply H3|]. destruct Hb; [left|right; by apply H2]. by eapply past_mono; [|eassumption].
  - destruct H as [Ha Hb]. split; [intros He; by apply H3|]. destruct Hb; [left|right; by apply H4]. by eapply past_mono; [|eassumption].
  - done.
  - done.
Qed.
Lemma step_inv3 w st : inv1 cond timeout st -> inv3 st -> inv3 (w_step true cond timeout w st).
Proof.
  intros Hi H. pose proof Hi as (Hr & _ & Hp). unfold w_step. unfold inv3 in H. destruct (wt_pc st) as [|b|b|b now|u| | |b|r|r] eqn:E; unfold pc_inv in Hp; rewrite E in Hp.
  - unfold w_eval. destruct (cond (wt_output st)); done.
  - destruct H as [He Hh]. unfold inv3; cbn [wt_pc wt_event]. congruence.
  - unfold inv3; cbn [wt_pc wt_event wt_seen]. split; [done|]. destruct Hp as [_ Hl]. rewrite Hl. lia.
  - destruct H as [Ha Hb]. destruct b; [done|]. destruct timeout as [t|] eqn:Et; [|done]. destruct (Z.ltb_spec now (wt_start st + t)); [|done].
    split; [done|]. cbn [w_goto wt_seen]. intros Hl. destruct (Hb Hl) as [(t' & Et' & Hp')|]; [assert (t' = t) by congruence; lia|done].
  - destruct H as [Ha Hb]. destruct Hp as (_ & t & Et & Hu). destruct w.
    + destruct (wt_event st) eqn:Ee; [|unfold inv3; rewrite E Ee; by split]. split; [intros _; exact (Ha eq_refl)|]. right. exact (Ha eq_refl).
    + destruct (Z.leb_spec u (wt_clock st)); [|unfold inv3; rewrite E; by split]. split; [exact Ha|]. left. exists t. split; [done|]. cbn [w_goto wt_start wt_clock]. lia.
  - destruct H as [Ha Hb]. unfold inv3; cbn [wt_pc wt_event]. split; [done|]. exact Hb.
  - destruct H as [Ha Hb]. unfold w_eval. destruct (cond (wt_output st)) as [b|]; [|done]. split; [done|]. destruct Hb as [|Hb]; [by left|right].
    split; [done|]. right. left. by exists (wt_seen st), b.
  - destruct H as [Ha Hb]. split; [done|]. cbn [w_goto wt_seen]. intros _. exact Hb.
  - done.
  - by unfold inv3; rewrite E.
Qed.
Lemma do_inv3 st o : inv1 cond timeout st -> inv3 st -> inv3 (w_do true cond timeout st o).
Proof.
  intros Hi H. pose proof Hi as (Hr & _ & _). destruct o as [w|d|t| |]; cbn [w_do].
  - destruct (wt_handling st); by apply step_inv3.
  - apply env_inv3; try done. lia.
  - destruct (wt_handling st) as [h|] eqn:Eh; [done|]. cbn [orb]. apply env_inv3; try done.
    + intros He _ Hg. split; [done|]. intros h' [= <-]. done.
    + intros Hg _ h' [= <-]. done.
    + intros Hg _ _ h' [= <-]. done.
    + intros Hg [_ _]. split; [intros h' [= <-]; done|]. right. right. done.
  - destruct (wt_handling st) as [h|] eqn:Eh; [|done]. destruct (hg_kept h); [done|]. apply env_inv3; try done.
    + intros He Hf Hg. split; [done|]. intros h' [= <-]. exact (Hf h Eh).
    + intros Hg Hn h' [= <-]. exact (Hn h Eh).
    + intros Hg Hn He h' [= <-]. exact (Hn He h Eh).
    + intros Hg [Hn _]. split; [intros h' [= <-]; exact (Hn h Eh)|]. right. right. done.
  - destruct (wt_handling st) as [h|] eqn:Eh; [|done]. destruct (hg_kept h); [|done]. apply env_inv3; try done.
    + intros He Hf Hg. split; [|done]. by rewrite (Hf h Eh) He.
    + intros Hg [Hn _]. split; [done|]. left. cbn [w_set wt_event]. by rewrite (Hn h Eh).
Qed.
Lemma run_inv3 o c l : inv3 (w_run true cond timeout o c l).
Proof.
  induction l as [|x l IH] using rev_ind; [by split|]. rewrite run_snoc. apply do_inv3; [apply run_inv|done].
Qed.
Lemma sync_awake_law o c l : let st := w_run true cond timeout o c l in idle st -> 1 < length (wt_seen st) -> cond (wt_output st) = Some false.
Proof.
  intros st ((u & E) & Ee & Eh) Hl. pose proof (run_inv3 o c l) as H3. fold st in H3. unfold inv3 in H3. rewrite E in H3.
  destruct H3 as (_ & H3). destruct (H3 Hl) as (_ & [He|[(s & b & Es)|Hh]]); [congruence| |congruence].
  pose proof (run_inv true cond timeout o c l) as (_ & Hg & Hp). fold st in Hg, Hp. unfold pc_inv in Hp. rewrite E in Hp. destruct Hp as [(a & o' & Ea & Hf) _].
  rewrite Es in Ea. apply app_inj_tail in Ea as [_ [= <- ->]]. rewrite Es in Hg. apply Forall_app in Hg as [_ Hg]. apply Forall_cons in Hg as [[Hg _] _]. done.
Qed.
End awake.

(** ** Waiting for one event *)
Lemma e_snoc t l o : e_run t (l ++ [o]) = e_do t (e_run t l) o.
Proof. unfold e_run. by rewrite fold_left_app. Qed.
Definition during (t : option Z) (l : list eop) : Prop := exists l1 l2 u, l = l1 ++ EHandled :: l2 /\ es_pc (e_run t l1) = EWaiting u.
Lemma during_snoc t l o : during t l -> during t (l ++ [o]).
Proof. intros (l1 & l2 & u & -> & H). exists l1, (l2 ++ [o]), u. by rewrite -app_assoc. Qed.
Lemma e_inv t l : (es_event (e_run t l) = true -> during t l) /\
  match es_pc (e_run t l) with
  | ENew => es_event (e_run t l) = false
  | EWaiting u => forall x, u = Some x -> exists d, t = Some d /\ (d <= x)%Z
  | EReturned true => during t l
  | EReturned false => exists d, t = Some d /\ (d <= es_clock (e_run t l))%Z
  end /\ (0 <= es_clock (e_run t l))%Z.
Proof.
  induction l as [|o l (I1 & I2 & I3)] using rev_ind; [done|]. rewrite e_snoc. destruct o as [| |d| |]; cbn [e_do].
  - destruct (es_pc (e_run t l)) eqn:E; cbn [es_event es_pc es_clock].
    + split; [congruence|]. split; [|done]. intros x. destruct t as [d|]; [|done]. simpl. intros [= <-]. exists d. split; [done|lia].
    + split; [intros; by apply during_snoc, I1|]. rewrite E. by split.
    + split; [intros; by apply during_snoc, I1|]. rewrite E. split; [|done]. destruct b; [by apply during_snoc|done].
  - cbn [es_event es_pc es_clock]. destruct (es_pc (e_run t l)) eqn:E.
    + split; [congruence|]. by split.
    + split; [|by split]. intros _. by exists l, [], until.
    + split; [intros; by apply during_snoc, I1|]. split; [|done]. destruct b; [by apply during_snoc|done].
  - cbn [es_event es_pc es_clock]. split; [intros; by apply during_snoc, I1|]. split; [|lia]. destruct (es_pc (e_run t l)) as [| |[]]; [done|done|by apply during_snoc|].
    destruct I2 as (x & ? & ?). exists x. split; [done|lia].
  - destruct (es_pc (e_run t l)) eqn:E.
    + split; [intros; by apply during_snoc, I1|]. rewrite E. by split.
    + destruct (es_event (e_run t l)) eqn:Ee; cbn [es_event es_pc es_clock].
      * split; [intros _; by apply during_snoc, I1|]. split; [by apply during_snoc, I1|done].
      * split; [congruence|]. rewrite E. by split.
    + split; [intros; by apply during_snoc, I1|]. rewrite E. split; [|done]. destruct b; [by apply during_snoc|done].
  - destruct (es_pc (e_run t l)) as [|[u|]|b] eqn:E.
    + split; [intros; by apply during_snoc, I1|]. rewrite E. by split.
    + destruct (Z.leb_spec u (es_clock (e_run t l))); cbn [es_event es_pc es_clock].
      * split; [intros; by apply during_snoc, I1|]. split; [|done]. destruct (I2 u eq_refl) as (d & ? & ?). exists d. split; [done|lia].
      * split; [intros; by apply during_snoc, I1|]. rewrite E. by split.
    + split; [intros; by apply during_snoc, I1|]. rewrite E. by split.
    + split; [intros; by apply during_snoc, I1|]. rewrite E. split; [|done]. destruct b; [by apply during_snoc|done].
Qed.
Lemma event_law t l b : es_pc (e_run t l) = EReturned b ->
  if b then exists l1 l2 u, l = l1 ++ EHandled :: l2 /\ es_pc (e_run t l1) = EWaiting u
  else exists d, t = Some d /\ (d <= es_clock (e_run t l))%Z.
Proof. intros E. destruct (e_inv t l) as (_ & H & _). rewrite E in H. by destruct b. Qed.
Lemma missed_law l : (forall o, In o l -> o <> EHandled) -> forall l0, e_run None [EHandled; ERegister] = l0 ->
  es_pc (fold_left (e_do None) l l0) = EWaiting None /\ es_event (fold_left (e_do None) l l0) = false.
Proof.
  induction l as [|o l IH] using rev_ind; intros Hl l0 <-; [done|]. rewrite fold_left_app. destruct (IH (fun x Hx => Hl x (in_or_app _ _ _ (or_introl Hx))) _ eq_refl) as [I1 I2].
  assert (o <> EHandled) as Ho. { apply Hl, in_or_app. right. by left. }
  destruct (fold_left (e_do None) l (e_run None [EHandled; ERegister])) as [pc ev cl ct]. simpl in I1, I2. subst. by destruct o.
Qed.

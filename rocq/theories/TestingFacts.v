(** Lemmas about test helpers. *)
From Coq Require Import ssreflect.
From Verif Require Import StrFacts SpecTesting.
#[local] Arguments String.append : simpl nomatch.

(** ** ReadyAggregator *)
Definition holds (p : rphase) : bool := match p with RIn | RRead _ | RWrote | ROut _ => true | _ => false end.
Definition passed (p : rphase) : bool := match p with RTest _ | RCall | RDone => true | _ => false end.
Definition owed (p : rphase) : Z := match p with RWrote | ROut _ => 1 | _ => 0 end.
Definition debt (st : rst) : Z := match ra_lock st with Some k => match ra_calls st !! k with Some p => owed p | None => 0 end | None => 0 end.
Record rinv (n : Z) (st : rst) : Prop := {
  r_lock : forall k p, ra_calls st !! k = Some p -> holds p = true <-> ra_lock st = Some k;
  r_held : forall k, ra_lock st = Some k -> exists p, ra_calls st !! k = Some p;
  r_count : (ra_count st = n - Z.of_nat (length (counted (ra_obs st))) - debt st)%Z;
  r_read : forall k c, ra_calls st !! k = Some (RRead c) \/ ra_calls st !! k = Some (ROut c) -> c = ra_count st;
  r_nodup : NoDup (counted (ra_obs st));
  r_passed : forall k, k ∈ counted (ra_obs st) <-> exists p, ra_calls st !! k = Some p /\ passed p = true;
  r_test : forall i k c, counted (ra_obs st) !! i = Some k -> ra_calls st !! k = Some (RTest c) -> (c = n - 1 - Z.of_nat i)%Z;
  r_call : forall i k, counted (ra_obs st) !! i = Some k -> ra_calls st !! k = Some RCall -> (n - 1 - Z.of_nat i = 0)%Z;
  r_parents : parents (ra_obs st) = [] \/ exists i k, parents (ra_obs st) = [k] /\ counted (ra_obs st) !! i = Some k /\ (n - 1 - Z.of_nat i = 0)%Z /\ ra_calls st !! k = Some RDone;
  r_done : forall i k, counted (ra_obs st) !! i = Some k -> (n - 1 - Z.of_nat i = 0)%Z -> ra_calls st !! k = Some RDone -> parents (ra_obs st) = [k] }.

Lemma counted_app a b : counted (a ++ b) = counted a ++ counted b.
Proof. apply omap_app. Qed.
Lemma parents_app a b : parents (a ++ b) = parents a ++ parents b.
Proof. apply omap_app. Qed.
Lemma rinv_init n : rinv n (ra_init n).
Proof.
  constructor; simpl; try done.
  - unfold debt. simpl. lia.
  - intros k c [?|?]; done.
  - constructor.
  - intros k. split; [by intros ?%elem_of_nil|]. by intros (p & ? & _).
  - by left.
Qed.
Lemma rinv_begin n st : rinv n st -> rinv n (ra_do st RBegin).
Proof.
  intros [I1 I2 I3 I4 I5 I6 I7 I8 I9 I10].
  assert (forall k p, p <> RStart -> (ra_calls st ++ [RStart]) !! k = Some p <-> ra_calls st !! k = Some p) as L.
  { intros k p Hp. rewrite lookup_app_Some. split; [|by left]. intros [?|[_ H]]; [done|].
    apply list_lookup_singleton_Some in H as [_ <-]. done. }
  constructor; cbn [ra_do ra_calls ra_lock ra_count ra_obs].
  - intros k p Hk. destruct (ra_calls st !! k) as [p'|] eqn:E.
    + rewrite (lookup_app_l_Some _ _ _ _ E) in Hk. injection Hk as <-. by apply I1.
    + assert (p = RStart) as ->.
      { apply lookup_app_Some in Hk as [?|[_ H]]; [congruence|]. apply list_lookup_singleton_Some in H as [_ <-]. done. }
      split; [done|]. intros Hl. destruct (I2 k Hl) as [p Hp]. congruence.
  - intros k Hl. destruct (I2 k Hl) as [p Hp]. exists p. by apply lookup_app_l_Some.
  - rewrite I3. unfold debt. cbn [ra_calls ra_lock]. destruct (ra_lock st) as [k|] eqn:E; [|done]. destruct (I2 k eq_refl) as [p Hp].
    by rewrite Hp (lookup_app_l_Some _ _ _ _ Hp).
  - intros k c H. apply (I4 k). destruct H as [H|H]; apply L in H; auto.
  - done.
  - intros k. rewrite I6. split; intros (p & Hp & Hh); exists p; (split; [|done]); apply L; try done; by destruct p.
  - intros i k c Hi Hk. apply L in Hk; [|done]. by eapply I7.
  - intros i k Hi Hk. apply L in Hk; [|done]. by eapply I8.
  - destruct I9 as [?|(i & k & H1 & H2 & H3 & H4)]; [by left|]. right. exists i, k. split; [done|]. split; [done|]. split; [done|]. by apply L.
  - intros i k Hi Hn Hk. apply L in Hk; [|done]. by eapply I10.
Qed.

Section step.
Context (n : Z) (st : rst) (k : nat) (I : rinv n st).
Lemma look p j x : ra_calls st !! k = Some p -> <[k := x]> (ra_calls st) !! j = if Nat.eqb j k then Some x else ra_calls st !! j.
Proof.
  intros H. destruct (Nat.eqb_spec j k) as [->|Hne]; [|by rewrite list_lookup_insert_ne]. apply list_lookup_insert. by apply lookup_lt_Some in H.
Qed.
(** A step inside the critical section. *)
Lemma rinv_inside p x c' : ra_calls st !! k = Some p -> holds p = true -> holds x = true -> (c' = ra_count st - (owed x - owed p))%Z ->
  (forall c, x = RRead c \/ x = ROut c -> c = c') ->
  rinv n {| ra_count := c'; ra_lock := ra_lock st; ra_calls := <[k := x]> (ra_calls st); ra_obs := ra_obs st |}.
Proof.
  intros Hk Hp Hx Hc Hr. pose proof (proj1 (r_lock _ _ I k p Hk) Hp) as Hl. destruct I as [I1 I2 I3 I4 I5 I6 I7 I8 I9 I10].
  constructor; cbn [ra_calls ra_lock ra_count ra_obs]; try done.
  - intros j q. rewrite (look p j x Hk). destruct (Nat.eqb_spec j k) as [->|Hne]; [|apply I1]. intros [= <-]. by rewrite Hl Hx.
  - intros j Hj. assert (j = k) as -> by congruence. exists x. by rewrite (look p k x Hk) Nat.eqb_refl.
  - rewrite Hc I3. unfold debt. cbn [ra_calls ra_lock]. rewrite Hl Hk (look p k x Hk) Nat.eqb_refl. lia.
  - intros j c. rewrite (look p j x Hk). destruct (Nat.eqb_spec j k) as [->|Hne].
    + intros [[= ->]|[= ->]]; apply Hr; auto.
    + intros H. destruct H as [H|H]; (assert (ra_lock st = Some j) as E by (apply (I1 j _ H); done)); congruence.
  - intros j. rewrite I6. split; intros (q & Hq & Hpq); exists q; revert Hq; rewrite (look p j x Hk); destruct (Nat.eqb_spec j k) as [->|Hne]; try done.
    + intros Hq. assert (q = p) as -> by congruence. by destruct p.
    + intros [= <-]. by destruct x.
  - intros i j c Hi. rewrite (look p j x Hk). destruct (Nat.eqb_spec j k) as [->|Hne]; [intros [= ->]; done|]. by apply I7.
  - intros i j Hi. rewrite (look p j x Hk). destruct (Nat.eqb_spec j k) as [->|Hne]; [intros [= ->]; done|]. by apply I8.
  - destruct I9 as [?|(i & j & H1 & H2 & H3 & H4)]; [by left|]. right. exists i, j. repeat (split; [done|]).
    rewrite (look p j x Hk). destruct (Nat.eqb_spec j k) as [->|Hne]; [|done]. assert (p = RDone) as -> by congruence. done.
  - intros i j Hi Hn. rewrite (look p j x Hk). destruct (Nat.eqb_spec j k) as [->|Hne]; [intros [= ->]; done|]. exact (I10 i j Hi Hn).
Qed.
(** A step outside of it, before the parent is called. *)
Lemma rinv_test c : ra_calls st !! k = Some (RTest c) -> rinv n (ra_set k (if (c =? 0)%Z then RCall else RDone) st).
Proof.
  intros Hk. set (x := if (c =? 0)%Z then RCall else RDone).
  assert (holds x = false) as Hx1 by (unfold x; by destruct (c =? 0)%Z). assert (passed x = true) as Hx2 by (unfold x; by destruct (c =? 0)%Z).
  destruct I as [I1 I2 I3 I4 I5 I6 I7 I8 I9 I10].
  assert (ra_lock st <> Some k) as Hl. { intros Hl. by apply (I1 k _ Hk) in Hl. }
  constructor; cbn [ra_set ra_calls ra_lock ra_count ra_obs]; try done.
  - intros j q. rewrite (look _ j x Hk). destruct (Nat.eqb_spec j k) as [->|Hne]; [|apply I1]. intros [= <-]. by rewrite Hx1.
  - intros j Hj. destruct (I2 j Hj) as [q Hq]. rewrite (look _ j x Hk). destruct (Nat.eqb_spec j k); eauto.
  - rewrite I3. unfold debt. cbn [ra_set ra_calls ra_lock]. destruct (ra_lock st) as [j|]; [|done]. rewrite (look _ j x Hk).
    destruct (Nat.eqb_spec j k) as [->|Hne]; [congruence|done].
  - intros j c'. rewrite (look _ j x Hk). destruct (Nat.eqb_spec j k) as [->|Hne]; [|apply I4]. unfold x. destruct (c =? 0)%Z; intros [?|?]; congruence.
  - intros j. rewrite I6. split; intros (q & Hq & Hpq).
    + rewrite (look _ j x Hk). destruct (Nat.eqb_spec j k); eauto.
    + revert Hq. rewrite (look _ j x Hk). destruct (Nat.eqb_spec j k) as [->|Hne]; [|eauto]. intros _. by exists (RTest c).
  - intros i j c' Hi. rewrite (look _ j x Hk). destruct (Nat.eqb_spec j k) as [->|Hne]; [|by apply I7]. unfold x. destruct (c =? 0)%Z; congruence.
  - intros i j Hi. rewrite (look _ j x Hk). destruct (Nat.eqb_spec j k) as [->|Hne]; [|by apply I8].
    unfold x. destruct (Z.eqb_spec c 0) as [->|]; [|congruence]. intros _. symmetry. exact (I7 i k 0%Z Hi Hk).
  - destruct I9 as [?|(i & j & H1 & H2 & H3 & H4)]; [by left|]. right. exists i, j. repeat (split; [done|]).
    rewrite (look _ j x Hk). destruct (Nat.eqb_spec j k) as [->|Hne]; [|done]. congruence.
  - intros i j Hi Hn. rewrite (look _ j x Hk). destruct (Nat.eqb_spec j k) as [->|Hne]; [|exact (I10 i j Hi Hn)].
    pose proof (I7 i k c Hi Hk) as Hc. unfold x. destruct (Z.eqb_spec c 0) as [->|]; [congruence|lia].
Qed.
Lemma rinv_take : ra_calls st !! k = Some RStart -> ra_lock st = None ->
  rinv n {| ra_count := ra_count st; ra_lock := Some k; ra_calls := <[k := RIn]> (ra_calls st); ra_obs := ra_obs st |}.
Proof.
  intros Hk Hl. destruct I as [I1 I2 I3 I4 I5 I6 I7 I8 I9 I10].
  assert (forall j q, ra_calls st !! j = Some q -> holds q = false) as Hno.
  { intros j q Hq. destruct (holds q) eqn:E; [|done]. apply (I1 j q Hq) in E. congruence. }
  constructor; cbn [ra_set ra_calls ra_lock ra_count ra_obs]; try done.
  - intros j q. rewrite (look _ j RIn Hk). destruct (Nat.eqb_spec j k) as [->|Hne]; [by intros [= <-]|]. intros Hq. rewrite (Hno j q Hq). split; [done|congruence].
  - intros j [= <-]. exists RIn. by rewrite (look _ k RIn Hk) Nat.eqb_refl.
  - rewrite I3. unfold debt. cbn [ra_calls ra_lock]. by rewrite Hl (look _ k RIn Hk) Nat.eqb_refl.
  - intros j c'. rewrite (look _ j RIn Hk). destruct (Nat.eqb_spec j k) as [->|Hne]; [|apply I4]. intros [?|?]; congruence.
  - intros j. rewrite I6. split; intros (q & Hq & Hpq).
    + exists q. rewrite (look _ j RIn Hk). destruct (Nat.eqb_spec j k) as [->|Hne]; [|done]. assert (q = RStart) as -> by congruence. done.
    + revert Hq. rewrite (look _ j RIn Hk). destruct (Nat.eqb_spec j k) as [->|Hne]; [|eauto]. by intros [= <-].
  - intros i j c' Hi. rewrite (look _ j RIn Hk). destruct (Nat.eqb_spec j k) as [->|Hne]; [done|by apply I7].
  - intros i j Hi. rewrite (look _ j RIn Hk). destruct (Nat.eqb_spec j k) as [->|Hne]; [done|by apply I8].
  - destruct I9 as [?|(i & j & H1 & H2 & H3 & H4)]; [by left|]. right. exists i, j. repeat (split; [done|]).
    rewrite (look _ j RIn Hk). destruct (Nat.eqb_spec j k) as [->|Hne]; [|done]. congruence.
  - intros i j Hi Hn. rewrite (look _ j RIn Hk). destruct (Nat.eqb_spec j k) as [->|Hne]; [done|exact (I10 i j Hi Hn)].
Qed.
Lemma rinv_leave c : ra_calls st !! k = Some (ROut c) ->
  rinv n {| ra_count := ra_count st; ra_lock := None; ra_calls := <[k := RTest c]> (ra_calls st); ra_obs := ra_obs st ++ [RLeft k] |}.
Proof.
  intros Hk. destruct I as [I1 I2 I3 I4 I5 I6 I7 I8 I9 I10].
  assert (ra_lock st = Some k) as Hl by (by apply (I1 k _ Hk)).
  assert (k ∉ counted (ra_obs st)) as Hout. { rewrite I6. intros (p & Hp & Hpp). assert (p = ROut c) as -> by congruence. done. }
  pose proof (I4 k c (or_intror Hk)) as Hc.
  assert (counted (ra_obs st ++ [RLeft k]) = counted (ra_obs st) ++ [k]) as Ec by (by rewrite counted_app).
  assert (parents (ra_obs st ++ [RLeft k]) = parents (ra_obs st)) as Ep by (by rewrite parents_app app_nil_r).
  assert (forall i j, (counted (ra_obs st) ++ [k]) !! i = Some j -> (j <> k /\ counted (ra_obs st) !! i = Some j) \/ (j = k /\ i = length (counted (ra_obs st)))) as Lk.
  { intros i j. rewrite lookup_app_Some. intros [H|[H1 H2]].
    - left. split; [|done]. intros ->. apply Hout. by eapply elem_of_list_lookup_2.
    - apply list_lookup_singleton_Some in H2 as [H2 ->]. right. split; [done|lia]. }
  constructor; cbn [ra_set ra_calls ra_lock ra_count ra_obs]; rewrite ?Ec ?Ep.
  - intros j q. rewrite (look _ j (RTest c) Hk). destruct (Nat.eqb_spec j k) as [->|Hne]; [by intros [= <-]|]. intros Hq. split; [|done].
    intros Hh. apply (I1 j q Hq) in Hh. congruence.
  - done.
  - rewrite app_length /=. unfold debt in *. cbn [ra_calls ra_lock]. rewrite Hl Hk /= in I3. lia.
  - intros j c'. rewrite (look _ j (RTest c) Hk). destruct (Nat.eqb_spec j k) as [->|Hne]; [|apply I4]. intros [?|?]; congruence.
  - apply NoDup_app. split; [done|]. split; [|apply NoDup_singleton]. intros x Hx ->%elem_of_list_singleton. done.
  - intros j. rewrite elem_of_app elem_of_list_singleton I6 (look _ j (RTest c) Hk). destruct (Nat.eqb_spec j k) as [->|Hne].
    + split; [|by right]. intros _. by exists (RTest c).
    + split; [intros [?|?]; done|by left].
  - intros i j c' Hi. rewrite (look _ j (RTest c) Hk). destruct (Lk i j Hi) as [[Hne Hi']|[-> ->]].
    + apply Nat.eqb_neq in Hne as ->. by apply I7.
    + rewrite Nat.eqb_refl. intros [= <-]. unfold debt in I3. rewrite Hl Hk /= in I3. lia.
  - intros i j Hi. rewrite (look _ j (RTest c) Hk). destruct (Lk i j Hi) as [[Hne Hi']|[-> ->]].
    + apply Nat.eqb_neq in Hne as ->. by apply I8.
    + by rewrite Nat.eqb_refl.
  - destruct I9 as [?|(i & j & H1 & H2 & H3 & H4)]; [by left|]. right. exists i, j. split; [done|]. split; [by apply lookup_app_l_Some|]. split; [done|].
    rewrite (look _ j (RTest c) Hk). destruct (Nat.eqb_spec j k) as [->|Hne]; [|done]. congruence.
  - intros i j Hi Hn. rewrite (look _ j (RTest c) Hk). destruct (Lk i j Hi) as [[Hne Hi']|[-> ->]].
    + apply Nat.eqb_neq in Hne as ->. exact (I10 i j Hi' Hn).
    + by rewrite Nat.eqb_refl.
Qed.
Lemma rinv_parent : ra_calls st !! k = Some RCall ->
  rinv n {| ra_count := ra_count st; ra_lock := ra_lock st; ra_calls := <[k := RDone]> (ra_calls st); ra_obs := ra_obs st ++ [RParent k] |}.
Proof.
  intros Hk. destruct I as [I1 I2 I3 I4 I5 I6 I7 I8 I9 I10].
  assert (counted (ra_obs st ++ [RParent k]) = counted (ra_obs st)) as Ec by (by rewrite counted_app app_nil_r).
  assert (parents (ra_obs st ++ [RParent k]) = parents (ra_obs st) ++ [k]) as Ep by (by rewrite parents_app).
  assert (exists i, counted (ra_obs st) !! i = Some k) as (i0 & Hi0). { apply elem_of_list_lookup_1. apply I6. by exists RCall. }
  pose proof (I8 i0 k Hi0 Hk) as Hn0.
  assert (parents (ra_obs st) = []) as Eo.
  { destruct I9 as [?|(i & j & H1 & H2 & H3 & H4)]; [done|]. assert (i = i0) as -> by lia. congruence. }
  assert (ra_lock st <> Some k) as Hl. { intros Hl. by apply (I1 k _ Hk) in Hl. }
  rewrite Eo in Ep.
  constructor; cbn [ra_set ra_calls ra_lock ra_count ra_obs]; rewrite ?Ec ?Ep.
  - intros j q. rewrite (look _ j RDone Hk). destruct (Nat.eqb_spec j k) as [->|Hne]; [intros [= <-]; by split|]. apply I1.
  - intros j Hj. destruct (I2 j Hj) as [q Hq]. rewrite (look _ j RDone Hk). destruct (Nat.eqb_spec j k); eauto.
  - rewrite I3. unfold debt. cbn [ra_calls ra_lock]. destruct (ra_lock st) as [j|]; [|done]. rewrite (look _ j RDone Hk).
    destruct (Nat.eqb_spec j k) as [->|Hne]; [congruence|done].
  - intros j c'. rewrite (look _ j RDone Hk). destruct (Nat.eqb_spec j k) as [->|Hne]; [|apply I4]. intros [?|?]; congruence.
  - done.
  - intros j. rewrite I6 (look _ j RDone Hk). destruct (Nat.eqb_spec j k) as [->|Hne]; [|done]. split; intros _; [by exists RDone|by exists RCall].
  - intros i j c' Hi. rewrite (look _ j RDone Hk). destruct (Nat.eqb_spec j k) as [->|Hne]; [done|by apply I7].
  - intros i j Hi. rewrite (look _ j RDone Hk). destruct (Nat.eqb_spec j k) as [->|Hne]; [done|by apply I8].
  - right. exists i0, k. repeat (split; [done|]). by rewrite (look _ k RDone Hk) Nat.eqb_refl.
  - intros i j Hi Hn _. assert (i = i0) as -> by lia. assert (j = k) as -> by congruence. done.
Qed.
End step.
Lemma rinv_do n st o : rinv n st -> rinv n (ra_do st o).
Proof.
  intros I. destruct o as [|k]; [by apply rinv_begin|]. cbn [ra_do]. unfold ra_step. destruct (ra_calls st !! k) as [p|] eqn:Hk; [|done].
  destruct p as [| |c| |c|c| |]; try done.
  - destruct (ra_lock st) eqn:Hl; [done|]. by apply rinv_take.
  - eapply rinv_inside; [done|exact Hk|done|done|simpl; lia|]. intros c [[= <-]|?]; done.
  - eapply rinv_inside; [done|exact Hk|done|done| |]; [|intros c' [?|?]; done]. rewrite (r_read _ _ I k c (or_introl Hk)). simpl. lia.
  - eapply rinv_inside; [done|exact Hk|done|done|simpl; lia|]. intros c [?|[= <-]]; done.
  - by apply rinv_leave.
  - by apply rinv_test.
  - by apply rinv_parent.
Qed.
Lemma rinv_run n l : rinv n (ra_run n l).
Proof.
  unfold ra_run. generalize (rinv_init n). generalize (ra_init n). induction l as [|o l IH]; intros st I; [done|]. simpl. apply IH. by apply rinv_do.
Qed.
Lemma calls_length l : forall st, length (ra_calls (fold_left ra_do l st)) = length (ra_calls st) + length (List.filter (fun o => match o with RBegin => true | _ => false end) l).
Proof.
  induction l as [|o l IH]; intros st; [by rewrite /= Nat.add_0_r|]. simpl. rewrite IH. destruct o as [|k]; simpl.
  - rewrite app_length /=. lia.
  - f_equal. unfold ra_step. destruct (ra_calls st !! k) as [[]|]; simpl; rewrite ?insert_length //. by destruct (ra_lock st); simpl; rewrite ?insert_length.
Qed.

Lemma once_law n l : let st := ra_run n l in
  parents (ra_obs st) = [] \/
  exists k, parents (ra_obs st) = [k] /\ (1 <= n)%Z /\ counted (ra_obs st) !! Z.to_nat (n - 1) = Some k.
Proof.
  intros st. destruct (r_parents _ _ (rinv_run n l)) as [?|(i & k & H1 & H2 & H3 & _)]; [by left|]. right. exists k.
  fold st in H1, H2. split; [done|]. split; [lia|]. by replace (Z.to_nat (n - 1)) with i by lia.
Qed.
Lemma few_law n l : let st := ra_run n l in (Z.of_nat (length (ra_calls st)) < n \/ n <= 0)%Z -> parents (ra_obs st) = [].
Proof.
  intros st H. pose proof (rinv_run n l) as I. fold st in I. destruct (once_law n l) as [?|(k & H1 & H2 & H3)]; [done|]. fold st in H1, H3. exfalso.
  destruct H as [H|H]; [|lia]. apply lookup_lt_Some in H3.
  assert (length (counted (ra_obs st)) <= length (ra_calls st)) as Hle; [|lia].
  rewrite -(seq_length (length (ra_calls st)) 0). apply submseteq_length. apply NoDup_submseteq; [apply I|].
  intros x Hx. apply (r_passed _ _ I) in Hx as (p & Hp & _). apply lookup_lt_Some in Hp. apply elem_of_seq. lia.
Qed.
Lemma enough_law n l : let st := ra_run n l in finished st -> (1 <= n <= Z.of_nat (length (ra_calls st)))%Z -> exists k, parents (ra_obs st) = [k].
Proof.
  intros st Hf Hn. pose proof (rinv_run n l) as I. fold st in I.
  assert (length (ra_calls st) <= length (counted (ra_obs st))) as Hle.
  { rewrite -(seq_length (length (ra_calls st)) 0). apply submseteq_length. apply NoDup_submseteq; [apply NoDup_seq|].
    intros x Hx. apply elem_of_seq in Hx. apply (r_passed _ _ I). destruct (lookup_lt_is_Some_2 (ra_calls st) x) as [p Hp]; [lia|].
    exists p. split; [done|]. by rewrite (Hf x p Hp). }
  destruct (lookup_lt_is_Some_2 (counted (ra_obs st)) (Z.to_nat (n - 1))) as [k Hk]; [lia|].
  exists k. eapply (r_done _ _ I); [exact Hk|lia|].
  assert (k ∈ counted (ra_obs st)) as Hin by (by eapply elem_of_list_lookup_2). apply (r_passed _ _ I) in Hin as (p & Hp & _). by rewrite Hp (Hf k p Hp).
Qed.
Lemma unlocked_law n l k : let st := ra_run n l in parents (ra_obs (ra_do st (RStep k))) <> parents (ra_obs st) ->
  parents (ra_obs (ra_do st (RStep k))) = parents (ra_obs st) ++ [k] /\ ra_lock st <> Some k.
Proof.
  intros st. pose proof (rinv_run n l) as I. fold st in I. cbn [ra_do]. unfold ra_step.
  destruct (ra_calls st !! k) as [p|] eqn:Hk; [|done]. destruct p as [| |c| |c|c| |]; try done.
  - by destruct (ra_lock st).
  - cbn [ra_obs]. by rewrite parents_app app_nil_r.
  - cbn [ra_obs]. rewrite parents_app. intros _. split; [done|]. intros Hl. by apply (r_lock _ _ I k _ Hk) in Hl.
Qed.
Definition isdone (p : rphase) : bool := match p with RDone => true | _ => false end.
Lemma progress_law n l : let st := ra_run n l in ~ finished st -> exists k, ra_do st (RStep k) <> st.
Proof.
  intros st Hf. pose proof (rinv_run n l) as I. fold st in I.
  assert (forall k p x c lk ob, ra_calls st !! k = Some p -> p <> x -> {| ra_count := c; ra_lock := lk; ra_calls := <[k := x]> (ra_calls st); ra_obs := ob |} <> st) as Hdiff.
  { intros k p x c lk ob Hk Hpx E. apply (f_equal ra_calls) in E. cbn [ra_calls] in E. apply Hpx.
    pose proof (look st k p k x Hk) as L. rewrite E Nat.eqb_refl in L. congruence. }
  destruct (ra_lock st) as [k|] eqn:Hl.
  - exists k. destruct (r_held _ _ I k Hl) as [p Hp]. pose proof (proj2 (r_lock _ _ I k p Hp) Hl) as Hh.
    cbn [ra_do]. unfold ra_step, ra_set. rewrite Hp. destruct p; try done; by eapply Hdiff.
  - assert (exists k p, ra_calls st !! k = Some p /\ p <> RDone) as (k & p & Hp & Hne).
    { destruct (decide (Forall (fun p => isdone p = true) (ra_calls st))) as [H|H].
      - exfalso. apply Hf. intros k p Hp. rewrite Forall_lookup in H. specialize (H k p Hp). by destruct p.
      - apply not_Forall_Exists in H; [|apply _]. apply Exists_exists in H as (p & Hin & Hp). apply elem_of_list_lookup_1 in Hin as (k & Hk).
        exists k, p. split; [done|]. intros ->. by apply Hp. }
    exists k. cbn [ra_do]. unfold ra_step, ra_set. rewrite Hp Hl. destruct p as [| |c| |c|c| |]; try done; try by eapply Hdiff.
    by eapply Hdiff; [done|]; destruct (c =? 0)%Z.
Qed.

(** ** Finding text *)
Lemma sw_app p s : starts_with p (p ++ s) = true.
Proof. induction p as [|c p IH]; [done|]. cbn [append starts_with]. by rewrite Ascii.eqb_refl. Qed.
Lemma sw_split p s : starts_with p s = true -> exists t, s = (p ++ t)%string.
Proof.
  revert s. induction p as [|c p IH]; intros s; [by exists s|]. destruct s as [|d s]; [done|]. cbn [starts_with]. destruct (Ascii.eqb_spec c d) as [<-|]; [|done].
  intros (t & ->)%IH. by exists t.
Qed.
(** The first occurrence. *)
Lemma find_spec msg text :
  match find_str msg text with
  | Some i => (exists a b, text = (a ++ msg ++ b)%string /\ String.length a = i) /\
      forall a b, text = (a ++ msg ++ b)%string -> i <= String.length a
  | None => forall a b, text <> (a ++ msg ++ b)%string
  end.
Proof.
  induction text as [|c t IH]; cbn [find_str].
  - destruct (starts_with msg "") eqn:E.
    + apply sw_split in E as (t & ->). split; [by exists "", t|]. intros; lia.
    + intros a b H. destruct a; [|done]. cbn [append] in H. by rewrite H sw_app in E.
  - destruct (starts_with msg (String c t)) eqn:E.
    + apply sw_split in E as (t' & ->). split; [by exists "", t'|]. intros; lia.
    + destruct (find_str msg t) as [i|]; simpl.
      * destruct IH as [(a & b & -> & <-) Hmin]. split; [by exists (String c a), b|].
        intros a' b' H. destruct a' as [|d a']; [cbn [append] in H; by rewrite H sw_app in E|]. simpl in H. injection H as <- H. apply Hmin in H. simpl. lia.
      * intros a b H. destruct a as [|d a]; [cbn [append] in H; by rewrite H sw_app in E|]. simpl in H. injection H as <- H. by apply (IH a b).
Qed.
Lemma drop_split n s : n <= String.length s -> exists p, s = (p ++ drop_str n s)%string /\ String.length p = n.
Proof.
  revert s. induction n as [|n IH]; intros s Hn; [by exists ""|]. destruct s as [|c s]; [simpl in Hn; lia|].
  destruct (IH s) as (p & E & L); [simpl in Hn; lia|]. exists (String c p). simpl. rewrite L. split; [by rewrite {1}E|done].
Qed.
Lemma app_prefix a b c d : String.length a <= String.length c -> (a ++ b = c ++ d)%string -> exists m, c = (a ++ m)%string /\ b = (m ++ d)%string.
Proof.
  revert c. induction a as [|x a IH]; intros c Hl E; [by exists c|]. destruct c as [|y c]; [simpl in Hl; lia|].
  simpl in E. injection E as <- E. destruct (IH c) as (m & -> & ->); [simpl in Hl; lia|done|]. by exists m.
Qed.
Lemma find_from_spec msg text i :
  match find_from msg text i with
  | Some j => i <= j /\ (exists a b, text = (a ++ msg ++ b)%string /\ String.length a = j) /\
      forall a b, text = (a ++ msg ++ b)%string -> i <= String.length a -> j <= String.length a
  | None => forall a b, text = (a ++ msg ++ b)%string -> String.length a < i
  end.
Proof.
  unfold find_from. destruct (Nat.ltb_spec (String.length text) i) as [Hlt|Hge].
  - intros a b ->. rewrite !str_app_length in Hlt. lia.
  - destruct (drop_split i text Hge) as (p & Ep & Lp). pose proof (find_spec msg (drop_str i text)) as H.
    destruct (find_str msg (drop_str i text)) as [j|]; simpl.
    + destruct H as [(a & b & E & <-) Hmin]. split; [lia|]. split.
      * exists (p ++ a)%string, b. split; [rewrite {1}Ep E !str_app_assoc //|]. by rewrite str_app_length Lp.
      * intros a' b' E' Hi. rewrite Ep in E'. destruct (app_prefix p (drop_str i text) a' (msg ++ b')) as (m & -> & Em); [lia|done|].
        apply Hmin in Em. rewrite str_app_length. lia.
    + intros a b E. destruct (Nat.lt_ge_cases (String.length a) i) as [?|Hi]; [done|]. exfalso.
      rewrite Ep in E. destruct (app_prefix p (drop_str i text) a (msg ++ b)) as (m & -> & Em); [lia|done|]. by apply H in Em.
Qed.

(** ** SequentialTextChecker *)
Lemma sq_loop_spec out msg : forall rest a i, drop a out = rest ->
  match sq_loop msg rest a i with
  | Some st => exists q, occurs out msg q /\ not_before (a, i) q /\ at_pos st = ending msg q /\
      forall q', occurs out msg q' -> not_before (a, i) q' -> not_before q q'
  | None => forall q, occurs out msg q -> ~ not_before (a, i) q
  end.
Proof.
  induction rest as [|text rest IH]; intros a i Hd; cbn [sq_loop].
  - intros [b j] (x & y & Ho & _) [Hlt|[Heq _]]; simpl in *; apply lookup_lt_Some in Ho; apply (f_equal length) in Hd; rewrite drop_length /= in Hd; lia.
  - assert (out !! a = Some text) as Ha.
    { rewrite -(Nat.add_0_r a) -lookup_drop Hd //. }
    assert (drop (S a) out = rest) as Hd'.
    { change (S a) with (1 + a). rewrite Nat.add_comm -drop_drop Hd //. }
    pose proof (find_from_spec msg text i) as H. destruct (find_from msg text i) as [j|].
    + destruct H as (Hij & (x & y & -> & Hx) & Hmin). exists (a, j). split; [by exists x, y|]. split; [right; simpl; lia|]. split; [done|].
      intros [b j'] (x' & y' & Ho & Hx') Hnb. simpl in *. destruct Hnb as [Hlt|[Heq Hle]]; simpl in *; [by left|]. subst b. right. split; [done|].
      rewrite Ha in Ho. injection Ho as Ho. simpl. rewrite -Hx'. apply (Hmin x' y'); [done|]. lia.
    + specialize (IH (S a) 0 Hd'). destruct (sq_loop msg rest (S a) 0) as [st|].
      * destruct IH as (q & Ho & Hnb & Hat & Hmin). exists q. split; [done|]. split; [left; destruct Hnb as [?|[? ?]]; simpl in *; lia|]. split; [done|].
        intros q' Ho' Hnb'. apply Hmin; [done|]. destruct Hnb' as [Hlt|[Heq Hle]]; simpl in *.
        { destruct (decide (S a = fst q')) as [E|E]; [right|left]; simpl; lia. }
        exfalso. destruct Ho' as (x & y & Ho' & Hx). rewrite -Heq Ha in Ho'. injection Ho' as Ho'. specialize (H x y Ho'). lia.
      * intros q' Ho' Hnb'. apply (IH q' Ho'). destruct Hnb' as [Hlt|[Heq Hle]]; simpl in *.
        { destruct (decide (S a = fst q')) as [E|E]; [right|left]; simpl; lia. }
        exfalso. destruct Ho' as (x & y & Ho' & Hx). rewrite -Heq Ha in Ho'. injection Ho' as Ho'. specialize (H x y Ho'). lia.
Qed.
Lemma assert_law out msg st ok st' : sq_assert out msg st = (ok, st') ->
  (ok = true -> exists q, occurs out msg q /\ not_before (at_pos st) q /\ at_pos st' = ending msg q /\
     forall q', occurs out msg q' -> not_before (at_pos st) q' -> not_before q q') /\
  (ok = false -> st' = st /\ forall q, occurs out msg q -> ~ not_before (at_pos st) q).
Proof.
  unfold sq_assert. pose proof (sq_loop_spec out msg _ (sq_array st) (sq_sub st) eq_refl) as H.
  destruct (sq_loop msg _ _ _) as [st1|]; intros [= <- <-]; split; try done.
Qed.
Lemma not_before_trans p q r : not_before p q -> not_before q r -> not_before p r.
Proof. unfold not_before. lia. Qed.
Lemma in_order_earlier out p p' l : not_before p p' -> in_order out p' l -> in_order out p l.
Proof. intros H Hi. destruct Hi as [|p' m q l Ho Hn Hi]; [constructor|]. eapply io_cons; [exact Ho|by eapply not_before_trans|done]. Qed.
Lemma ending_mono msg q q' : not_before q q' -> not_before (ending msg q) (ending msg q').
Proof. unfold not_before, ending. simpl. lia. Qed.
Lemma all_law out msgs : forall st, sq_all out msgs st = true <-> in_order out (at_pos st) msgs.
Proof.
  induction msgs as [|m msgs IH]; intros st; cbn [sq_all]; [split; [constructor|done]|].
  destruct (sq_assert out m st) as [ok st'] eqn:E. destruct (assert_law _ _ _ _ _ E) as [H1 H2]. destruct ok; simpl.
  - destruct (H1 eq_refl) as (q & Ho & Hn & Hat & Hmin). rewrite IH Hat. split; [by econstructor|].
    intros Hi. inversion Hi as [|p m' q' l' Ho' Hn' Hi']; subst. eapply in_order_earlier; [|exact Hi']. apply ending_mono. by apply Hmin.
  - destruct (H2 eq_refl) as [_ Hno]. split; [done|]. intros Hi. inversion Hi as [|p m' q' l' Ho' Hn' Hi']; subst. by destruct (Hno _ Ho').
Qed.
Lemma try_law out msgs : forall st bs st', sq_try out msgs st = (bs, st') ->
  length bs = length msgs /\ in_order out (at_pos st) (keep_true msgs bs) /\ 
  sq_try out (keep_true msgs bs) st = (repeat true (length (keep_true msgs bs)), st').
Proof.
  induction msgs as [|m msgs IH]; intros st bs st'; cbn [sq_try]; [intros [= <- <-]; repeat split; constructor|].
  destruct (sq_assert out m st) as [ok st1] eqn:E. destruct (sq_try out msgs st1) as [bs1 st2] eqn:E1. intros [= <- <-].
  destruct (IH _ _ _ E1) as (L & H1 & H2). destruct (assert_law _ _ _ _ _ E) as [Ht Hf]. destruct ok; simpl.
  - destruct (Ht eq_refl) as (q & Ho & Hn & Hat & Hmin). split; [by rewrite L|]. split.
    + econstructor; [exact Ho|done|]. by rewrite -Hat.
    + by rewrite E H2.
  - destruct (Hf eq_refl) as [-> _]. by rewrite L.
Qed.

(** ** IoHandler *)
Section firsts.
Context {A} (eqb : A -> A -> bool) (Heqb : forall x y, eqb x y = true <-> x = y).
Lemma existsb_in x l : existsb (eqb x) l = true <-> In x l.
Proof. rewrite existsb_exists. split; [intros (y & Hy & ->%Heqb); done|]. intros H. exists x. split; [done|by apply Heqb]. Qed.
Lemma firsts_snoc seen l x : firsts_from eqb seen (l ++ [x]) = firsts_from eqb seen l ++ (if existsb (eqb x) (seen ++ l) then [] else [x]).
Proof.
  revert seen. induction l as [|y l IH]; intros seen; simpl.
  - rewrite app_nil_r. by destruct (existsb (eqb x) seen).
  - destruct (existsb (eqb y) seen) eqn:E.
    + rewrite IH. f_equal. destruct (existsb (eqb x) (seen ++ l)) eqn:E1, (existsb (eqb x) (seen ++ y :: l)) eqn:E2; try done; exfalso.
      * apply existsb_in, in_app_iff in E1. assert (existsb (eqb x) (seen ++ y :: l) = true); [|congruence]. apply existsb_in, in_app_iff. simpl. tauto.
      * apply existsb_in, in_app_iff in E2. assert (existsb (eqb x) (seen ++ l) = true); [|congruence]. apply existsb_in, in_app_iff.
        destruct E2 as [?|[->|?]]; [by left| |by right]. left. by apply existsb_in.
    + rewrite IH /=. f_equal. f_equal. destruct (eqb x y) eqn:Exy; simpl.
      * apply Heqb in Exy. subst y. assert (existsb (eqb x) (seen ++ x :: l) = true) as ->; [|done]. apply existsb_in, in_app_iff. right. by left.
      * destruct (existsb (eqb x) (seen ++ l)) eqn:E1, (existsb (eqb x) (seen ++ y :: l)) eqn:E2; try done; exfalso.
        -- apply existsb_in, in_app_iff in E1. assert (existsb (eqb x) (seen ++ y :: l) = true); [|congruence]. apply existsb_in, in_app_iff. simpl. tauto.
        -- apply existsb_in, in_app_iff in E2. assert (existsb (eqb x) (seen ++ l) = true); [|congruence]. apply existsb_in, in_app_iff.
           destruct E2 as [?|[->|?]]; [by left| |by right]. assert (eqb x x = true) by (by apply Heqb). congruence.
Qed.
Lemma firsts_in seen l x : In x (firsts_from eqb seen l) <-> In x l /\ ~ In x seen.
Proof.
  revert seen. induction l as [|y l IH]; intros seen; simpl; [tauto|].
  destruct (existsb (eqb y) seen) eqn:E.
  - apply existsb_in in E. rewrite IH. split; [tauto|]. intros [[->|?] ?]; tauto.
  - assert (~ In y seen) as Hy. { intros H. apply existsb_in in H. congruence. }
    simpl. rewrite IH. simpl. split; [intros [->|[? ?]]; tauto|]. intros [[->|Hx] Hs]; [by left|].
    destruct (eqb y x) eqn:Eyx; [apply Heqb in Eyx; by left|]. right. split; [done|]. intros [->|?]; [|done].
    assert (eqb x x = true) by (by apply Heqb). congruence.
Qed.
Lemma firsts_nodup seen l : NoDup (firsts_from eqb seen l).
Proof.
  revert seen. induction l as [|y l IH]; intros seen; simpl; [constructor|]. destruct (existsb (eqb y) seen); [done|]. constructor; [|done].
  intros H. apply elem_of_list_In, firsts_in in H as [_ H]. apply H. by left.
Qed.
End firsts.
Lemma seqb x y : String.eqb x y = true <-> x = y.
Proof. apply String.eqb_eq. Qed.
Lemma neqb x y : Nat.eqb x y = true <-> x = y.
Proof. apply Nat.eqb_eq. Qed.

Lemma od_get_map {A} (f : string -> A) k ns : od_get k (map (fun n => (n, f n)) ns) = if existsb (String.eqb k) ns then Some (f k) else None.
Proof.
  induction ns as [|n ns IH]; [done|]. simpl. rewrite (String.eqb_sym k n). destruct (String.eqb_spec n k) as [->|]; [done|]. exact IH.
Qed.
Lemma od_change_map {A} (f : string -> A) g k ns : NoDup ns ->
  od_change k g (map (fun n => (n, f n)) ns) = map (fun n => (n, if String.eqb n k then g (f n) else f n)) ns.
Proof.
  induction ns as [|n ns IH]; intros Hnd; [done|]. apply NoDup_cons in Hnd as [Hn Hnd]. simpl. destruct (String.eqb_spec n k) as [->|].
  - f_equal. apply map_ext_in. intros x Hx. destruct (String.eqb_spec x k) as [->|]; [|done]. exfalso. apply Hn. by apply elem_of_list_In.
  - f_equal. by apply IH.
Qed.
Lemma appended_app a b : appended (a ++ b) = appended a ++ appended b.
Proof. apply omap_app. Qed.
Lemma ih_run_snoc l o : ih_run (l ++ [o]) = ih_do (ih_run l) o.
Proof. unfold ih_run. by rewrite fold_left_app. Qed.
Lemma of_process_app n a b : of_process n (a ++ b) = of_process n a ++ of_process n b.
Proof. apply List.filter_app. Qed.
Lemma of_process_none n l : ~ In n (mentioned l) -> of_process n (appended l) = [].
Proof.
  induction l as [|o l IH]; intros H; [done|]. simpl in H. change (o :: l) with ([o] ++ l). rewrite appended_app of_process_app.
  rewrite (IH (fun Hn => H (or_intror Hn))) app_nil_r. destruct o as [m|e]; simpl in *; [done|]. destruct (String.eqb_spec (io_name e) n); [|done]. exfalso. apply H. by left.
Qed.
Lemma io_state l : ih_seq (ih_run l) = appended l /\
  ih_dict (ih_run l) = map (fun n => (n, of_process n (appended l))) (first_names (mentioned l)).
Proof.
  induction l as [|o l IH] using rev_ind; [done|]. destruct IH as [I1 I2]. rewrite ih_run_snoc appended_app.
  assert (mentioned (l ++ [o]) = mentioned l ++ mentioned [o]) as Em by apply map_app.
  rewrite Em. destruct o as [n|e]; cbn [ih_do].
  - unfold ih_track. rewrite I2 od_get_map. unfold first_names. rewrite (firsts_snoc String.eqb seqb) /=.
    rewrite app_nil_r. fold (first_names (mentioned l)).
    destruct (existsb (String.eqb n) (first_names (mentioned l))) eqn:E.
    + apply (existsb_in _ seqb) in E. apply (firsts_in _ seqb) in E as [E _]. apply (existsb_in _ seqb) in E. by rewrite E app_nil_r.
    + destruct (existsb (String.eqb n) (mentioned l)) eqn:E1.
      * apply (existsb_in _ seqb) in E1. assert (existsb (String.eqb n) (first_names (mentioned l)) = true); [|congruence].
        apply (existsb_in _ seqb). apply (firsts_in _ seqb). split; [done|intros []].
      * simpl. rewrite I1 map_app /=. split; [done|]. rewrite (of_process_none n l); [|done]. intros H. apply (existsb_in _ seqb) in H. congruence.
  - unfold ih_append. cbn [ih_seq ih_dict]. rewrite I1. split; [done|]. rewrite I2 od_get_map. unfold first_names. rewrite (firsts_snoc String.eqb seqb) /=.
    fold (first_names (mentioned l)).
    assert (forall m, of_process m (appended l ++ [e]) = if String.eqb m (io_name e) then of_process m (appended l) ++ [e] else of_process m (appended l)) as Ho.
    { intros m. rewrite of_process_app /=. rewrite String.eqb_sym. destruct (String.eqb m (io_name e)); [done|by rewrite app_nil_r]. }
    destruct (existsb (String.eqb (io_name e)) (first_names (mentioned l))) eqn:E.
    + apply (existsb_in _ seqb) in E. apply (firsts_in _ seqb) in E as [E _]. apply (existsb_in _ seqb) in E. rewrite E app_nil_r.
      rewrite od_change_map; [apply (firsts_nodup _ seqb)|]. apply map_ext. intros m. by rewrite Ho.
    + destruct (existsb (String.eqb (io_name e)) (mentioned l)) eqn:E1.
      * apply (existsb_in _ seqb) in E1. assert (existsb (String.eqb (io_name e)) (first_names (mentioned l)) = true); [|congruence].
        apply (existsb_in _ seqb). apply (firsts_in _ seqb). split; [done|intros []].
      * assert (~ In (io_name e) (mentioned l)) as Hno. { intros H. apply (existsb_in _ seqb) in H. congruence. }
        assert ([(io_name e, [])] = map (fun n => (n, of_process n (appended l))) [io_name e]) as -> by (by rewrite /= (of_process_none _ _ Hno)).
        rewrite -map_app od_change_map.
        -- apply NoDup_app. split; [apply (firsts_nodup _ seqb)|]. split; [|apply NoDup_singleton].
           intros x Hx ->%elem_of_list_singleton. apply elem_of_list_In in Hx. apply (firsts_in _ seqb) in Hx as [Hx _]. done.
        -- apply map_ext. intros m. by rewrite Ho.
Qed.
Lemma io_law l : let h := ih_run l in
  ih_seq h = appended l /\ ih_names h = first_names (mentioned l) /\
  (forall n, ih_get n h = if existsb (String.eqb n) (mentioned l) then Ok (of_process n (appended l)) else Exn XKey) /\
  ih_processes h = omap (fun n => io_action <$> head (of_process n (appended l))) (first_names (mentioned l)).
Proof.
  intros h. destruct (io_state l) as [H1 H2]. fold h in H1, H2. split; [done|]. split; [|split].
  - unfold ih_names. rewrite H2 map_map. by rewrite map_id.
  - intros n. unfold ih_get. rewrite H2 od_get_map.
    destruct (existsb (String.eqb n) (first_names (mentioned l))) eqn:E1, (existsb (String.eqb n) (mentioned l)) eqn:E2; try done; exfalso.
    + apply (existsb_in _ seqb) in E1. apply (firsts_in _ seqb) in E1 as [E1 _]. apply (existsb_in _ seqb) in E1. congruence.
    + apply (existsb_in _ seqb) in E2. assert (existsb (String.eqb n) (first_names (mentioned l)) = true); [|congruence].
      apply (existsb_in _ seqb). apply (firsts_in _ seqb). split; [done|intros []].
  - unfold ih_processes. rewrite H2. clear H1 H2 h. induction (first_names (mentioned l)) as [|n ns IH]; [done|]. simpl. destruct (of_process n (appended l)); simpl; [exact IH|f_equal; exact IH].
Qed.

(** ** ProcInfoHandler *)
Lemma pi_run_snoc l e : pi_run (l ++ [e]) = pi_append e (pi_run l).
Proof. unfold pi_run. by rewrite fold_left_app. Qed.
Lemma pi_append_keys e d : map fst (pi_append e d) = map fst d ++ (if existsb (Nat.eqb (ev_action e)) (map fst d) then [] else [ev_action e]).
Proof.
  induction d as [|[a e'] d IH]; [done|]. simpl. rewrite (Nat.eqb_sym _ a). destruct (Nat.eqb a (ev_action e)); simpl; [by rewrite app_nil_r|]. by rewrite IH.
Qed.
Lemma pi_get_append a e d : pi_get a (pi_append e d) = if Nat.eqb (ev_action e) a then Ok e else pi_get a d.
Proof.
  induction d as [|[b e'] d IH]; [done|]. simpl. destruct (Nat.eqb_spec b (ev_action e)) as [->|Hne]; simpl.
  - by destruct (Nat.eqb (ev_action e) a).
  - rewrite IH. destruct (Nat.eqb_spec b a) as [->|]; [|done]. destruct (Nat.eqb_spec (ev_action e) a); [congruence|done].
Qed.
Lemma info_law l : pi_processes (pi_run l) = first_actions (map ev_action l) /\
  forall a, pi_get a (pi_run l) = match last_event a l with Some e => Ok e | None => Exn XKey end.
Proof.
  induction l as [|e l IH] using rev_ind; [done|]. destruct IH as [I1 I2]. rewrite pi_run_snoc. split.
  - unfold pi_processes in *. rewrite pi_append_keys I1. unfold first_actions. rewrite map_app (firsts_snoc Nat.eqb neqb) /=. f_equal.
    destruct (existsb (Nat.eqb (ev_action e)) (firsts_from Nat.eqb [] (map ev_action l))) eqn:E1, (existsb (Nat.eqb (ev_action e)) (map ev_action l)) eqn:E2; try done; exfalso.
    + apply (existsb_in _ neqb) in E1. apply (firsts_in _ neqb) in E1 as [E1 _]. apply (existsb_in _ neqb) in E1. congruence.
    + apply (existsb_in _ neqb) in E2. assert (existsb (Nat.eqb (ev_action e)) (firsts_from Nat.eqb [] (map ev_action l)) = true); [|congruence].
      apply (existsb_in _ neqb). apply (firsts_in _ neqb). split; [done|intros []].
  - intros a. rewrite pi_get_append I2. unfold last_event. rewrite List.filter_app /=. destruct (Nat.eqb (ev_action e) a); [by rewrite last_snoc|by rewrite app_nil_r].
Qed.
Lemma contains_iff s t : contains s t = true <-> name_contains s t.
Proof.
  split.
  - induction t as [|c t IH]; cbn [contains].
    + rewrite orb_false_r. intros (x & ->)%sw_split. by exists "", x.
    + rewrite orb_true_iff. intros [(x & ->)%sw_split|(a & b & ->)%IH]; [by exists "", x|]. by exists (String c a), b.
  - intros (a & b & ->). induction a as [|c a IH]; cbn [append].
    + destruct (s ++ b)%string eqn:E; cbn [contains]; by rewrite -?E sw_app.
    + cbn [contains]. by rewrite IH orb_true_r.
Qed.
Lemma find_law name key l : 
  (forall a, In a (map ev_action l) -> ~ name_contains key (name a)) /\ pi_find name key (pi_run l) = Exn XKey \/
  exists pre a post e, first_actions (map ev_action l) = pre ++ a :: post /\ (forall b, In b pre -> ~ name_contains key (name b)) /\
    name_contains key (name a) /\ last_event a l = Some e /\ pi_find name key (pi_run l) = Ok e.
Proof.
  destruct (info_law l) as [H1 H2].
  assert (forall a, In a (map ev_action l) <-> In a (map fst (pi_run l))) as Hin.
  { intros a. change (map fst (pi_run l)) with (pi_processes (pi_run l)). rewrite H1 (firsts_in _ neqb). split; [intros; split; [done|intros []]|tauto]. }
  rewrite -H1. unfold pi_processes.
  assert (NoDup (map fst (pi_run l))) as Hnd. { change (map fst (pi_run l)) with (pi_processes (pi_run l)). rewrite H1. apply (firsts_nodup _ neqb). }
  assert (forall a e, In (a, e) (pi_run l) -> last_event a l = Some e) as Hle.
  { intros a e Hae. assert (pi_get a (pi_run l) = Ok e) as Hg.
    { clear - Hnd Hae. induction (pi_run l) as [|[b e'] d IH]; [done|]. simpl in *. apply NoDup_cons in Hnd as [Hb Hnd].
      destruct Hae as [[= -> ->]|Hae]; [by rewrite Nat.eqb_refl|]. destruct (Nat.eqb_spec b a) as [->|]; [|by apply IH].
      exfalso. apply Hb. apply elem_of_list_In. apply in_map_iff. by exists (a, e). }
    rewrite H2 in Hg. destruct (last_event a l); congruence. }
  setoid_rewrite Hin. clear Hin H1 H2 Hnd. induction (pi_run l) as [|[a e] d IH]; [left; split; [intros a []|done]|]. simpl.
  destruct (contains key (name a)) eqn:E.
  - right. exists [], a, (map fst d), e. split; [done|]. split; [intros b []|]. apply contains_iff in E. split; [done|]. split; [|done]. apply Hle. by left.
  - assert (~ name_contains key (name a)) as Hno. { intros H. apply contains_iff in H. congruence. }
    destruct IH as [[H1 H2]|(pre & b & post & e' & H1 & H2 & H3 & H4 & H5)].
    + intros b e' H. apply Hle. by right.
    + left. split; [|done]. intros b [<-|Hb]; [done|by apply H1].
    + right. exists (a :: pre), b, post, e'. split; [by rewrite H1|]. split; [|done]. intros c [<-|Hc]; [done|by apply H2].
Qed.

(** ** resolveProcesses *)
Lemma cmd_match_iff args cmd : cmd_match args cmd = true <-> args_match args cmd.
Proof.
  assert (forall a, existsb (String.eqb a) (drop 1 cmd) = true <-> exists x l, cmd = x :: l /\ In a l) as H.
  { intros a. rewrite (existsb_in _ seqb). destruct cmd as [|x l]; simpl; [split; [done|by intros (? & ? & ? & _)]|]. rewrite drop_0. split; [by exists x, l|].
    by intros (x' & l' & [= -> ->] & ?). }
  destruct args as [| |a|l]; cbn [cmd_match args_match].
  - done.
  - rewrite Nat.eqb_eq. split; [|by intros (x & ->)]. destruct cmd as [|x [|y l]]; [done|by exists x|done].
  - cbn [forallb]. by rewrite andb_true_r H.
  - rewrite forallb_forall. split; intros H1 a Ha; apply H; by apply H1.
Qed.
Definition sel_name (det : nat -> details) (s : string) (args : cmdargs) (p : nat) : bool := contains s (de_name (det p)) && cmd_match args (de_cmd (det p)).
Lemma sel_name_iff det s args p : sel_name det s args p = true <-> selected det (QName s) args p.
Proof. unfold sel_name. by rewrite andb_true_iff contains_iff cmd_match_iff. Qed.
Lemma resolve_law det procs q args strict :
  match resolve det procs q args strict with
  | Procs l => l <> [] /\ (forall p, In p l <-> In p procs /\ selected det q args p) /\
      (match q with QAction a => l = [a] | _ => exactly det procs q args l end) /\
      (match q with QName _ => strict = true -> length l = 1 | _ => True end)
  | NoMatch => (forall p, In p procs -> ~ selected det q args p) /\ q <> QOther
  | Several => strict = true /\ exists s l, q = QName s /\ exactly det procs q args l /\ 1 < length l
  | BadQuery => q = QOther
  end.
Proof.
  destruct q as [|a|s|]; cbn [resolve].
  - destruct procs as [|p procs]; [split; [intros p []|done]|]. split; [done|]. split; [intros p'; by split; [|intros [? ?]]|]. split; [|done].
    intros sel Hs. assert (forall l, List.filter sel l = l) as ->; [|done]. induction l as [|x l IH]; [done|]. simpl. by rewrite (proj2 (Hs x) Logic.I) IH.
  - destruct (existsb (Nat.eqb a) procs) eqn:E.
    + apply (existsb_in _ neqb) in E. split; [done|]. split; [|done]. intros p. split; [intros [<-|[]]; done|]. intros [_ ->]. by left.
    + split; [|done]. intros p Hp ->. apply (existsb_in _ neqb) in Hp. congruence.
  - assert (forall sel : nat -> bool, (forall p, sel p = true <-> selected det (QName s) args p) -> List.filter (sel_name det s args) procs = List.filter sel procs) as Hex.
    { intros sel Hs. apply filter_ext. intros p. specialize (Hs p). rewrite -sel_name_iff in Hs. destruct (sel_name det s args p), (sel p); try done; destruct Hs as [? ?]; exfalso; [|]; intuition congruence. }
    pose proof (fun p => filter_In (sel_name det s args) p procs) as Hin.
    change (fun p => contains s (de_name (det p)) && cmd_match args (de_cmd (det p))) with (sel_name det s args).
    destruct (List.filter (sel_name det s args) procs) as [|m ms] eqn:Ef.
    + split; [|done]. intros p Hp Hs. apply sel_name_iff in Hs. by apply (Hin p).
    + destruct strict; cbn [andb].
      * destruct (1 <? length (m :: ms)) eqn:El.
        -- apply Nat.ltb_lt in El. split; [done|]. exists s, (m :: ms). split; [done|]. split; [exact Hex|done].
        -- apply Nat.ltb_ge in El. split; [done|]. split; [|split; [exact Hex|intros _; simpl in *; lia]].
           intros p. rewrite Hin. by rewrite sel_name_iff.
      * split; [done|]. split; [|split; [exact Hex|done]]. intros p. rewrite Hin. by rewrite sel_name_iff.
  - done.
Qed.

(** ** assertExitCodes *)
Lemma last_event_action a l e : last_event a l = Some e -> ev_action e = a.
Proof.
  unfold last_event. intros H. assert (e ∈ List.filter (fun e => Nat.eqb (ev_action e) a) l) as Hin by (by eapply last_Some_elem_of).
  apply elem_of_list_In, filter_In in Hin as [_ Hin]. by apply Nat.eqb_eq.
Qed.
Lemma last_event_some a l : In a (map ev_action l) -> exists e, last_event a l = Some e.
Proof.
  intros (e & <- & He)%in_map_iff. unfold last_event. destruct (last (List.filter (fun e' => Nat.eqb (ev_action e') (ev_action e)) l)) eqn:E; [eauto|].
  apply last_None in E. assert (In e []) as []. rewrite -E. apply filter_In. split; [done|]. apply Nat.eqb_refl.
Qed.
Lemma check_codes_iff codes l : check_codes codes l = Passes <-> forall e, In e l -> exists c, ev_code e = Some c /\ In c codes.
Proof.
  induction l as [|e l IH]; cbn [check_codes]; [split; [by intros _ e []|done]|]. destruct (ev_code e) as [c|] eqn:Ec.
  - unfold in_codes. destruct (existsb (Z.eqb c) codes) eqn:E.
    + rewrite IH. apply (existsb_in _ Z.eqb_eq) in E. split; [intros H e' [<-|He]; [by exists c|by apply H]|]. intros H e' He. apply H. by right.
    + split; [done|]. intros H. destruct (H e (or_introl eq_refl)) as (c' & Hc & Hin). assert (c' = c) as -> by congruence.
      apply (existsb_in _ Z.eqb_eq) in Hin. congruence.
  - split; [done|]. intros H. destruct (H e (or_introl eq_refl)) as (c' & Hc & _). congruence.
Qed.
Lemma exit_law det evs codes q args strict :
  assert_exit_codes det (pi_run evs) codes q args strict = Passes <->
  exists l, resolve det (first_actions (map ev_action evs)) q args strict = Procs l /\ forall a, In a l -> exited_with evs codes a.
Proof.
  destruct (info_law evs) as [H1 H2]. unfold assert_exit_codes. rewrite H1.
  pose proof (resolve_law det (first_actions (map ev_action evs)) q args strict) as R.
  destruct (resolve det _ q args strict) as [l| | |]; try (split; [done|by intros (? & ? & _)]).
  destruct R as (_ & R & _). rewrite check_codes_iff.
  assert (forall e, In e (omap (fun a => match pi_get a (pi_run evs) with Ok e => Some e | _ => None end) l) <-> exists a, In a l /\ last_event a evs = Some e) as Hin.
  { intros e. rewrite -elem_of_list_In elem_of_list_omap. split; intros (a & Ha & He); exists a; (split; [by apply elem_of_list_In|]); rewrite H2 in He |- *; destruct (last_event a evs); congruence. }
  split.
  - intros H. exists l. split; [done|]. intros a Ha. apply R in Ha as Ha'. destruct Ha' as [Ha' _]. apply (firsts_in _ neqb) in Ha' as [Ha' _].
    destruct (last_event_some _ _ Ha') as [e He]. destruct (H e) as (c & Hc & Hcin); [apply Hin; eauto|]. exists c. split; [|done].
    rewrite He. pose proof (last_event_action _ _ _ He). destruct e. simpl in *. congruence.
  - intros (l' & [= <-] & H) e He. apply Hin in He as (a & Ha & He). destruct (H a Ha) as (c & Hc & Hcin). exists c. split; [|done]. rewrite He in Hc. by injection Hc as ->.
Qed.

Lemma ra_length n l : length (ra_calls (ra_run n l)) = begun l.
Proof. unfold ra_run. by rewrite calls_length. Qed.
Lemma begun_few n l : let st := ra_run n l in (Z.of_nat (begun l) < n \/ n <= 0)%Z -> parents (ra_obs st) = [].
Proof. rewrite -(ra_length n l). apply few_law. Qed.
Lemma begun_enough n l : let st := ra_run n l in finished st -> (1 <= n <= Z.of_nat (begun l))%Z -> exists k, parents (ra_obs st) = [k].
Proof. rewrite -(ra_length n l). apply enough_law. Qed.
Lemma sequential_law det h q args l out : sequential_output det h q args = (Procs l, out) ->
  exists p, l = [p] \/ (q = QAll /\ exists l', l = p :: l').
Proof.
  unfold sequential_output. pose proof (resolve_law det (ih_processes h) q args true) as R.
  destruct (resolve det (ih_processes h) q args true) as [[|p l']| | |]; [intros _; by destruct R as [? _]| |done..]. intros [= <- _]. exists p.
  destruct R as (_ & R0 & R1 & R2). destruct q; [right; eauto|left; by injection R1 as -> ->|left|].
  - destruct l' as [|? ?]; [done|specialize (R2 eq_refl); done].
  - exfalso. by destruct (proj1 (R0 p) (or_introl eq_refl)) as [_ ?].
Qed.

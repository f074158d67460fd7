(** Lemmas about LaunchContext. *)
From Coq Require Import ssreflect.
From Verif Require Import SpecContext.

Lemma history_app os1 os2 c : history (os1 ++ os2) c = history os2 (history os1 c).
Proof. apply fold_left_app. Qed.
Lemma history_snoc os o c : history (os ++ [o]) c = (do_cop o (history os c)).1.
Proof. by rewrite history_app. Qed.

(** Stack of a store, current value on top. *)
Definition slevels (k : store) (c : ctx) : list (dict string + dict lval) :=
  match k with
  | StLC => map inl (lc c :: lc_stack c)
  | StEnv => map inl (env c :: env_stack c)
  | StLocals => map inr (locals c :: locals_stack c)
  end.
Definition below (k : store) (c : ctx) := tail (slevels k c).

Lemma slevels_cons k c : slevels k c = content k c :: below k c.
Proof. by destruct k. Qed.

Lemma filter_app_len {A} (f : A -> bool) l1 l2 :
  length (List.filter f (l1 ++ l2)) = (length (List.filter f l1) + length (List.filter f l2))%nat.
Proof. induction l1 as [|x l1 IH]; simpl; [done|]. destruct (f x); simpl; lia. Qed.
Lemma pushes_app k a b : pushes k (a ++ b) = (pushes k a + pushes k b)%nat.
Proof. apply filter_app_len. Qed.
Lemma pops_app k a b : pops k (a ++ b) = (pops k a + pops k b)%nat.
Proof. apply filter_app_len. Qed.

(** One operation on the levels of a store. *)
Lemma do_cop_levels k o c :
  (is_push k o = true -> below k (do_cop o c).1 = slevels k c /\ content k (do_cop o c).1 = content k c) /\
  (is_pop k o = true -> match below k c with
                        | [] => (do_cop o c) = (c, Exn XRuntime)
                        | _ => slevels k (do_cop o c).1 = below k c /\ (do_cop o c).2 = Ok tt
                        end) /\
  (is_push k o = false -> is_pop k o = false -> below k (do_cop o c).1 = below k c).
Proof.
  split_and!.
  - destruct k, o; try done.
  - destruct k, o; try done; intros _; unfold below; simpl;
      rewrite /pop_lc /pop_env /pop_locals.
    + by destruct (lc_stack c).
    + by destruct (env_stack c).
    + by destruct (locals_stack c).
  - destruct k, o; try done; intros _ _; unfold below; simpl;
      rewrite /pop_lc /pop_env /pop_locals /get_combined_locals; simpl; repeat case_match; done.
Qed.

(** A matched history leaves what was below untouched. *)
Lemma history_levels k os c :
  (forall p q, os = p ++ q -> pops k p <= pushes k p)%nat ->
  exists t, below k (history os c) = t ++ below k c /\ length t = (pushes k os - pops k os)%nat /\
            (forall t', t = t' ++ [] -> True).
Proof.
  induction os as [|o os IH] using rev_ind; intros Hm.
  { by exists []. }
  destruct IH as (t & Ht & Hlen & _).
  { intros p q Hpq. apply (Hm p (q ++ [o])). by rewrite app_assoc -Hpq. }
  rewrite history_snoc. pose proof (do_cop_levels k o (history os c)) as (H1 & H2 & H3).
  pose proof (Hm (os ++ [o]) []) as Hfull. rewrite app_nil_r in Hfull. specialize (Hfull eq_refl).
  pose proof (Hm os [o] eq_refl) as Hos.
  rewrite pushes_app pops_app in Hfull. rewrite pushes_app pops_app.
  assert (pushes k [o] = if is_push k o then 1 else 0)%nat as Epu
    by (by rewrite /pushes /=; destruct (is_push k o)).
  assert (pops k [o] = if is_pop k o then 1 else 0)%nat as Epo
    by (by rewrite /pops /=; destruct (is_pop k o)).
  rewrite Epu Epo in Hfull |- *.
  destruct (is_push k o) eqn:Hpu.
  - destruct (H1 eq_refl) as [Hb _].
    exists (content k (history os c) :: t). split_and!; [| |done].
    2:{ assert (is_pop k o = false) as -> by (by destruct k, o). simpl. lia. }
    rewrite Hb slevels_cons Ht. done.
  - destruct (is_pop k o) eqn:Hpo.
    + specialize (H2 eq_refl).
      destruct t as [|x t]; [simpl in Hlen; lia|].
      rewrite Ht /= in H2. destruct H2 as [Hl _].
      rewrite slevels_cons in Hl. exists t. split_and!; [congruence| simpl in Hlen; lia |done].
    + exists t. split_and!; [by rewrite H3|lia|done].
Qed.

Lemma lifo k mid c :
  balanced k mid ->
  let c1 := history (push_of k :: mid) c in
  let '(c2, r) := do_cop (pop_of k) c1 in
  r = Ok tt /\ content k c2 = content k c /\ below k c2 = below k c.
Proof.
  intros [Hm Heq]. simpl.
  set (c0 := (do_cop (push_of k) c).1).
  destruct (history_levels k mid c0 Hm) as (t & Ht & Hlen & _).
  assert (t = []) as -> by (apply nil_length_inv; lia).
  pose proof (do_cop_levels k (push_of k) c) as (H1 & _ & _).
  destruct H1 as [Hb _]; [by destruct k|].
  pose proof (do_cop_levels k (pop_of k) (history mid c0)) as (_ & H2 & _).
  specialize (H2 ltac:(by destruct k)).
  rewrite Ht /= in H2. unfold c0 in H2 at 1. rewrite Hb slevels_cons in H2.
  unfold history in *. simpl. fold c0.
  destruct (do_cop (pop_of k) (fold_left _ mid c0)) as [c2 r]; simpl in *.
  destruct H2 as [Hl ->]. rewrite slevels_cons in Hl. injection Hl as -> ->. done.
Qed.

Lemma pop_empty k c :
  below k c = [] -> do_cop (pop_of k) c = (c, Exn XRuntime).
Proof.
  intros Hb. pose proof (do_cop_levels k (pop_of k) c) as (_ & H2 & _).
  specialize (H2 ltac:(by destruct k)). by rewrite Hb in H2.
Qed.

Lemma touches_not k o c : touches k o = false -> slevels k (do_cop o c).1 = slevels k c.
Proof.
  destruct k, o; try done; intros _; simpl; rewrite /pop_lc /pop_env /pop_locals /get_combined_locals;
    simpl; repeat case_match; done.
Qed.
Lemma touches_congr k o c c' :
  touches k o = true -> slevels k c = slevels k c' -> env_reset c = env_reset c' ->
  slevels k (do_cop o c).1 = slevels k (do_cop o c').1.
Proof.
  intros Ht Hs Hr. destruct k, o; try done; simpl in *;
    rewrite ?/pop_lc ?/pop_env ?/pop_locals;
    injection Hs as Hs1 Hs2;
    try (apply (inj (map _)) in Hs2); rewrite ?Hs1 ?Hs2 ?Hr; try done;
    repeat case_match; simplify_eq/=; try done; congruence.
Qed.
Lemma do_cop_reset o c : env_reset (do_cop o c).1 = env_reset c.
Proof.
  destruct o; simpl; rewrite /pop_lc /pop_env /pop_locals /get_combined_locals;
    simpl; repeat case_match; done.
Qed.
Lemma no_interference k os c :
  slevels k (history os c) = slevels k (history (List.filter (touches k) os) c).
Proof.
  assert (forall c c', slevels k c = slevels k c' -> env_reset c = env_reset c' ->
    slevels k (history os c) = slevels k (history (List.filter (touches k) os) c')) as H;
    [|by apply H].
  clear c. induction os as [|o os IH]; intros c c' Hs Hr; [done|]. simpl.
  destruct (touches k o) eqn:Ht; simpl; apply IH.
  - by apply touches_congr.
  - by rewrite !do_cop_reset.
  - by rewrite touches_not.
  - by rewrite do_cop_reset.
Qed.

(** ** Locals *)
Definition pops_matched (os : list cop) : Prop :=
  forall p q, os = p ++ q -> (pops StLocals p <= pushes StLocals p)%nat.

Lemma locals_levels os c0 :
  locals c0 = ∅ -> locals_stack c0 = [] -> pops_matched os ->
  forall d l, (locals (history os c0) :: locals_stack (history os c0)) !! d = Some l ->
  forall key, l !! key = last_local key d (rev os).
Proof.
  intros Hl Hst. induction os as [|o os IH] using rev_ind; intros Hm.
  { simpl. rewrite Hl Hst. intros [|d] l H; simplify_eq/=. intros; by rewrite lookup_empty. }
  assert (pops_matched os) as Hm'.
  { intros p q Hpq. apply (Hm p (q ++ [o])). by rewrite app_assoc -Hpq. }
  specialize (IH Hm').
  rewrite history_snoc rev_app_distr. simpl.
  destruct o; simpl; try exact IH.
  - by destruct (lc_stack (history os c0)) eqn:E; rewrite /pop_lc E.
  - by destruct (env_stack (history os c0)) eqn:E; rewrite /pop_env E.
  - intros [|d] l H key; simpl in *; [by apply (IH 0%nat)|by apply (IH d)].
  - rewrite /pop_locals. destruct (locals_stack (history os c0)) as [|l0 r] eqn:E; simpl.
    + exfalso. pose proof (history_levels StLocals os c0 Hm') as (t & Ht & Hlen & _).
      rewrite /below /= E Hst /= in Ht. rewrite app_nil_r in Ht. subst t. simpl in Hlen.
      specialize (Hm (os ++ [CPopLocals]) []). rewrite app_nil_r in Hm. specialize (Hm eq_refl).
      rewrite pops_app pushes_app in Hm. rewrite /pops /pushes /= in Hm, Hlen. lia.
    + intros d l H key. apply (IH (S d)). done.
  - intros [|d] l H key; simpl in *.
    + injection H as <-. rewrite lookup_union. destruct (m !! key) eqn:Em.
      * by destruct (locals (history os c0) !! key).
      * rewrite (left_id_L None). by apply (IH 0%nat).
    + by apply (IH (S d)).
  - intros d l. rewrite /get_combined_locals. destruct (cache (history os c0)); simpl; apply IH.
Qed.

Lemma globals_last os c0 key :
  globals c0 = ∅ -> globals (history os c0) !! key = last_global key (rev os).
Proof.
  intros Hg. induction os as [|o os IH] using rev_ind; [by rewrite /= Hg lookup_empty|].
  rewrite history_snoc rev_app_distr. simpl.
  destruct o; simpl; rewrite ?/pop_lc ?/pop_env ?/pop_locals ?/get_combined_locals; try exact IH;
    try (case_match; exact IH).
  rewrite lookup_union IH. destruct (m !! key) eqn:Em; [|by rewrite (left_id_L None)].
  by destruct (last_global key (rev os)).
Qed.

Definition cache_ok (c : ctx) : Prop := cache c = None \/ cache c = Some (locals c ∪ globals c).
Lemma do_cop_cache o c : cache_ok c -> cache_ok (do_cop o c).1.
Proof.
  intros H. destruct o; simpl; rewrite ?/pop_lc ?/pop_env ?/pop_locals ?/get_combined_locals;
    repeat case_match; try exact H; try (by left); simpl; by right.
Qed.
Lemma history_cache os c : cache_ok c -> cache_ok (history os c).
Proof. revert c. induction os as [|o os IH]; intros c H; [done|]. by apply IH, do_cop_cache. Qed.

Lemma combined_value c : cache_ok c -> (get_combined_locals c).2 = locals c ∪ globals c.
Proof. intros [H|H]; rewrite /get_combined_locals H; done. Qed.

Lemma locals_visible os c0 key :
  locals c0 = ∅ -> locals_stack c0 = [] -> globals c0 = ∅ -> cache c0 = None -> pops_matched os ->
  (get_combined_locals (history os c0)).2 !! key = visible key os.
Proof.
  intros Hl Hst Hg Hc Hm. rewrite combined_value; [by apply history_cache; left|].
  rewrite lookup_union (globals_last _ _ _ Hg) /visible.
  rewrite (locals_levels os c0 Hl Hst Hm 0 _ eq_refl).
  destruct (last_local key 0 (rev os)); [|by rewrite (left_id_L None)].
  by destruct (last_global key (rev os)).
Qed.

(** ** Handlers *)
Lemma remove_first_spec i l l' :
  remove_first i l = Some l' ->
  exists a h b, l = a ++ h :: b /\ l' = a ++ b /\ h_id h = i /\ Forall (fun x => h_id x <> i) a.
Proof.
  revert l'. induction l as [|x l IH]; intros l' H; simpl in H; [done|].
  case_bool_decide as E.
  - injection H as <-. exists [], x, l. split_and!; done.
  - destruct (remove_first i l) as [r|] eqn:Er; [|done]. injection H as <-.
    destruct (IH r eq_refl) as (a & h & b & -> & -> & Hi & Ha).
    exists (x :: a), h, b. split_and!; [done..|by constructor].
Qed.
Lemma remove_first_none i l : remove_first i l = None <-> Forall (fun x => h_id x <> i) l.
Proof.
  induction l as [|x l IH]; simpl; [done|]. case_bool_decide as E.
  - split; [done|]. intros H. inversion H. done.
  - destruct (remove_first i l) as [r|]; split; intros H.
    + done.
    + inversion H; subst. by apply IH in H3.
    + constructor; [done|by apply IH].
    + done.
Qed.

(** ** Forms used in PropsContext.v *)
Lemma lifo_ex k c mid :
  balanced k mid ->
  exists c', do_cop (pop_of k) (history (push_of k :: mid) c) = (c', Ok tt)
             /\ content k c' = content k c.
Proof.
  intros H. pose proof (lifo k mid c H) as Hl. simpl in Hl.
  destruct (do_cop _ _) as [c2 r]. destruct Hl as (-> & Hc & _). by exists c2.
Qed.
Lemma pop_unmatched k nonint e os :
  balanced k os ->
  do_cop (pop_of k) (history os (new_ctx nonint e)) = (history os (new_ctx nonint e), Exn XRuntime).
Proof.
  intros [Hm Heq]. apply pop_empty.
  destruct (history_levels k os (new_ctx nonint e) Hm) as (t & -> & Hlen & _).
  assert (t = []) as -> by (apply nil_length_inv; lia). by destruct k.
Qed.
Lemma no_interference_content k os c :
  content k (history os c) = content k (history (List.filter (touches k) os) c).
Proof. pose proof (no_interference k os c) as H. rewrite !slevels_cons in H. congruence. Qed.
Lemma locals_visible_new nonint e os key :
  (forall p q, os = p ++ q -> pops StLocals p <= pushes StLocals p)%nat ->
  (get_combined_locals (history os (new_ctx nonint e))).2 !! key = visible key os.
Proof. intros H. by apply locals_visible. Qed.
Lemma globals_last_new nonint e os key :
  globals (history os (new_ctx nonint e)) !! key = last_global key (rev os).
Proof. by apply globals_last. Qed.

(** Deciding [balanced] on closed lists. *)
Fixpoint balb (k : store) (n : nat) (os : list cop) : bool :=
  match os with
  | [] => (n =? 0)%nat
  | o :: os => if is_push k o then balb k (S n) os
               else if is_pop k o then match n with O => false | S n => balb k n os end
               else balb k n os
  end.
Lemma balb_ok k n os :
  balb k n os = true ->
  (forall p q, os = p ++ q -> pops k p <= n + pushes k p)%nat /\ pops k os = (n + pushes k os)%nat.
Proof.
  revert n. induction os as [|o os IH]; intros n H; simpl in H.
  { apply Nat.eqb_eq in H as ->. split; [|done]. intros [|??] ? ?; simplify_eq/=; done. }
  assert (pushes k (o :: os) = (if is_push k o then 1 else 0) + pushes k os)%nat as E1
    by (by rewrite /pushes /=; destruct (is_push k o)).
  assert (pops k (o :: os) = (if is_pop k o then 1 else 0) + pops k os)%nat as E2
    by (by rewrite /pops /=; destruct (is_pop k o)).
  assert (exists m, balb k m os = true /\ (m + (if is_pop k o then 1 else 0) = n + (if is_push k o then 1 else 0)))%nat
    as (m & Hm & Hmn).
  { destruct (is_push k o) eqn:Ep.
    - exists (S n). assert (is_pop k o = false) as -> by (by destruct k, o). split; [done|lia].
    - destruct (is_pop k o); [destruct n as [|n]; [done|]; exists n; split; [done|lia]|exists n; split; [done|lia]]. }
  destruct (IH m Hm) as [IH1 IH2]. split; [|rewrite E1 E2 IH2; lia].
  intros [|p0 p] q Hpq; simplify_eq/=; [by rewrite /pops /=; lia|].
  specialize (IH1 p q eq_refl).
  assert (pushes k (p0 :: p) = (if is_push k p0 then 1 else 0) + pushes k p)%nat as ->
    by (by rewrite /pushes /=; destruct (is_push k p0)).
  assert (pops k (p0 :: p) = (if is_pop k p0 then 1 else 0) + pops k p)%nat as ->
    by (by rewrite /pops /=; destruct (is_pop k p0)).
  lia.
Qed.
Lemma balb_balanced k os : balb k 0 os = true -> balanced k os.
Proof. intros H. apply balb_ok in H as [H1 H2]. split; [exact H1|exact H2]. Qed.
Lemma balanced_example :
  balanced StLC [CSetLC "a" "2"; CPushEnv; CPushLC; CDelLC "a"; CPopEnv; CPopLC; CSetLC "b" "3"; CPushEnv].
Proof. by apply balb_balanced. Qed.

Lemma occurrences_0 i l : occurrences i l = O <-> Forall (fun x => h_id x <> i) l.
Proof.
  rewrite /occurrences. induction l as [|x l IH]; simpl; [done|].
  case_bool_decide as E; simpl; split; intros H.
  - done.
  - by inversion H.
  - constructor; [done|by apply IH].
  - inversion H; by apply IH.
Qed.
Lemma unregister_first c c' h :
  unregister_event_handler (h_id h) c = (c', Ok tt) ->
  exists before x after,
    handlers c = before ++ x :: after /\ handlers c' = before ++ after
    /\ h_id x = h_id h /\ Forall (fun y => h_id y <> h_id h) before
    /\ c' = c <| handlers := before ++ after |>.
Proof.
  rewrite /unregister_event_handler. destruct (remove_first _ _) as [l|] eqn:E; [|done].
  intros [= <-]. apply remove_first_spec in E as (a & x & b & -> & -> & ? & ?).
  exists a, x, b. split_and!; done.
Qed.
Lemma unregister_iff c h :
  (exists c', unregister_event_handler (h_id h) c = (c', Ok tt)) /\ occurrences (h_id h) (handlers c) <> O
  \/ unregister_event_handler (h_id h) c = (c, Exn XValue) /\ occurrences (h_id h) (handlers c) = O.
Proof.
  rewrite /unregister_event_handler. destruct (remove_first _ _) as [l|] eqn:E.
  - left. split; [by eexists|]. intros H%occurrences_0. apply remove_first_none in H. congruence.
  - right. split; [done|]. by apply occurrences_0, remove_first_none.
Qed.
Lemma remove_first_app i l h :
  Forall (fun x => h_id x <> i) l -> h_id h = i -> remove_first i (l ++ [h]) = Some l.
Proof.
  intros Hl Hh. induction Hl as [|x l Hx Hl IH]; simpl.
  - by rewrite bool_decide_true.
  - rewrite bool_decide_false; [done|]. by rewrite IH.
Qed.
Lemma register_unregister c h append :
  occurrences (h_id h) (handlers c) = O ->
  unregister_event_handler (h_id h) (register_event_handler h append c) = (c, Ok tt).
Proof.
  intros H%occurrences_0. rewrite /unregister_event_handler /register_event_handler.
  destruct append; simpl.
  - rewrite remove_first_app //. by destruct c.
  - rewrite bool_decide_true //. by destruct c.
Qed.
Lemma register_position c h :
  handlers (register_event_handler h false c) = h :: handlers c
  /\ handlers (register_event_handler h true c) = handlers c ++ [h].
Proof. done. Qed.

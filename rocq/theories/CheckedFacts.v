(** Lemmas for checked arguments (C98). *)
From Coq Require Import ssreflect.
From Verif Require Import SpecChecked SpecSubst TypeFacts.

Section checked.
Context {Sb : Type} (text : string -> Sb).
Notation value := (pyval Sb).

Lemma ensure_iff (v : value) ts : ensure_argument_type v ts = Ok tt <-> Exists (fun t => isinstance v t = true) ts.
Proof.
  rewrite /ensure_argument_type Exists_exists. split.
  - destruct (existsb _ ts) eqn:E; [|done]. intros _. apply existsb_exists in E as (t & H1 & H2). exists t. split; [by apply elem_of_list_In|].
    move: H2. rewrite /check_argument /isinstance. by destruct (issubclass _ _).
  - intros (t & H1%elem_of_list_In & H2). assert (existsb (check_argument v) ts = true) as ->; [|done].
    apply existsb_exists. exists t. split; [done|]. by rewrite /check_argument H2.
Qed.
Lemma ensure_cases (v : value) ts : ensure_argument_type v ts = Ok tt \/ ensure_argument_type v ts = Exn XType.
Proof. rewrite /ensure_argument_type. destruct (existsb _ _); tauto. Qed.
Lemma ensure_iterable (v : value) : ensure_argument_type v [CIterable] = if match v with VStr _ | VList _ | VTuple _ | VIterator _ | VDict _ => true | _ => false end then Ok tt else Exn XType.
Proof. by destruct v. Qed.

(** Items. *)
Lemma items_pv v l : has_items v l -> to_pv v = PList (map (to_pv (Sb:=Sb)) l).
Proof. destruct 1; simpl; [done|done|]. by rewrite map_map. Qed.
Lemma is_sub_pv (v : value) : is_sub (to_pv v) = true <-> exists y, v = VSub y.
Proof. destruct v; simpl; split; try done; try (intros [? ?]; done). intros _. eauto. Qed.
Lemma part_iff (v : value) x : normalize_item text (to_pv v) = Ok (PSub x) <-> part text v x.
Proof.
  split; [|by destruct 1]. destruct v; simpl; try done; intros [= <-]; constructor.
Qed.
Lemma item_shape (v : value) r : normalize_item text (to_pv v) = Ok r -> exists x, r = PSub x.
Proof. destruct v; simpl; try done; intros [= <-]; eauto. Qed.
Lemma parts_iff (l : list value) r : mapR (normalize_item text) (map to_pv l) = Ok r <-> exists xs, r = map PSub xs /\ Forall2 (part text) l xs.
Proof.
  revert r. induction l as [|v l IH]; intros r; simpl.
  - split; [intros [= <-]; exists []; split; [done|constructor]|]. intros (xs & -> & H). by inversion H.
  - split.
    + destruct (normalize_item text (to_pv v)) as [y| |] eqn:E1; [|done|done]. simpl.
      destruct (mapR _ (map to_pv l)) as [ys| |] eqn:E2; [|done|done]. intros [= <-].
      destruct (item_shape _ _ E1) as [x ->]. apply part_iff in E1. destruct (proj1 (IH ys) eq_refl) as (xs & -> & H). exists (x :: xs). split; [done|by constructor].
    + intros (xs & -> & H). inversion H as [|? x ? xs' Hx Hl]; subst. apply part_iff in Hx. rewrite Hx /=.
      assert (mapR (normalize_item text) (map to_pv l) = Ok (map PSub xs')) as ->; [|done]. apply IH. eauto.
Qed.
Lemma subst_iff (l : list value) : is_substitution (PList (map to_pv l)) = true <->
  (exists y, In (VSub y) l) /\ exists xs, Forall2 (part text) l xs.
Proof.
  simpl. rewrite !andb_true_iff forallb_forall existsb_exists Nat.ltb_lt. split.
  - intros [[_ H] (v & (v' & <- & Hv)%in_map_iff & [y ->]%is_sub_pv)]. split; [eauto|]. clear Hv.
    induction l as [|v l IH]; [exists []; constructor|]. destruct IH as [xs IH]; [intros x Hx; apply H; by right|].
    specialize (H (to_pv v) (or_introl eq_refl)). destruct v; try done; eexists (_ :: xs); constructor; try constructor; done.
  - intros [[y Hy] [xs H]]. split_and!.
    + destruct l; [done|simpl; lia].
    + intros x (v & <- & Hv)%in_map_iff. clear Hy. induction H as [|v' x' l xs Hp _ IH]; [done|]. destruct Hv as [->|Hv]; [by destruct Hp|by apply IH].
    + exists (to_pv (VSub y)). split; [by apply in_map|done].
Qed.
Lemma stands_iff v l xs : has_items v l -> stands_for text v xs <-> Forall2 (part text) l xs /\ exists y, In (VSub y) l.
Proof.
  intros Hl. split.
  - destruct 1 as [x|v l' xs y Hl' H Hy]; [by inversion Hl|]. assert (l' = l) as ->; [|eauto]. by inversion Hl'; subst; inversion Hl.
  - intros [H [y Hy]]. by eapply stands_parts.
Qed.
Lemma mapR_not_fuel {A B} (f : A -> res B) l : (forall x, f x <> OutOfFuel) -> mapR f l <> OutOfFuel.
Proof.
  intros H. induction l as [|x l IH]; simpl; [done|]. specialize (H x). destruct (f x); simpl; [|done|done].
  by destruct (mapR f l).
Qed.
Lemma items_norm v l t : has_items v l -> normalize_typed_substitution text (to_pv v) (Some (DScalar t)) =
  if is_substitution (PList (map to_pv l)) then normalize_to_list_of_substitutions text (PList (map to_pv l)) else Exn XType.
Proof.
  intros Hl. rewrite (items_pv _ _ Hl) /normalize_typed_substitution. change (is_scalar (PList ?x)) with false. cbv iota.
  destruct (is_substitution _) eqn:E; [done|].
  assert (forall x : pv Sb, item_kind x <> OutOfFuel) as K. { intros x. rewrite /item_kind. destruct (type_of x); [done|]. by destruct (is_substitution x). }
  pose proof (mapR_not_fuel _ (map to_pv l) K) as Hf.
  assert (forall e, mapR item_kind (map (to_pv (Sb:=Sb)) l) = Exn e -> e = XType) as He.
  { generalize (map (to_pv (Sb:=Sb)) l). clear. induction l as [|x l IH]; simpl; [done|]. intros e. rewrite {1}/item_kind.
    destruct (type_of x); simpl; [|destruct (is_substitution x); simpl; [|congruence]];
    (destruct (mapR item_kind l) eqn:E; simpl; [done| |done]; intros [= <-]; by apply IH). }
  destruct (mapR item_kind _) as [ks|e|]; [done| |done]. by rewrite (He e eq_refl).
Qed.
Lemma norm_iff v t r : normalize_typed_substitution text (to_pv v) (Some (DScalar t)) = Ok r <->
  (isinstance_s (to_pv v) t = true /\ r = to_pv v) \/ exists xs, stands_for text v xs /\ r = PList (map PSub xs).
Proof.
  destruct (match v with VList l | VTuple l => Some l | VDict l => Some (map fst l) | _ => None end) as [l|] eqn:El.
  - assert (has_items v l) as Hl by (destruct v; try done; injection El as <-; constructor).
    rewrite (items_norm v l t Hl). assert (isinstance_s (to_pv v) t = false) as -> by (by rewrite (items_pv _ _ Hl); destruct t).
    destruct (is_substitution _) eqn:E.
    + apply subst_iff in E as [Hy _]. simpl. split.
      * destruct (mapR _ _) as [ys| |] eqn:E; [|done|done]. intros [= <-]. right. apply parts_iff in E as (xs & -> & H).
        exists xs. split; [|done]. by apply (stands_iff _ _ _ Hl).
      * intros [[? _]|(xs & H & ->)]; [done|]. apply (stands_iff _ _ _ Hl) in H as [H _].
        assert (mapR (normalize_item text) (map to_pv l) = Ok (map PSub xs)) as ->; [|done]. apply parts_iff. eauto.
    + split; [done|]. intros [[? _]|(xs & H & ->)]; [done|]. exfalso. apply (stands_iff _ _ _ Hl) in H as [H Hy].
      assert (is_substitution (PList (map to_pv l)) = true) as E'; [|congruence]. apply subst_iff. eauto.
  - assert (forall xs, stands_for text v xs -> exists x, v = VSub x /\ xs = [x]) as Hs.
    { intros xs H. inversion H as [x|v' l xs' y Hi]; subst; [eauto|]. by inversion Hi; subst. }
    assert (forall xs, stands_for text v xs <-> exists x, v = VSub x /\ xs = [x]) as Hs'.
    { intros xs. split; [apply Hs|]. intros (x & -> & ->). constructor. }
    split.
    + destruct v; try done; simpl; unfold normalize_typed_substitution; simpl; try done; try (intros [= <-]; right; eexists [_]; split; [constructor|reflexivity]);
      destruct t; simpl; intros [= <-]; left; done.
    + intros [[H ->]|(xs & (x & -> & ->)%Hs & ->)]; [|done]. destruct v; try done; destruct t; done.
Qed.
Lemma norm_exn v t e : normalize_typed_substitution text (to_pv v) (Some (DScalar t)) = Exn e -> e = XType.
Proof.
  destruct (match v with VList l | VTuple l => Some l | VDict l => Some (map fst l) | _ => None end) as [l|] eqn:El.
  - assert (has_items v l) as Hl by (destruct v; try done; injection El as <-; constructor).
    rewrite (items_norm v l t Hl). destruct (is_substitution _) eqn:E; [|congruence]. apply subst_iff in E as [_ [xs H]]. simpl.
    assert (mapR (normalize_item text) (map to_pv l) = Ok (map PSub xs)) as ->; [apply parts_iff; eauto|done].
  - destruct v; try done; unfold normalize_typed_substitution; simpl; try congruence; destruct t; simpl; congruence.
Qed.
Lemma norm_fuel v t : normalize_typed_substitution text (to_pv v) (Some (DScalar t)) <> OutOfFuel.
Proof.
  destruct (match v with VList l | VTuple l => Some l | VDict l => Some (map fst l) | _ => None end) as [l|] eqn:El.
  - assert (has_items v l) as Hl by (destruct v; try done; injection El as <-; constructor).
    rewrite (items_norm v l t Hl). destruct (is_substitution _) eqn:E; [|congruence]. apply subst_iff in E as [_ [xs H]]. simpl.
    assert (mapR (normalize_item text) (map to_pv l) = Ok (map PSub xs)) as ->; [apply parts_iff; eauto|done].
  - destruct v; try done; unfold normalize_typed_substitution; simpl; try congruence; destruct t; simpl; congruence.
Qed.

(** Timers. *)
Lemma period_norm v r : (exists v', match v with VStr s => exists f, py_float s = Some f /\ v' = VFloat f | _ => v' = v end /\
    normalize_typed_substitution text (to_pv v') (Some (DScalar TFloat)) = Ok r) /\ ensure_argument_type v [CStr; CSub; CIterable; CFloat] = Ok tt
  <-> is_period text v r.
Proof.
  split.
  - intros [(v' & Hv & H%norm_iff) He]. destruct v; try done; try subst v'.
    + destruct H as [[_ ->]|(xs & H & _)]; [constructor|]. inversion H as [|? ? ? ? Hi]; subst. by inversion Hi.
    + destruct Hv as (g & Hg & ->). destruct H as [[_ ->]|(xs & H & _)]; [by constructor|]. inversion H as [|? ? ? ? Hi]; subst. by inversion Hi.
    + destruct H as [[? _]|(xs & H & ->)]; [done|]. by constructor.
    + destruct H as [[? _]|(xs & H & ->)]; [done|]. by constructor.
    + destruct H as [[? _]|(xs & H & ->)]; [done|]. by constructor.
    + destruct H as [[? _]|(xs & H & ->)]; [done|]. by constructor.
    + destruct H as [[? _]|(xs & H & ->)]; [done|]. by constructor.
  - intros [f|s f H|v' xs H].
    + split; [|done]. exists (VFloat f). split; [done|]. apply norm_iff. by left.
    + split; [|done]. exists (VFloat f). split; [eauto|]. apply norm_iff. by left.
    + assert (normalize_typed_substitution text (to_pv v') (Some (DScalar TFloat)) = Ok (PList (map PSub xs))) as N by (apply norm_iff; eauto).
      destruct H as [x|v' l xs y Hl H Hy]; [split; [by exists (VSub x)|done]|]. split; [|by destruct Hl]. exists v'. split; [by destruct Hl|done].
Qed.
Lemma flag_norm v r : normalize_typed_substitution text (to_pv v) (Some (DScalar TBool)) = Ok r <-> is_flag text v r.
Proof.
  rewrite norm_iff. split.
  - intros [[H ->]|(xs & H & ->)]; [|by constructor]. destruct v; try done. constructor.
  - intros [b|v' xs H]; [by left|]. right. eauto.
Qed.
Lemma iterable_iff (v : value) : ensure_argument_type v [CIterable] = Ok tt <-> can_iterate v.
Proof. rewrite ensure_iterable. by destruct v; simpl; split. Qed.
Lemma timer_iff p a c p' c' : timer_init text p a c = Ok (p', c') <-> is_period text p p' /\ can_iterate a /\ is_flag text c c'.
Proof.
  rewrite -period_norm -iterable_iff -flag_norm /timer_init. split.
  - destruct (ensure_argument_type p _) as [[]| |] eqn:E1; [|done|done]. simpl.
    destruct (ensure_argument_type a _) as [[]| |] eqn:E2; [|done|done]. simpl. intros H.
    assert (exists v', match p with VStr s => exists f, py_float s = Some f /\ v' = VFloat f | _ => v' = p end /\
      res_bind (normalize_typed_substitution text (to_pv v') (Some (DScalar TFloat))) (fun p =>
      res_bind (normalize_typed_substitution text (to_pv c) (Some (DScalar TBool))) (fun c => Ok (p, c))) = Ok (p', c')) as (v' & Hv & H').
    { destruct p; simpl in H |- *; eauto. destruct (py_float s) as [f|]; [|done]. exists (VFloat f). eauto. }
    clear H. destruct (normalize_typed_substitution text (to_pv v') _) as [q| |] eqn:E3; [|done|done]. simpl in H'.
    destruct (normalize_typed_substitution text (to_pv c) _) as [d| |] eqn:E4; [|done|done]. simpl in H'. injection H' as -> ->. eauto 10.
  - intros ([(v' & Hv & H) E1] & E2 & E3). rewrite E1 E2 /=.
    assert (match p with VStr s => match py_float s with Some f => Ok (VFloat f) | None => Exn XValue end | _ => Ok p end = Ok v') as ->.
    { destruct p; try (by rewrite Hv). destruct Hv as (f & -> & ->). done. }
    by rewrite /= H /= E3.
Qed.
Lemma timer_refuses p a c e : timer_init text p a c = Exn e ->
  e = XType \/ e = XValue /\ exists s, p = VStr s /\ py_float s = None /\ can_iterate a.
Proof.
  rewrite /timer_init.
  destruct (ensure_cases p [CStr; CSub; CIterable; CFloat]) as [->| ->]; simpl; [|intros [= <-]; by left].
  destruct (ensure_cases a [CIterable]) as [E| ->]; simpl; [|intros [= <-]; by left]. rewrite E /=. apply iterable_iff in E.
  assert (forall v', res_bind (normalize_typed_substitution text (to_pv v') (Some (DScalar TFloat))) (fun p =>
      res_bind (normalize_typed_substitution text (to_pv c) (Some (DScalar TBool))) (fun c => Ok (p, c))) = Exn e -> e = XType) as K.
  { intros v'. destruct (normalize_typed_substitution text (to_pv v') _) as [q|e'|] eqn:E1; simpl; [|intros [= <-]; by apply norm_exn in E1|done].
    destruct (normalize_typed_substitution text (to_pv c) _) as [d|e'|] eqn:E2; simpl; [done|intros [= <-]; by apply norm_exn in E2|done]. }
  destruct p; cbn [res_bind]; try (intros H%K; by left). destruct (py_float s) as [f|] eqn:Ef; cbn [res_bind]; [intros H%K; by left|].
  intros [= <-]. right. eauto 10.
Qed.
Lemma timer_total p a c : timer_init text p a c <> OutOfFuel.
Proof.
  rewrite /timer_init.
  destruct (ensure_cases p [CStr; CSub; CIterable; CFloat]) as [->| ->]; simpl; [|done].
  destruct (ensure_cases a [CIterable]) as [-> | ->]; simpl; [|done].
  assert (forall v', res_bind (normalize_typed_substitution text (to_pv v') (Some (DScalar TFloat))) (fun p =>
      res_bind (normalize_typed_substitution text (to_pv c) (Some (DScalar TBool))) (fun c => Ok (p, c))) <> OutOfFuel) as K.
  { intros v'. pose proof (norm_fuel v' TFloat) as F1. destruct (normalize_typed_substitution text (to_pv v') _) as [q|e'|] eqn:E1; simpl; [|done|done].
    pose proof (norm_fuel c TBool) as F2. by destruct (normalize_typed_substitution text (to_pv c) _). }
  destruct p; cbn [res_bind]; try apply K. destruct (py_float s) as [f|] eqn:Ef; cbn [res_bind]; [apply K|done].
Qed.
Lemma timer_waits {ST} (yaml : string -> option (pv Sb)) (perf : list Sb -> ST -> ST * res string) p a c p' c' s s' v :
  timer_init text p a c = Ok (p', c') -> perform_typed_substitution yaml perf p' (Some (DScalar TFloat)) s = (s', Ok v) ->
  (exists f, v = PFloat f) /\ (forall f, p = VFloat f -> v = PFloat f /\ s' = s) /\ (forall t, p = VStr t -> exists f, py_float t = Some f /\ v = PFloat f /\ s' = s).
Proof.
  intros (Hp & _ & _)%timer_iff H. split; [|split].
  - apply perform_typed_sound in H. inversion H as [? ? Hs| | |]; subst. destruct Hs as [Hs|[? _]]; [|done]. inversion Hs; eauto.
  - intros f ->. inversion Hp as [|?|v' xs Hs]; subst; [|inversion Hs as [|? ? ? ? Hi]; subst; by inversion Hi]. simpl in H. by injection H as <- <-.
  - intros t ->. inversion Hp as [|? f Hf|v' xs Hs]; subst; [|inversion Hs as [|? ? ? ? Hi]; subst; by inversion Hi]. exists f. simpl in H. by injection H as <- <-.
Qed.

(** Opaque functions and coroutines. *)
Lemma args_iff (v : value) : ensure_argument_type v [CIterable; CNone] = Ok tt <-> exists l, gives_args v l.
Proof. split; [destruct v; try done; intros _; eexists; eauto using @gives_args, @has_items|]. intros [l [|? ? []| |]]; done. Qed.
Lemma kwargs_iff (v : value) : ensure_argument_type v [CDict; CNone] = Ok tt <-> exists k, gives_kwargs v k.
Proof. split; [destruct v; try done; intros _; eexists; eauto using @gives_kwargs|]. by intros [l []]. Qed.
Lemma args_keeps c (a k : value) l ks : gives_args a l -> gives_kwargs k ks -> iteration (o_args (opaque_keeps c a k)) = l /\ o_kwargs (opaque_keeps c a k) = ks /\
  (~ used_up a -> iterated (o_args (opaque_keeps c a k)) = o_args (opaque_keeps c a k)) /\ o_context (opaque_keeps c a k) = c.
Proof.
  intros Ha Hk. split_and!; [by destruct Ha as [|? ? []| |]|by destruct Hk| |done]. intros H. destruct Ha as [|? ? []| |]; simpl; try done.
Qed.
Lemma keywords_named (k : list (string * value)) : keywords (named k) = Ok k.
Proof. induction k as [|[n v] k IH]; simpl; [done|]. by rewrite IH. Qed.
Lemma keywords_iff (l : list (value * value)) k : keywords l = Ok k <-> l = named k.
Proof.
  split; [|intros ->; apply keywords_named]. revert k. induction l as [|[n v] l IH]; simpl; intros k; [by intros [= <-]|].
  destruct n; try done. destruct (keywords l) as [k'| |]; try done. intros [= <-]. by rewrite (IH k' eq_refl).
Qed.
Lemma keywords_exn (l : list (value * value)) : (forall k, l <> named k) -> keywords l = Exn XType.
Proof.
  intros H. assert (forall l, (exists k, keywords (Sb:=Sb) l = Ok k) \/ keywords l = Exn XType) as C.
  { clear. induction l as [|[n v] l [[k IH]|IH]]; simpl; [eauto| |]; destruct n; try tauto; rewrite IH; simpl; eauto. }
  destruct (C l) as [[k E]|E]; [|done]. apply keywords_iff in E. by destruct (H k).
Qed.
Lemma executions_same n (o : opaque Sb) : iterated (o_args o) = o_args o ->
  opaque_executions n o = repeat (opaque_execute o).1 n.
Proof.
  intros H. induction n as [|n IH]; [done|]. cbn [opaque_executions repeat]. destruct (opaque_execute o) as [r o'] eqn:E. simpl.
  f_equal. rewrite /opaque_execute H in E. injection E as <- <-. destruct o as [a b c]. exact IH.
Qed.
Lemma function_iff f (a k : value) : (exists o, opaque_function_init f a k = Ok o) <-> callable f = true /\ (exists l, gives_args a l) /\ (exists ks, gives_kwargs k ks).
Proof.
  rewrite -args_iff -kwargs_iff /opaque_function_init. destruct (callable f); [|split; [by intros []|by intros []]]. split.
  - intros [o H]. destruct (ensure_cases a [CIterable; CNone]) as [E|E]; rewrite E in H; [|done]. simpl in H.
    destruct (ensure_cases k [CDict; CNone]) as [E'|E']; rewrite E' in H; [|done]. done.
  - intros (_ & -> & ->). simpl. eauto.
Qed.
Lemma function_fails f (a k : value) : (forall o, opaque_function_init f a k <> Ok o) -> opaque_function_init f a k = Exn XType.
Proof.
  rewrite /opaque_function_init. destruct (callable f); [|done]. destruct (ensure_cases a [CIterable; CNone]) as [-> | ->]; [|done].
  destruct (ensure_cases k [CDict; CNone]) as [-> | ->]; [|done]. intros H. by destruct (H (opaque_keeps true a k)).
Qed.
Lemma coroutine_iff f (a k i : value) : (exists o, opaque_coroutine_init f a k i = Ok o) <->
  f = VFunction true /\ (exists l, gives_args a l) /\ (exists ks, gives_kwargs k ks) /\ exists b, i = VBool b.
Proof.
  rewrite -args_iff -kwargs_iff /opaque_coroutine_init. destruct f as [| | | | | | | | | | |[]|]; try (split; [by intros []|by intros []]). split.
  - intros [o H]. destruct (ensure_cases a [CIterable; CNone]) as [E|E]; rewrite E in H; [|done]. simpl in H.
    destruct (ensure_cases k [CDict; CNone]) as [E'|E']; rewrite E' in H; [|done]. simpl in H. destruct i; try done. eauto.
  - intros (_ & -> & -> & b & ->). simpl. eauto.
Qed.
Lemma function_keeps f (a k : value) o : opaque_function_init f a k = Ok o -> o = opaque_keeps true a k.
Proof.
  rewrite /opaque_function_init. destruct (callable f); [|done]. destruct (ensure_cases a [CIterable; CNone]) as [-> | ->]; [|done].
  destruct (ensure_cases k [CDict; CNone]) as [-> | ->]; [|done]. by intros [= <-].
Qed.
Lemma coroutine_keeps f (a k i : value) o : opaque_coroutine_init f a k i = Ok o -> exists b, i = VBool b /\ o = opaque_keeps (negb b) a k.
Proof.
  rewrite /opaque_coroutine_init. destruct f as [| | | | | | | | | | |[]|]; try done. destruct (ensure_cases a [CIterable; CNone]) as [-> | ->]; [|done].
  destruct (ensure_cases k [CDict; CNone]) as [-> | ->]; [|done]. destruct i; try done. intros [= <-]. eauto.
Qed.
Lemma keeps_again n c (a k : value) l ks : gives_args a l -> gives_kwargs k (named ks) -> ~ used_up a ->
  opaque_executions n (opaque_keeps c a k) = repeat (Ok {| c_context := c; c_args := l; c_kwargs := ks |}) n.
Proof.
  intros Ha Hk Hu. destruct (args_keeps c _ _ _ _ Ha Hk) as (E1 & E2 & E3 & E4). rewrite executions_same; [by apply E3|].
  by rewrite /opaque_execute E1 E2 keywords_named E4.
Qed.
Lemma keeps_once n c (k : value) l ks : gives_kwargs k (named ks) ->
  opaque_executions (S n) (opaque_keeps c (VIterator l) k) =
    Ok {| c_context := c; c_args := l; c_kwargs := ks |} :: repeat (Ok {| c_context := c; c_args := []; c_kwargs := ks |}) n.
Proof.
  intros Hk. destruct (args_keeps c _ _ _ _ (args_once l) Hk) as (E1 & E2 & _). cbn [opaque_executions]. unfold opaque_execute at 1.
  rewrite E2 keywords_named. f_equal. rewrite executions_same; [done|]. by rewrite /opaque_execute /= keywords_named.
Qed.
Lemma keeps_fails n c (a k : value) l ks : gives_args a l -> gives_kwargs k ks -> (forall k', ks <> named k') ->
  opaque_executions n (opaque_keeps c a k) = repeat (Exn XType) n.
Proof.
  intros Ha Hk Hn. assert (forall o : opaque Sb, o_kwargs o = ks -> opaque_executions n o = repeat (Exn XType) n) as G.
  { induction n as [|n IH]; [done|]. intros o Ho. cbn [opaque_executions repeat]. unfold opaque_execute. rewrite Ho (keywords_exn _ Hn). simpl. f_equal. by apply IH. }
  apply G. by destruct (args_keeps c _ _ _ _ Ha Hk) as (_ & ? & _).
Qed.

(** Substitutions. *)
Lemma each_iff (l : list value) r : normalize_each text l = Ok r <-> exists xs, r = map VSub xs /\ Forall2 (part text) l xs.
Proof.
  revert r. induction l as [|v l IH]; intros r; simpl.
  - split; [intros [= <-]; by exists []|]. intros (xs & -> & H). by inversion H.
  - split.
    + destruct v; try done; destruct (normalize_each text l) as [ys| |]; try done; intros [= <-];
      destruct (proj1 (IH ys) eq_refl) as (xs & -> & H); eexists (_ :: xs); (split; [reflexivity|]); constructor; try constructor; done.
    + intros (xs & -> & H). inversion H as [|? x ? xs' Hx Hl]; subst. assert (normalize_each text l = Ok (map VSub xs')) as E by (apply IH; eauto).
      destruct Hx; by rewrite E.
Qed.
Lemma each_exn (l : list value) : (exists r, normalize_each text l = Ok r) \/ normalize_each text l = Exn XType.
Proof. induction l as [|v l [[r IH]|IH]]; simpl; [eauto| |]; destruct v; try tauto; rewrite IH; simpl; eauto. Qed.
Lemma subs_iff (v : value) r : normalize_subs text v = Ok r <->
  (exists xs, some_substitutions text v xs /\ r = map VSub xs) \/ v = VSubClass /\ r = [VSubClass].
Proof.
  split.
  - destruct v; try done; unfold normalize_subs; simpl; try (intros [= <-]).
    + left. exists [text s]. split; [repeat constructor|done].
    + left. exists [x]. split; [repeat constructor|done].
    + by right.
    + intros (xs & -> & H)%each_iff. left. exists xs. split; [by eapply some_items; [constructor|]|done].
    + intros (xs & -> & H)%each_iff. left. exists xs. split; [by eapply some_items; [constructor|]|done].
    + intros (xs & -> & H)%each_iff. left. exists xs. split; [by apply some_once|done].
    + intros (xs & -> & H)%each_iff. left. exists xs. split; [by eapply some_items; [constructor|]|done].
  - intros [(xs & H & ->)|[-> ->]]; [|done]. destruct H as [v x []|v l xs Hl H|l xs H]; try done.
    + destruct Hl; unfold normalize_subs; simpl; apply each_iff; eauto.
    + unfold normalize_subs; simpl; apply each_iff; eauto.
Qed.
Lemma subs_exn (v : value) : (forall r, normalize_subs text v <> Ok r) -> normalize_subs text v = Exn XType.
Proof.
  intros H. assert ((exists r, normalize_subs text v = Ok r) \/ normalize_subs text v = Exn XType) as [[r E]|E]; [| |done].
  - destruct v; unfold normalize_subs; simpl; try tauto; try (left; eexists; reflexivity); apply each_exn.
  - by destruct (H r).
Qed.
End checked.

(** Lemmas about the registry of parsing methods. *)
From Coq Require Import ssreflect.
From Verif Require Import SpecRegistry.

Local Open Scope general_if_scope.
#[global] Instance kind_eqdec : EqDecision kind.
Proof. solve_decision. Defined.
Lemma found_iff t : found_method t = Ok true <-> parsable t.
Proof. rewrite /parsable. destruct t as [[[|]|]| |]; simpl; split; try done; try (by left); try (by right); by intros [?|?]. Qed.
Lemma parsable_dec t : {parsable t} + {~ parsable t}.
Proof. destruct (found_method t) as [[|]| |] eqn:E; [left; by apply found_iff|right|right|right]; rewrite -found_iff E; done. Qed.
Lemma map_put k k' n n' e r : r_map k (r_put k' n' e r) !! n = if decide (k = k' /\ n = n') then Some e else r_map k r !! n.
Proof.
  destruct (decide (k = k' /\ n = n')) as [[-> ->]|H]; [destruct k'; simpl; by rewrite lookup_insert|].
  destruct k, k'; simpl; try done; rewrite lookup_insert_ne //; intros ->; by apply H.
Qed.
Lemma called_put k k' n n' o r : called k n (r_put k' n' (match k' with KAction => EWrapped o | KSubst => EMethod o end) r) =
  if decide (k = k' /\ n = n') then Ok o else called k n r.
Proof. rewrite /called map_put. destruct (decide _); [by destruct k'|done]. Qed.
(** Exposing keeps what is bound, and binds what was free. *)
Lemma expose_spec k n o t r :
  (~ parsable t /\ expose k n o t r = (r, Exn XRuntime)) \/
  (parsable t /\ called k n r = Exn XRuntime /\ (expose k n o t r).2 = Ok tt /\ forall k' n', called k' n' (expose k n o t r).1 = if decide (k' = k /\ n' = n) then Ok o else called k' n' r) \/
  (parsable t /\ (exists o', called k n r = Ok o') /\ (forall k' n', called k' n' (expose k n o t r).1 = called k' n' r) /\
   ((expose k n o t r).2 = Ok tt <-> r_map k r !! n = Some (EMethod o)) /\ ((expose k n o t r).2 = Ok tt \/ expose k n o t r = (r, Exn XRuntime))).
Proof.
  rewrite /expose. destruct (parsable_dec t) as [Hp|Hp]; [right|left].
  2: { split; [done|]. destruct (found_method t) as [[|]| |] eqn:E; try done. destruct Hp. by apply found_iff. }
  apply found_iff in Hp as Hf. rewrite Hf. destruct (r_map k r !! n) as [e|] eqn:El; [right|left].
  - split; [done|]. split; [rewrite /called El; destruct e; eauto|]. rewrite /same_method. destruct e as [o'|o'].
    + case_bool_decide as Ho.
      * subst o'. simpl. split; [|split; [done|by left]]. intros k' n'. rewrite called_put. destruct (decide _) as [H|H]; [|done]. destruct H as [-> ->]. by rewrite /called El.
      * simpl. split; [done|]. split; [|by right]. split; [done|]. intros [= ->]. done.
    + simpl. split; [done|]. split; [|by right]. split; done.
  - split; [done|]. split; [by rewrite /called El|]. split; [done|]. intros k' n'. by rewrite called_put.
Qed.
Lemma expose_keeps k n o t r k' n' o' : called k' n' r = Ok o' -> called k' n' (expose k n o t r).1 = Ok o'.
Proof.
  intros H. destruct (expose_spec k n o t r) as [[_ ->]|[(_ & Hn & _ & E)|(_ & _ & E & _)]]; [done| |by rewrite E].
  rewrite E. destruct (decide _) as [Hd|Hd]; [|done]. destruct Hd as [-> ->]. by rewrite H in Hn.
Qed.
Lemma all_keeps l r k n o : called k n r = Ok o -> called k n (expose_all l r) = Ok o.
Proof. revert r. induction l as [|[[[k' n'] o'] t] l IH]; intros r H; [done|]. simpl. apply IH. by apply expose_keeps. Qed.
Lemma called_cases k n r : (exists o, called k n r = Ok o) \/ called k n r = Exn XRuntime.
Proof. rewrite /called. destruct (_ !! n) as [[o|o]|]; eauto. Qed.
Lemma all_app l1 l2 r : expose_all (l1 ++ l2) r = expose_all l2 (expose_all l1 r).
Proof. by rewrite /expose_all fold_left_app. Qed.
Lemma never_called k n l r : called k n r = Exn XRuntime -> never_exposed k n l -> called k n (expose_all l r) = Exn XRuntime.
Proof.
  revert r. induction l as [|[[[k' n'] o'] t] l IH]; intros r Hr Hn; [done|]. simpl. apply IH.
  - destruct (expose_spec k' n' o' t r) as [[_ ->]|[(Hp & _ & _ & E)|(_ & _ & E & _)]]; [done| |by rewrite E].
    rewrite E. destruct (decide _) as [Hd|Hd]; [|done]. destruct Hd as [-> ->]. destruct (Hn o' t); [by left|done].
  - intros o u Hi. apply (Hn o u). by right.
Qed.
Lemma first_called k n o l : first_exposed k n o l -> called k n (expose_all l r_empty) = Ok o.
Proof.
  intros (pre & t & post & -> & Hp & Hn). rewrite all_app. simpl. apply all_keeps.
  assert (called k n (expose_all pre r_empty) = Exn XRuntime) as Hc.
  { apply never_called; [rewrite /called; by destruct k|exact Hn]. }
  destruct (expose_spec k n o t (expose_all pre r_empty)) as [[Hp' _]|[(_ & _ & _ & E)|(_ & [o' Ho] & _)]]; [done| |by rewrite Ho in Hc].
  rewrite E. by rewrite decide_True.
Qed.
Lemma first_or_never k n l : (exists o, first_exposed k n o l) \/ never_exposed k n l.
Proof.
  induction l as [|x l IH] using rev_ind; [right; by intros o t []|].
  destruct IH as [[o (pre & t & post & -> & Hp & Hn)]|IH].
  - left. exists o, pre, t, (post ++ [x]). by rewrite -app_assoc.
  - destruct x as [[[k' n'] o'] t']. destruct (decide (k' = k)) as [->|Hk]; [destruct (decide (n' = n)) as [->|Hn']|].
    + destruct (parsable_dec t') as [Hp|Hp].
      * left. exists o', l, t', []. split; [done|]. split; [done|exact IH].
      * right. intros o t [Hi|[[= <- <-]|[]]]%in_app_iff; [by apply (IH o)|done].
    + right. intros o t [Hi|[[= ? ? ?]|[]]]%in_app_iff; [by apply (IH o)|done].
    + right. intros o t [Hi|[[= ? ? ?]|[]]]%in_app_iff; [by apply (IH o)|done].
Qed.
Lemma called_law k n o l : called k n (expose_all l r_empty) = Ok o <-> first_exposed k n o l.
Proof.
  split; [|apply first_called]. intros H. destruct (first_or_never k n l) as [[o' Ho]|Hn].
  - pose proof (first_called _ _ _ _ Ho) as H'. rewrite H in H'. by injection H' as ->.
  - rewrite never_called // in H. rewrite /called. by destruct k.
Qed.
Lemma unknown_law k n l : called k n (expose_all l r_empty) = Exn XRuntime <-> never_exposed k n l.
Proof.
  split; [|apply never_called; rewrite /called; by destruct k]. intros H. destruct (first_or_never k n l) as [[o' Ho]|Hn]; [|done].
  by rewrite (first_called _ _ _ _ Ho) in H.
Qed.
Definition typed (r : registry) : Prop := (forall n o, r_actions r !! n <> Some (EMethod o)) /\ forall n o, r_substs r !! n <> Some (EWrapped o).
Lemma typed_all l r : typed r -> typed (expose_all l r).
Proof.
  revert r. induction l as [|[[[k n] o] t] l IH]; intros r [H1 H2]; [done|]. simpl. apply IH. clear IH. rewrite /expose.
  assert (typed (r_put k n (match k with KAction => EWrapped o | KSubst => EMethod o end) r)) as Hp.
  { split; intros n' o'; destruct k; simpl; try apply H1; try apply H2; (destruct (decide (n = n')) as [->|Hn]; [by rewrite lookup_insert|rewrite lookup_insert_ne //; apply H1 || apply H2]). }
  destruct (found_method t) as [[|]| |]; try done. destruct (r_map k r !! n) as [e|]; [|done]. by destruct (same_method o e).
Qed.
Lemma accept_law l k n o t : (expose k n o t (expose_all l r_empty)).2 = Ok tt <->
  parsable t /\ (never_exposed k n l \/ k = KSubst /\ first_exposed k n o l).
Proof.
  assert (typed (expose_all l r_empty)) as [Ht1 Ht2] by (apply typed_all; split; by intros n' o').
  destruct (expose_spec k n o t (expose_all l r_empty)) as [[Hp ->]|[(Hp & Hc & E & _)|(Hp & [o' Hc] & _ & E & _)]].
  - split; [done|]. by intros [? _].
  - split; [intros _|done]. split; [done|]. left. by apply unknown_law.
  - rewrite E. split.
    + intros El. split; [done|]. right. destruct k; [by apply Ht1 in El|]. split; [done|]. apply called_law. by rewrite /called El.
    + intros [_ [Hn|[-> Hf]]]; [apply unknown_law in Hn; by rewrite Hc in Hn|]. apply called_law in Hf. rewrite /called in Hf. simpl in Hf |- *.
      destruct (r_substs _ !! n) as [[x|x]|] eqn:El; [by injection Hf as ->| by apply Ht2 in El|done].
Qed.

(** ** Extensions *)
Lemma body_keeps m body r next k n o : called k n r = Ok o -> called k n (import_body m body r next).1.1 = Ok o.
Proof.
  revert r next. induction body as [|[[k' n'] t] body IH]; intros r next H; [done|]. simpl.
  pose proof (expose_keeps k' n' (m, next) t r k n o H) as H'. destruct (expose k' n' (m, next) t r) as [r' [?| |]]; [by apply IH|done|done].
Qed.
Lemma body_next m body r next : next <= (import_body m body r next).1.2.
Proof.
  revert r next. induction body as [|[[k' n'] t] body IH]; intros r next; [done|]. simpl. destruct (expose k' n' (m, next) t r) as [r' [?| |]]; simpl; [|lia|lia].
  pose proof (IH r' (S next)). lia.
Qed.
(** What importing adds: new objects of the module. *)
Lemma body_new m body r next k n o : called k n (import_body m body r next).1.1 = Ok o ->
  called k n r = Ok o \/ called k n r = Exn XRuntime /\ fst o = m /\ next <= snd o < (import_body m body r next).1.2 /\ In (k, n) (map (fun x => (x.1.1, x.1.2)) body).
Proof.
  revert r next. induction body as [|[[k' n'] t] body IH]; intros r next; [by left|]. simpl.
  destruct (expose_spec k' n' (m, next) t r) as [[_ E]|[(_ & Hc & E2 & E)|(_ & _ & E & _ & E2)]].
  - rewrite E /=. by left.
  - destruct (expose k' n' (m, next) t r) as [r' x]. simpl in E2, E. subst x. intros H. pose proof (body_next m body r' (S next)) as Hb.
    apply IH in H as [H|(H & ? & ? & ?)].
    + rewrite E in H. destruct (decide _) as [Hd|Hd]; [|by left]. destruct Hd as [-> ->]. injection H as <-. right. split; [done|]. split; [done|]. split; [simpl; lia|by left].
    + right. rewrite E in H. destruct (decide _) as [Hd|Hd]; [done|]. split; [done|]. split; [done|]. split; [lia|by right].
  - destruct (expose k' n' (m, next) t r) as [r' x]. simpl in E2, E. intros H. destruct E2 as [->|[= -> ->]]; [|by left].
    apply IH in H as [H|(H & ? & ? & ?)]; rewrite E in H; [by left|]. right. split; [done|]. split; [done|]. split; [lia|by right].
Qed.
Lemma ext_reg s e : existsb (Nat.eqb (x_module e)) (l_modules s) = false -> l_reg (import_ext s e) = (import_body (x_module e) (x_body e) (l_reg s) (l_next s)).1.1 /\
  l_next (import_ext s e) = (import_body (x_module e) (x_body e) (l_reg s) (l_next s)).1.2.
Proof. intros H. rewrite /import_ext H. destruct (import_body _ _ _ _) as [[r n] ok]. by destruct (ok && x_ok e). Qed.
Lemma ext_keeps s e k n o : called k n (l_reg s) = Ok o -> called k n (l_reg (import_ext s e)) = Ok o.
Proof.
  intros H. destruct (existsb (Nat.eqb (x_module e)) (l_modules s)) eqn:E; [by rewrite /import_ext E|].
  destruct (ext_reg s e E) as [-> _]. by apply body_keeps.
Qed.
Lemma fold_keeps l s k n o : called k n (l_reg s) = Ok o -> called k n (l_reg (fold_left import_ext l s)) = Ok o.
Proof. revert s. induction l as [|e l IH]; intros s H; [done|]. simpl. apply IH. by apply ext_keeps. Qed.
Lemma ext_past s e : past s -> past (import_ext s e).
Proof.
  intros H. destruct (existsb (Nat.eqb (x_module e)) (l_modules s)) eqn:E; [by rewrite /import_ext E|].
  intros k n o. destruct (ext_reg s e E) as [-> ->]. intros Hc. pose proof (body_next (x_module e) (x_body e) (l_reg s) (l_next s)) as Hn.
  apply body_new in Hc as [Hc|(_ & _ & ? & _)]; [apply H in Hc; lia|lia].
Qed.
Lemma ext_modules s e m : In m (l_modules s) -> In m (l_modules (import_ext s e)).
Proof. intros H. rewrite /import_ext. destruct (existsb _ _); [done|]. destruct (import_body _ _ _ _) as [[r n] ok]. destruct (ok && x_ok e); [by right|done]. Qed.
(** An extension with nothing to add: it is imported, or an attempt ends at once. *)
Definition idle (s : loader) (e : ext) : Prop :=
  In (x_module e) (l_modules s) \/
  match x_body e with
  | [] => True
  | (k, n, t) :: _ => ~ parsable t \/ exists o, called k n (l_reg s) = Ok o
  end.
Lemma idle_mono s e e' : idle s e -> idle (import_ext s e') e.
Proof.
  intros [H|H]; [left; by apply ext_modules|right]. destruct (x_body e) as [|[[k n] t] b]; [done|]. destruct H as [H|[o H]]; [by left|right].
  exists o. by apply ext_keeps.
Qed.
Lemma idle_reg s e : past s -> idle s e -> l_reg (import_ext s e) = l_reg s.
Proof.
  intros Hp H. destruct (existsb (Nat.eqb (x_module e)) (l_modules s)) eqn:E; [by rewrite /import_ext E|].
  destruct (ext_reg s e E) as [-> _]. destruct H as [H|H].
  { assert (existsb (Nat.eqb (x_module e)) (l_modules s) = true) as E'; [|by rewrite E in E']. apply existsb_exists. exists (x_module e). split; [done|apply Nat.eqb_refl]. }
  destruct (x_body e) as [|[[k n] t] b]; [done|]. simpl.
  destruct H as [H|[o H]].
  - destruct (expose_spec k n (x_module e, l_next s) t (l_reg s)) as [[_ ->]|[(? & _)|(? & _)]]; done.
  - destruct (expose_spec k n (x_module e, l_next s) t (l_reg s)) as [[_ ->]|[(_ & Hc & _)|(_ & _ & _ & E1 & E2)]]; [done|by rewrite H in Hc|].
    destruct E2 as [E2| ->]; [|done]. apply E1 in E2. rewrite /called E2 in H. injection H as H. specialize (Hp k n (x_module e, l_next s)).
    rewrite /called E2 in Hp. specialize (Hp eq_refl). simpl in Hp. lia.
Qed.
Lemma import_idle s e : idle (import_ext s e) e.
Proof.
  destruct (existsb (Nat.eqb (x_module e)) (l_modules s)) eqn:E.
  { left. apply ext_modules. apply existsb_exists in E as (m & Hm & ->%Nat.eqb_eq). done. }
  right. destruct (ext_reg s e E) as [-> _]. destruct (x_body e) as [|[[k n] t] b]; [done|].
  destruct (parsable_dec t) as [Hp|Hp]; [right|by left]. simpl.
  destruct (expose_spec k n (x_module e, l_next s) t (l_reg s)) as [[? _]|[(_ & Hc & E2 & E1)|(_ & [o Ho] & E1 & _)]]; [done| |].
  - destruct (expose k n (x_module e, l_next s) t (l_reg s)) as [r' x]. simpl in *. subst x. exists (x_module e, l_next s). apply body_keeps. rewrite E1. by rewrite decide_True.
  - exists o. pose proof (E1 k n) as E1'. rewrite Ho in E1'. destruct (expose k n (x_module e, l_next s) t (l_reg s)) as [r' [?| |]]; simpl in *; [by apply body_keeps|done|done].
Qed.
Lemma fold_idle l s : past s -> past (fold_left import_ext l s) /\ Forall (idle (fold_left import_ext l s)) l.
Proof.
  intros Hp. assert (forall l s, past s -> past (fold_left import_ext l s)) as HP.
  { clear. induction l as [|e l IH]; intros s H; [done|]. simpl. apply IH. by apply ext_past. }
  split; [by apply HP|]. revert s Hp. induction l as [|e l IH]; intros s Hp; [constructor|]. simpl. constructor; [|apply IH; by apply ext_past].
  assert (forall l s, idle s e -> idle (fold_left import_ext l s) e) as HI.
  { clear. induction l as [|e' l IH]; intros s H; [done|]. simpl. apply IH. by apply idle_mono. }
  apply HI. apply import_idle.
Qed.
Lemma fold_again l s : past s -> Forall (idle s) l -> l_reg (fold_left import_ext l s) = l_reg s /\ Forall (idle (fold_left import_ext l s)) l.
Proof.
  intros Hp Hi. assert (l_reg (fold_left import_ext l s) = l_reg s) as E.
  { revert s Hp Hi. induction l as [|e l IH]; intros s Hp Hi; [done|]. simpl. inversion_clear Hi as [|? ? He Hl].
    rewrite IH; [by apply ext_past|eapply List.Forall_impl; [|exact Hl]; intros x Hx; by apply idle_mono|by apply idle_reg]. }
  split; [done|]. by apply fold_idle.
Qed.
Lemma again_law exts cs s : past s -> Forall (idle s) exts -> l_reg (fold_left (load_extensions exts) cs s) = l_reg s.
Proof.
  revert s. induction cs as [|c cs IH]; intros s Hp Hi; [done|]. change (fold_left (load_extensions exts) (c :: cs) s) with (fold_left (load_extensions exts) cs (load_extensions exts s c)).
  rewrite {2}/load_extensions. destruct (existsb _ (l_loaded s)); [by apply IH|]. destruct (fold_again exts s Hp Hi) as [E Hi'].
  rewrite IH /=; [|exact Hi'|exact E]. destruct (fold_idle exts s Hp) as [H _]. exact H.
Qed.
Lemma reload_law exts c cs s : past s -> l_loaded s = [] -> l_reg (fold_left (load_extensions exts) (c :: cs) s) = l_reg (load_extensions exts s c).
Proof.
  intros Hp Hl. change (fold_left (load_extensions exts) (c :: cs) s) with (fold_left (load_extensions exts) cs (load_extensions exts s c)).
  destruct (fold_idle exts s Hp) as [Hp' Hi].
  apply again_law; rewrite /load_extensions Hl; [exact Hp'|exact Hi].
Qed.

(** A sound extension whose names are free is imported whole. *)
Lemma body_sound m body : Forall (fun x => parsable x.2) body -> List.NoDup (map (fun x => (x.1.1, x.1.2)) body) -> forall r next,
  (forall k n, In (k, n) (map (fun x => (x.1.1, x.1.2)) body) -> called k n r = Exn XRuntime) ->
  (import_body m body r next).2 = true /\ forall k n, In (k, n) (map (fun x => (x.1.1, x.1.2)) body) -> exists o, called k n (import_body m body r next).1.1 = Ok o /\ fst o = m.
Proof.
  induction 1 as [|[[k n] t] body Ht Hb IH]; intros Hnd r next Hf; [by split; [|intros ? ? []]|]. simpl in *. inversion_clear Hnd as [|? ? Hnin Hnd'].
  destruct (expose_spec k n (m, next) t r) as [[? _]|[(_ & _ & E2 & E)|(_ & [o Ho] & _)]]; [done| |rewrite (Hf k n) in Ho; [by left|done]].
  destruct (expose k n (m, next) t r) as [r' x]. simpl in E2, E. subst x.
  destruct (IH Hnd' r' (S next)) as [H1 H2].
  { intros k' n' Hi. rewrite E. destruct (decide _) as [Hd|Hd]; [destruct Hd as [-> ->]; done|]. apply Hf. by right. }
  split; [done|]. intros k' n' [[= <- <-]|Hi]; [|by apply H2]. exists (m, next). split; [|done]. apply body_keeps. rewrite E. by rewrite decide_True.
Qed.
Lemma fold_free l s k n : called k n (l_reg s) = Exn XRuntime -> (forall e, In e l -> ~ In (k, n) (names_of e)) -> called k n (l_reg (fold_left import_ext l s)) = Exn XRuntime.
Proof.
  revert s. induction l as [|e l IH]; intros s Hc Hn; [done|]. simpl. apply IH; [|intros e' He; apply Hn; by right].
  destruct (existsb (Nat.eqb (x_module e)) (l_modules s)) eqn:E; [by rewrite /import_ext E|].
  destruct (ext_reg s e E) as [-> _]. destruct (called_cases k n (import_body (x_module e) (x_body e) (l_reg s) (l_next s)).1.1) as [[o Ho]|?]; [|done].
  apply body_new in Ho as [Ho|(_ & _ & _ & Hi)]; [by rewrite Hc in Ho|]. destruct (Hn e); [by left|done].
Qed.
Lemma fold_modules l s m : ~ In m (l_modules s) -> (forall e, In e l -> x_module e <> m) -> ~ In m (l_modules (fold_left import_ext l s)).
Proof.
  revert s. induction l as [|e l IH]; intros s Hm Hl; [done|]. simpl. apply IH; [|intros e' He; apply Hl; by right].
  rewrite /import_ext. destruct (existsb _ _); [done|]. destruct (import_body _ _ _ _) as [[r n] ok]. destruct (ok && x_ok e); [|done].
  simpl. intros [H|H]; [|done]. destruct (Hl e); [by left|done].
Qed.
Lemma load_law exts c s pre e post : exts = pre ++ e :: post -> l_loaded s = [] -> sound e -> ~ In (x_module e) (l_modules s) ->
  (forall e', In e' pre -> x_module e' <> x_module e) ->
  (forall k n, In (k, n) (names_of e) -> called k n (l_reg s) = Exn XRuntime /\ forall e', In e' pre -> ~ In (k, n) (names_of e')) ->
  In (x_module e) (l_modules (load_extensions exts s c)) /\
  forall k n, In (k, n) (names_of e) -> exists o, called k n (l_reg (load_extensions exts s c)) = Ok o /\ fst o = x_module e.
Proof.
  intros -> Hl (Hok & Hp & Hnd) Hm Hpre Hfree. rewrite /load_extensions Hl /=. rewrite fold_left_app. simpl. set (s1 := fold_left import_ext pre s).
  assert (existsb (Nat.eqb (x_module e)) (l_modules s1) = false) as E.
  { destruct (existsb _ _) eqn:E; [|done]. apply existsb_exists in E as (m & Hi & Em%Nat.eqb_eq). subst m. by apply fold_modules in Hi. }
  destruct (body_sound (x_module e) (x_body e) Hp Hnd (l_reg s1) (l_next s1)) as [H1 H2].
  { intros k n Hi. destruct (Hfree k n Hi) as [H3 H4]. by apply fold_free. }
  split.
  - assert (forall l s, In (x_module e) (l_modules s) -> In (x_module e) (l_modules (fold_left import_ext l s))) as HM.
    { clear. induction l as [|e' l IH]; intros s H; [done|]. simpl. apply IH. by apply ext_modules. }
    apply HM. rewrite /import_ext E. destruct (import_body _ _ _ _) as [[r n] ok]. simpl in H1. rewrite H1 Hok /=. by left.
  - intros k n Hi. destruct (H2 k n Hi) as (o & Ho & Ef). exists o. split; [|done]. apply fold_keeps. destruct (ext_reg s1 e E) as [-> _]. exact Ho.
Qed.
Lemma ext_warned s e m : In m (l_warned s) -> In m (l_warned (import_ext s e)).
Proof. intros H. rewrite /import_ext. destruct (existsb _ _); [done|]. destruct (import_body _ _ _ _) as [[r n] ok]. destruct (ok && x_ok e); [done|by right]. Qed.
Lemma warned_law exts c s e : l_loaded s = [] -> In e exts ->
  In (x_module e) (l_modules (load_extensions exts s c)) \/ In (x_module e) (l_warned (load_extensions exts s c)).
Proof.
  intros Hl Hi. rewrite /load_extensions Hl /=. clear Hl. revert s. induction exts as [|e' exts IH]; intros s; [by destruct Hi|]. simpl.
  destruct Hi as [->|Hi]; [|by apply IH].
  assert (In (x_module e) (l_modules (import_ext s e)) \/ In (x_module e) (l_warned (import_ext s e))) as H.
  { rewrite /import_ext. destruct (existsb _ _) eqn:E; [left; apply existsb_exists in E as (m & Hm & ->%Nat.eqb_eq); done|].
    destruct (import_body _ _ _ _) as [[r n] ok]. destruct (ok && x_ok e); [left; by left|right; by left]. }
  clear -H. generalize dependent (import_ext s e). induction exts as [|e' exts IH]; intros s' H; [done|]. simpl. apply IH.
  destruct H as [H|H]; [left; by apply ext_modules|right; by apply ext_warned].
Qed.

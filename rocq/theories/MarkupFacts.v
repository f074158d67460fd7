(** Lemmas about what elements of markup files stand for. *)
From Coq Require Import ssreflect.
From Verif Require Import SpecSubst SpecMarkup TypeFacts FrontendFacts.

(** ** Evaluating parse methods *)
Definition frame (G : list nat) (hp hp' : heap) : Prop :=
  (length hp <= length hp')%nat /\ forall i, (i < length hp)%nat -> ~ In i G -> hp' !! i = hp !! i.
Lemma frame_refl G hp : frame G hp hp. Proof. by split. Qed.
Lemma frame_trans G a b c : frame G a b -> frame G b c -> frame G a c.
Proof. intros [L1 F1] [L2 F2]. split; [lia|]. intros i Hi Hn. rewrite F2 //; [lia|]. by apply F1. Qed.
Lemma frame_mono G G' a b : (forall i, In i G -> In i G') -> frame G a b -> frame G' a b.
Proof. intros H [L F]. split; [done|]. intros i Hi Hn. apply F; [done|]. intros Hin. apply Hn. by apply H. Qed.

Lemma text_as_iff yaml s t v : text_as yaml s t v <-> coerce_to_type yaml true s (Some (DScalar t)) = Ok v.
Proof.
  rewrite /coerce_to_type /convert_as_yaml. cbn [extract_type res_bind]. split.
  - inversion 1 as [|s1 z E|s1 E|s1 f E|s1 E|s1 b Hs E|s1 s2 Hs E|s1 E]; subst; [done|by rewrite E..| | |].
    + fold (one_zero s). assert (one_zero s <> ""%string) as Hn. { rewrite /one_zero. destruct (String.eqb s "1"); [done|]. by destruct (String.eqb s "0"). }
      apply String.eqb_neq in Hn. by rewrite Hn E.
    + fold (one_zero s). assert (one_zero s <> ""%string) as Hn. { rewrite /one_zero. destruct (String.eqb s "1"); [done|]. by destruct (String.eqb s "0"). }
      apply String.eqb_neq in Hn. by rewrite Hn E.
    + fold (one_zero s). destruct E as [->|E]; [done|]. rewrite E. by destruct (String.eqb (one_zero s) "").
  - destruct t.
    1: { destruct (py_int s) eqn:E; intros [= <-]; by constructor. }
    1: { destruct (py_float s) eqn:E; intros [= <-]; by constructor. }
    2: { intros [= <-]. constructor. }
    + fold (one_zero s). destruct (String.eqb_spec (one_zero s) "") as [E|E].
      { intros [= <-]. assert (s = ""%string) as Hs. { revert E. rewrite /one_zero. destruct (String.eqb s "1"); [done|]. by destruct (String.eqb s "0"). } apply ta_not_bool. by left. }
      assert (s <> ""%string) as Hs by (intros ->; done).
      destruct (yaml (one_zero s)) as [out|] eqn:Ey; [|intros [= <-]; apply ta_not_bool; by right].
      destruct (is_instance_of_valid_type true out); [|done]. cbn [res_bind].
      destruct (isinstance_or_str true TBool out) eqn:Ei; [|done]. intros [= <-]. destruct out; try done; by econstructor.
Qed.
Lemma text_as_fun yaml s t v w : text_as yaml s t v -> text_as yaml s t w -> v = w.
Proof. rewrite !text_as_iff. congruence. Qed.
Local Arguments coerce_to_type : simpl never.
Section markup.
Context (yaml : string -> option (pv subst)) (parse_sub : string -> res (list subst)).
Notation K := (string * list (string * kval))%type.
Context (act : heap -> nat -> outcome ParseMethods.act).
Notation st := (list nat * heap)%type.
Definition ev (s : st) (p : prog K ParseMethods.act) : option (heap * K) :=
  match run_with yaml act s.1 s.2 p with (hp, _, Ok k) => Some (hp, k) | _ => None end.
(** An assertion about one entity. *)
Definition at_ (s : st) (h : nat) (P : ent -> Prop) : Prop := In h s.1 /\ exists e, s.2 !! h = Some e /\ P e.
Definition sframe (G : list nat) (s s' : st) : Prop := (forall i, In i s.1 -> In i s'.1) /\ frame G s.2 s'.2.
Lemma sframe_refl G s : sframe G s s. Proof. split; [done|apply frame_refl]. Qed.
Lemma sframe_trans G a b c : sframe G a b -> sframe G b c -> sframe G a c.
Proof. intros [O1 F1] [O2 F2]. split; [auto|by eapply frame_trans]. Qed.
Lemma sframe_mono G G' a b : (forall i, In i G -> In i G') -> sframe G a b -> sframe G' a b.
Proof. intros H [O F]. split; [done|by eapply frame_mono]. Qed.
Lemma at_frame G s s' h P : ~ In h G -> sframe G s s' -> at_ s h P -> at_ s' h P.
Proof. intros Hn [O [L F]] [Hi (e & He & HP)]. split; [by apply O|]. exists e. split; [|done]. rewrite F //. by apply lookup_lt_Some in He. Qed.
(** A computation succeeds exactly with the value that [R] describes. *)
Definition outc {X} (G : list nat) (m : M X) (R : X -> Prop) (Post : X -> st -> Prop) (s : st) : Prop :=
  (exists x s', (forall y, R y <-> y = x) /\ Post x s' /\ sframe G s s' /\ forall k, ev s (m k) = ev s' (k x))
  \/ ((forall y, ~ R y) /\ forall k, ev s (m k) = None).
Definition does {X} (G : list nat) (Pre : st -> Prop) (m : M X) (R : X -> Prop) (Post : X -> st -> Prop) : Prop := forall s, Pre s -> outc G m R Post s.
Lemma does_ret {X} G Pre (x : X) : does G Pre (ret x) (fun y => y = x) (fun _ => Pre).
Proof. intros s Hs. left. exists x, s. split; [done|]. split; [done|]. split; [apply sframe_refl|done]. Qed.
Lemma does_bind {X Y} G Pre (m : M X) (g : X -> M Y) R R2 Post Post2 :
  does G Pre m R Post -> (forall x, does G (Post x) (g x) (R2 x) Post2) -> does G Pre (bind m g) (fun y => exists x, R x /\ R2 x y) Post2.
Proof.
  intros Hm Hg s Hs. destruct (Hm s Hs) as [(x & s1 & HR & HP & HF & HE)|[HR HE]].
  - destruct (Hg x s1 HP) as [(y & s2 & HR2 & HP2 & HF2 & HE2)|[HR2 HE2]].
    + left. exists y, s2. split; [|split; [done|split; [by eapply sframe_trans|]]].
      * intros z. rewrite -HR2. split; [intros (x' & ->%HR & H); done|]. intros H. exists x. split; [by apply HR|done].
      * intros k. rewrite /bind HE. apply HE2.
    + right. split; [intros z (x' & ->%HR & H); by apply (HR2 z)|]. intros k. rewrite /bind HE. apply HE2.
  - right. split; [intros z (x' & H & _); by apply (HR x')|]. intros k. rewrite /bind. apply HE.
Qed.
Lemma does_lift {X} G Pre (r : res X) : does G Pre (lift r) (fun y => r = Ok y) (fun _ => Pre).
Proof.
  intros s Hs. destruct r as [x|e|].
  - left. exists x, s. split; [intros y; split; [by intros [= ->]|by intros ->]|]. split; [done|]. split; [apply sframe_refl|done].
  - right. done.
  - right. done.
Qed.
Lemma does_raise {X} G Pre e (R : X -> Prop) Post : (forall y, ~ R y) -> does G Pre (raise e) R Post.
Proof. intros H s _. right. done. Qed.
Lemma does_R {X} G Pre (m : M X) (R R' : X -> Prop) Post : (forall x, R x <-> R' x) -> does G Pre m R Post -> does G Pre m R' Post.
Proof.
  intros H Hm s Hs. destruct (Hm s Hs) as [(x & s' & HR & Hrest)|[HR HE]]; [left|right].
  - exists x, s'. split; [|done]. intros y. by rewrite -H.
  - split; [|done]. intros y Hy. apply (HR y). by apply H.
Qed.
Lemma does_seq {X Y} (R2 : X -> Y -> Prop) G Pre (m : M X) (g : X -> M Y) R (R' : Y -> Prop) Post Post2 :
  does G Pre m R Post -> (forall x, does G (Post x) (g x) (R2 x) Post2) -> (forall y, (exists x, R x /\ R2 x y) <-> R' y) -> does G Pre (bind m g) R' Post2.
Proof. intros Hm Hg HR. eapply does_R; [exact HR|]. by eapply does_bind. Qed.
Lemma does_post {X} G Pre (m : M X) (R : X -> Prop) (Post Post' : X -> st -> Prop) : (forall x s, Post x s -> Post' x s) -> does G Pre m R Post -> does G Pre m R Post'.
Proof. intros H Hm s Hs. destruct (Hm s Hs) as [(x & s' & HR & HP & Hrest)|HE]; [left|by right]. exists x, s'. split; [done|]. split; [by apply H|done]. Qed.

(** ** What has been read *)
(** Attributes, nested elements, children. *)
Definition tracks (el : elem) (A N : list string) (C : bool) (e : ent) : Prop :=
  el_of e = el /\
  match e with
  | EX x => (forall a, In a (map fst (x_attrs (xs_el x))) -> (In a (xs_attrs x) <-> In a A))
            /\ (forall k, In k (x_kids (xs_el x)) -> (In (x_tag k) (xs_kids x) <-> C = true \/ In (x_tag k) N))
  | EY y => ys_called y = C /\ match ys_el y with
                              | YDict d => forall a, In a (map fst d) -> (In a (ys_keys y) <-> In a (A ++ N) \/ C = true /\ a = "children"%string)
                              | _ => True end
  end.
Lemma tracks_new el : tracks el [] [] false (new_ent el).
Proof.
  destruct el as [x|t v]; split; try done; simpl.
  - split; [done|]. intros k Hk. split; [done|by intros [|]].
  - split; [done|]. destruct v; try done. intros a Ha. split; [done|by intros [|[]]].
Qed.
Lemma tracks_done el A N C e : tracks el A N C e -> (e_assert e = Ok tt <-> nothing_else el A N C).
Proof.
  intros [<- H]. destruct e as [x|y]; simpl in *.
  - destruct H as [HA HK]. rewrite /x_assert. destruct (existsb _ (x_kids (xs_el x))) eqn:Ek.
    { split; [done|]. intros [_ H]. apply existsb_exists in Ek as (k & Hk & Hn). exfalso. apply negb_true_iff in Hn. apply not_true_iff_false in Hn. apply Hn. apply mem_in. apply HK; [done|]. by apply H. }
    destruct (existsb _ (x_attrs (xs_el x))) eqn:Ea.
    { split; [done|]. intros [H _]. apply existsb_exists in Ea as ([a v] & Ha & Hn). exfalso. apply negb_true_iff in Hn. apply not_true_iff_false in Hn. apply Hn. apply mem_in. simpl.
      assert (In a (map fst (x_attrs (xs_el x)))) as Hin by (apply in_map_iff; by exists (a, v)). apply HA; [done|]. by apply H. }
    split; [|done]. intros _. split.
    + intros a Ha. apply HA; [done|]. apply in_map_iff in Ha as ([a' v] & <- & Hin). apply mem_in. destruct (mem a' (xs_attrs x)) eqn:E; [done|].
      exfalso. assert (existsb (fun b => negb (mem b.1 (xs_attrs x))) (x_attrs (xs_el x)) = true) as Hx; [|congruence]. apply existsb_exists. exists (a', v). by rewrite /= E.
    + intros k Hk. apply HK; [done|]. apply mem_in. destruct (mem (x_tag k) (xs_kids x)) eqn:E; [done|].
      exfalso. assert (existsb (fun k => negb (mem (x_tag k) (xs_kids x))) (x_kids (xs_el x)) = true) as Hx; [|congruence]. apply existsb_exists. exists k. by rewrite E.
  - destruct H as [HC HA]. rewrite /y_assert. destruct (ys_el y) as [| | | | |l|d]; try by split.
    + rewrite HC. by destruct C.
    + destruct (existsb _ d) eqn:Ea.
      * split; [done|]. intros H. apply existsb_exists in Ea as ([a v] & Ha & Hn). exfalso. apply negb_true_iff in Hn. apply not_true_iff_false in Hn. apply Hn. apply mem_in. simpl.
        assert (In a (map fst d)) as Hin by (apply in_map_iff; by exists (a, v)). apply HA; [done|]. by apply H.
      * split; [|done]. intros _ a Ha. apply HA; [done|]. apply in_map_iff in Ha as ([a' v] & <- & Hin). apply mem_in. destruct (mem a' (ys_keys y)) eqn:E; [done|].
        exfalso. assert (existsb (fun b => negb (mem b.1 (ys_keys y))) d = true) as Hx; [|congruence]. apply existsb_exists. exists (a', v). by rewrite /= E.
Qed.
Definition holds (h : nat) (el : elem) (A N : list string) (C : bool) (s : st) : Prop := at_ s h (tracks el A N C).

(** ** Attributes *)
(** Not found, and looking for it does not raise. *)
Definition absent (el : elem) (n : string) : Prop :=
  match el with
  | ElX e => ~ In n (map fst (x_attrs e))
  | ElY _ v => y_in n v = Ok false
  end.
Lemma ev_attr s h name t o c k : ev s (attr h name t o c k) =
  if usable s.1 s.2 h then match h_get yaml s.2 h name t o c with (hp', Ok r) => ev (s.1 ++ handles_of (Ok r), hp') (k r) | _ => None end else None.
Proof.
  destruct s as [own hp]. rewrite /attr /ev. cbn [run_with fst snd]. destruct (usable own hp h); [|done]. simpl.
  destruct (h_get yaml hp h name t o c) as [hp' r]. destruct r as [r|e|]; simpl.
  - by destruct (run_with yaml act _ hp' (k r)) as [[? ?] ?].
  - done.
  - done.
Qed.
Lemma at_usable s h P : at_ s h P -> usable s.1 s.2 h = true.
Proof.
  intros [Hi (e & He & _)]. rewrite /usable. apply andb_true_iff. split; [apply existsb_exists; exists h; split; [done|apply Nat.eqb_refl]|].
  apply Nat.ltb_lt. by apply lookup_lt_Some in He.
Qed.
Lemma at_insert own own' (hp : heap) h (P : ent -> Prop) e' : In h own -> (h < length hp)%nat -> (forall i, In i own -> In i own') -> P e' -> at_ (own', <[h:=e']> hp) h P.
Proof. intros Hi Hl Ho HP. split; [by apply Ho|]. exists e'. split; [by apply list_lookup_insert|done]. Qed.
Lemma sframe_insert own own' (hp : heap) h e' : (forall i, In i own -> In i own') -> sframe [h] (own, hp) (own', <[h:=e']> hp).
Proof.
  intros Ho. split; [done|]. split; [by rewrite insert_length|]. intros i _ Hi. simpl. rewrite list_lookup_insert_ne //. intros ->. apply Hi. by left.
Qed.
Lemma isinst_iff (v : pv subst) t : isinstance_or_str true t v = true <-> has_scalar_or_str true v t.
Proof. apply isinstance_or_str_iff. Qed.
Lemma attr_val_fun el n t v w : attr_val yaml el n t v -> attr_val yaml el n t w -> v = w.
Proof.
  intros H1 H2. inversion H1 as [e1 n1 t1 s1 v1 A1 B1 C1|]; subst; inversion H2 as [e2 n2 t2 s2 v2 A2 B2 C2|]; subst; [|congruence].
  assert (s2 = s1) as -> by congruence. by eapply text_as_fun.
Qed.
Definition got_val (el : elem) (n : string) (t : sty) (o : bool) (r : option hgot) : Prop :=
  match r with
  | None => o = true /\ absent el n
  | Some (HVal v) => attr_val yaml el n t v
  | Some (HEnts _) => False
  end.
Lemma tracks_x_add x n A N C : tracks (ElX (xs_el x)) A N C (EX x) -> tracks (ElX (xs_el x)) (n :: A) N C (EX (Xst (xs_el x) (n :: xs_attrs x) (xs_kids x))).
Proof. intros [_ [HA HK]]. split; [done|]. simpl. split; [|done]. intros a Ha. by rewrite HA. Qed.
Lemma absent_scalar el n t v : absent el n -> ~ attr_val yaml el n t v.
Proof.
  intros Ha H. inversion H as [e n' t' s v' E1|tag d n' t' w E1]; subst; simpl in Ha.
  - apply Ha. by eapply assoc_in.
  - by rewrite E1 in Ha.
Qed.
Lemma does_attr h el A N C n t o : does [h] (holds h el A N C) (attr h n (RVal (Some (DScalar t))) o true) (got_val el n t o) (fun _ => holds h el (n :: A) N C).
Proof.
  intros s Hs. pose proof (at_usable _ _ _ Hs) as Hu. destruct Hs as [Hi (e & He & Ht)]. pose proof (proj1 Ht) as Hel.
  assert (forall e' r (x : option hgot), e_get yaml e n (RVal (Some (DScalar t))) o true = (e', Ok r) ->
    match r with Some (GVal v) => x = Some (HVal v) | Some (GEnts _) => False | None => x = None end ->
    tracks el (n :: A) N C e' -> got_val el n t o x -> (forall y, got_val el n t o y -> y = x) ->
    outc [h] (attr h n (RVal (Some (DScalar t))) o true) (got_val el n t o) (fun _ => holds h el (n :: A) N C) s) as Hgood.
  { intros e' r x Eg Hr Ht' Hx Hy. left. exists x, (s.1 ++ [], <[h:=e']> s.2). split; [intros y; split; [apply Hy|by intros ->]|].
    assert (forall i, In i s.1 -> In i (s.1 ++ [])) as Ho by (intros i; by rewrite app_nil_r).
    split; [apply (at_insert s.1); [done|by apply lookup_lt_Some in He|done|done]|]. split; [destruct s; by apply sframe_insert|].
    intros k. rewrite ev_attr Hu /h_get He Eg. destruct r as [[v|l]|]; [|destruct Hr|]; subst x; done. }
  assert (forall e' z, e_get yaml e n (RVal (Some (DScalar t))) o true = (e', z) -> (forall r, z <> Ok r) -> (forall y, ~ got_val el n t o y) ->
    outc [h] (attr h n (RVal (Some (DScalar t))) o true) (got_val el n t o) (fun _ => holds h el (n :: A) N C) s) as Hbad.
  { intros e' z Eg Hz Hy. right. split; [done|]. intros k. rewrite ev_attr Hu /h_get He Eg. destruct z as [r| |]; [by destruct (Hz r)|done|done]. }
  assert (absent el n -> e_get yaml e n (RVal (Some (DScalar t))) o true = (e, if o then Ok None else Exn XAttr) -> tracks el (n :: A) N C e ->
    outc [h] (attr h n (RVal (Some (DScalar t))) o true) (got_val el n t o) (fun _ => holds h el (n :: A) N C) s) as Hnone.
  { intros Ha Eg Ht'. destruct o.
    - eapply Hgood; [exact Eg|reflexivity|done|done|]. intros [[v|l]|] Hy; [by destruct (absent_scalar _ _ _ _ Ha Hy)|destruct Hy|done].
    - eapply Hbad; [exact Eg|done|]. intros [[v|l]|] Hy; [by destruct (absent_scalar _ _ _ _ Ha Hy)|destruct Hy|by destruct Hy]. }
  destruct e as [x|y]; simpl in Hel; subst el; simpl in *.
  - destruct (assoc n (x_attrs (xs_el x))) as [v|] eqn:En.
    2:{ pose proof (proj1 (assoc_not_in _ _) En) as Hn. apply Hnone; [done|by destruct o|]. destruct Ht as [_ [HA HK]]. split; [done|]. simpl. split; [|done].
        intros a Ha. rewrite HA //. split; [by right|]. by intros [<-|]. }
    destruct (assoc (n ++ "-sep")%string (x_attrs (xs_el x))) as [sep|] eqn:Es.
    { assert (forall y, ~ got_val (ElX (xs_el x)) n t o y) as Hy.
      { intros [[w|l]|] Hy; [|destruct Hy|]; simpl in Hy.
        - inversion Hy as [e n' t' s' v' E1 E2|]; subst. apply E2. by eapply assoc_in.
        - destruct Hy as [_ Hy]. apply Hy. by eapply assoc_in. }
      destruct (py_split v sep) as [l|err|]; eapply Hbad; try exact Hy; try reflexivity; try done. }
    assert (~ In (n ++ "-sep")%string (map fst (x_attrs (xs_el x)))) as Hsep by by apply assoc_not_in.
    destruct (coerce_to_type yaml true v (Some (DScalar t))) as [w|err|] eqn:Ec.
    + pose proof (proj2 (text_as_iff _ _ _ _) Ec) as Ec'. eapply (Hgood _ (Some (GVal w)) (Some (HVal w))); [rewrite /value_to_type; reflexivity|done|by apply tracks_x_add|by econstructor|].
      intros [[w'|l]|] Hy; simpl in Hy; [|destruct Hy|]; [do 2 f_equal; eapply attr_val_fun; [exact Hy|by econstructor]|]. destruct Hy as [_ Hy]. destruct Hy. by eapply assoc_in.
    + eapply (Hbad _ (Exn (if bool_decide (err = XValue) then XType else err))); [rewrite /value_to_type; by destruct err|done|].
      intros [[w'|l]|] Hy; simpl in Hy; [|destruct Hy|]; [inversion Hy as [e0 n0 t0 s0 v0 F1 F2 F3|]; subst; apply text_as_iff in F3; congruence|]. destruct Hy as [_ Hy]. destruct Hy. by eapply assoc_in.
    + eapply (Hbad _ OutOfFuel); [rewrite /value_to_type; reflexivity|done|].
      intros [[w'|l]|] Hy; simpl in Hy; [|destruct Hy|]; [inversion Hy as [e0 n0 t0 s0 v0 F1 F2 F3|]; subst; apply text_as_iff in F3; congruence|]. destruct Hy as [_ Hy]. destruct Hy. by eapply assoc_in.
  - rewrite /y_get in Hgood Hbad Hnone. destruct (y_in n (ys_el y)) as [[]|err|] eqn:Ein.
    + destruct (ys_el y) as [| | | |sv|l|d] eqn:Ey; try by (simpl in Ein; discriminate Ein).
      * eapply Hbad; [reflexivity|done|]. intros [[w'|l']|] Hy; simpl in Hy; [inversion Hy|destruct Hy|]. destruct Hy as [_ Hy]. simpl in Ein. congruence.
      * eapply Hbad; [reflexivity|done|]. intros [[w'|l']|] Hy; simpl in Hy; [inversion Hy|destruct Hy|]. destruct Hy as [_ Hy]. simpl in Ein. congruence.
      * simpl in Ein. destruct (assoc n d) as [w|] eqn:En; [|done]. cbn [is_instance_of extract_type res_bind negb] in *.
        destruct (isinstance_or_str true t (to_pv w)) eqn:Eis.
        -- eapply (Hgood _ (Some (GVal (to_pv w))) (Some (HVal (to_pv w)))); [cbn [ys_el]; rewrite En Eis; reflexivity|done| |by constructor; [|by apply isinst_iff]|].
           { destruct Ht as [_ [HC HA]]. split; [done|]. rewrite Ey in HA. simpl. split; [done|]. intros a Ha. simpl. rewrite HA //. tauto. }
           intros [[w'|l']|] Hy; simpl in Hy; [|destruct Hy|]; [do 2 f_equal; inversion Hy; congruence|]. destruct Hy as [_ Hy]. by rewrite En in Hy.
        -- eapply Hbad; [cbn [ys_el]; rewrite En Eis; reflexivity|done|]. intros [[w'|l']|] Hy; simpl in Hy; [|destruct Hy|].
           ++ inversion Hy as [|tag d' n' t' w2 E1 E2]; subst. assert (w2 = w) as -> by congruence. apply isinst_iff in E2. congruence.
           ++ destruct Hy as [_ Hy]. by rewrite En in Hy.
    + apply Hnone; [done|by destruct o|]. destruct Ht as [_ [HC HA]]. split; [done|]. simpl. split; [done|]. destruct (ys_el y) as [| | | | | |d]; try done.
      intros a Ha. rewrite HA //. simpl. split; [tauto|]. intros [[<-|]|]; [|tauto|tauto]. simpl in Ein. destruct (assoc n d) eqn:En; [done|]. apply assoc_not_in in En. done.
    + eapply Hbad; [reflexivity|done|]. intros [[w'|l']|] Hy; simpl in Hy; [|destruct Hy|].
      * destruct (ys_el y); by inversion Hy.
      * destruct Hy as [_ Hy]. congruence.
    + eapply Hbad; [reflexivity|done|]. intros [[w'|l']|] Hy; simpl in Hy; [|destruct Hy|].
      * destruct (ys_el y); by inversion Hy.
      * destruct Hy as [_ Hy]. congruence.
Qed.

(** *** The ways to read one *)
Lemma attr_val_text el n v : attr_val yaml el n TStr v -> exists s, v = PStr s.
Proof.
  inversion 1 as [e n' t s v' E1 E2 E3|tag d n' t w E1 E2]; subst.
  - inversion E3; subst. by eexists.
  - destruct E2 as [E2|[_ E2]]; inversion E2; by eexists.
Qed.
Lemma text_fun el n s s' : attr_text yaml el n s -> attr_text yaml el n s' -> s = s'.
Proof. intros H1 H2. pose proof (attr_val_fun _ _ _ _ _ H1 H2). congruence. Qed.
Lemma does_text h el A N C n : does [h] (holds h el A N C) (text h n) (attr_text yaml el n) (fun _ => holds h el (n :: A) N C).
Proof.
  rewrite /text /tstr. eapply (does_seq (fun x s => x = Some (HVal (PStr s)))); [apply does_attr| |].
  - intros x. destruct x as [[v|l]|]; try (apply does_raise; by intros).
    destruct v; try (apply does_raise; by intros). eapply does_R; [|apply does_ret]. intros y. split; [by intros ->|by intros [= ->]].
  - intros s. split; [intros (x & Hx & ->); done|]. intros H. by exists (Some (HVal (PStr s))).
Qed.
Definition opt_got {X} (el : elem) (n : string) (R : X -> Prop) (r : option X) : Prop := match r with None => absent el n | Some x => R x end.
Lemma does_opt_text h el A N C n : does [h] (holds h el A N C) (opt_text h n) (opt_got el n (attr_text yaml el n)) (fun _ => holds h el (n :: A) N C).
Proof.
  rewrite /opt_text /tstr. eapply (does_seq (fun x r => x = match r with Some s => Some (HVal (PStr s)) | None => None end)); [apply does_attr| |].
  - intros x. destruct x as [[v|l]|].
    + destruct v; try (apply does_raise; by intros [|]). eapply does_R; [|apply does_ret]. intros y. split; [by intros ->|]. destruct y; [by intros [= ->]|done].
    + apply does_raise. by intros [|].
    + eapply does_R; [|apply does_ret]. intros y. split; [by intros ->|]. by destruct y.
  - intros [s|]; simpl; (split; [intros (x & Hx & ->)|intros H]); simpl in *; [done|by exists (Some (HVal (PStr s)))|by destruct Hx|by exists None].
Qed.
Lemma does_opt_val h el A N C n t : does [h] (holds h el A N C) (opt_val h n t) (opt_got el n (attr_val yaml el n t)) (fun _ => holds h el (n :: A) N C).
Proof.
  rewrite /opt_val. eapply (does_seq (fun x r => x = match r with Some s => Some (HVal s) | None => None end)); [apply does_attr| |].
  - intros x. destruct x as [[v|l]|].
    + eapply does_R; [|apply does_ret]. intros y. split; [by intros ->|]. destruct y; [by intros [= ->]|done].
    + apply does_raise. by intros [|].
    + eapply does_R; [|apply does_ret]. intros y. split; [by intros ->|]. by destruct y.
  - intros [s|]; simpl; (split; [intros (x & Hx & ->)|intros H]); simpl in *; [done|by exists (Some (HVal s))|by destruct Hx|by exists None].
Qed.
(** A column, with [absent] for attributes that are not there. *)
Inductive gives' (el : elem) : column -> list (string * kval) -> Prop :=
| ga_attr n key r h kw : filled yaml parse_sub el n key h kw -> gives' el (Attr n key r h) kw
| ga_no_attr n key h : absent el n -> gives' el (Attr n key false h) [].
Lemma does_opt_subs h el A N C n key : does [h] (holds h el A N C) (opt_subs parse_sub h n key) (gives' el (opt n key)) (fun _ => holds h el (n :: A) N C).
Proof.
  rewrite /opt_subs. eapply (does_seq (fun x kw => match x with None => kw = [] | Some s => exists l, parse_sub s = Ok l /\ kw = [(key, KSubs l)] end)); [apply does_opt_text| |].
  - intros [s|]; [|apply does_ret]. eapply does_bind; [apply does_lift|]. intros l. apply does_ret.
  - intros kw. split.
    + intros ([s|] & Hx & Hk); simpl in *; [destruct Hk as (l & Hl & ->); constructor; by econstructor|]. subst. by constructor.
    + inversion 1 as [n' k' r' h' kw' Hf|]; subst; [inversion Hf; subst; exists (Some s); split; [done|by eexists]|]. by exists None.
Qed.
Definition subs_of (el : elem) (n : string) (l : list subst) : Prop := exists s, attr_text yaml el n s /\ parse_sub s = Ok l.
Lemma does_subs h el A N C n : does [h] (holds h el A N C) (subs parse_sub h n) (subs_of el n) (fun _ => holds h el (n :: A) N C).
Proof. rewrite /subs. eapply does_bind; [apply does_text|]. intros s. apply does_lift. Qed.
Lemma subs_gives el n key kw : gives' el (req n key) kw <-> exists l, subs_of el n l /\ kw = [(key, KSubs l)].
Proof.
  split.
  - inversion 1 as [n' k' r' h' kw' Hf|]; subst. inversion Hf; subst. exists l. split; [by exists s|done].
  - intros (l & (s & Hs & Hl) & ->). constructor. by econstructor.
Qed.
Lemma does_opt_kval h el A N C n key t : does [h] (holds h el A N C) (opt_kval h n key t) (gives' el (Attr n key false (AsVal t))) (fun _ => holds h el (n :: A) N C).
Proof.
  rewrite /opt_kval. eapply does_seq; [apply does_opt_val|intros x; apply does_ret|].
  intros kw. split.
  - intros ([v|] & Hx & ->); simpl in *; [constructor; by constructor|by constructor].
  - inversion 1 as [n' k' r' h' kw' Hf|]; subst; [inversion Hf; subst; by exists (Some v)|by exists None].
Qed.
Lemma negative_iff f : negative (PFloat f) = Ok false <-> not_negative f.
Proof.
  destruct f as [|neg|q]; simpl; [done|by destruct neg|]. split.
  - intros [= H]. apply negb_false_iff in H. by apply Qle_bool_iff.
  - intros H. apply Qle_bool_iff in H. by rewrite H.
Qed.
Lemma does_opt_seconds h el A N C n b : does [h] (holds h el A N C) (opt_seconds h n b) (gives' el (Attr n n false (AsSeconds b))) (fun _ => holds h el (n :: A) N C).
Proof.
  rewrite /opt_seconds.
  eapply (does_seq (fun x kw => match x with None => kw = [] | Some v => negative v = Ok false /\ kw = [(n, if b then KStrVal v else KVal v)] end)); [apply does_opt_val| |].
  - intros [v|]; [|apply does_ret]. eapply (does_seq (fun z kw => z = false /\ kw = [(n, if b then KStrVal v else KVal v)])); [apply does_lift| |].
    + intros z. destruct z; [apply does_raise; by intros y []|]. eapply does_R; [|apply does_ret]. intros y. simpl. tauto.
    + intros kw. split; [intros (z & Hz & -> & ->); done|]. intros [Hz ->]. by exists false.
  - intros kw. split.
    + intros ([v|] & Hx & Hk); simpl in *; [|subst; by constructor]. destruct Hk as [Hn ->]. constructor.
      assert (exists f, v = PFloat f) as [f ->]; [|constructor; [done|by apply negative_iff]].
      inversion Hx as [e n' t s v' E1 E2 E3|tag d n' t w E1 E2]; subst.
      * apply text_as_iff, coerce_sound in E3. inversion E3 as [v'' t' Ht Ev Et| | |]; subst. destruct Ht as [Ht|[_ Ht]]; inversion Ht as [| |f Ef| |s' Es]; subst; [by eexists|done].
      * destruct E2 as [E2|[_ E2]]; inversion E2 as [| |f Ef| |s Es]; subst; [by eexists|]. rewrite -Es in Hn. done.
    + inversion 1 as [n' k' r' h' kw' Hf|]; subst; [inversion Hf; subst|by exists None]. exists (Some (PFloat f)). split; [done|]. split; [by apply negative_iff|done].
Qed.
Lemma does_parse_if1 G Pre v : does G Pre (parse_if1 parse_sub v)
  (fun x => (exists s l, v = PStr s /\ parse_sub s = Ok l /\ normal l x) \/ ((forall s, v <> PStr s) /\ x = inl v)) (fun _ => Pre).
Proof.
  destruct v; simpl; try (eapply does_R; [|apply does_ret]; intros y; split; [intros ->; right; by split|intros [(s' & l' & [=] & _)|[_ ->]]; done]).
  eapply does_seq; [apply does_lift|intros l; apply does_ret|].
  intros y. split.
  - intros (l & Hl & ->). left. exists s, l. split; [done|]. split; [done|]. destruct l as [|[] [|]]; try (right; split; [by intros ? [=]|done]). left. by eexists.
  - intros [(s' & l & [= <-] & Hl & Hn)|[H _]]; [|by destruct (H s)]. exists l. split; [done|]. destruct Hn as [(t & -> & ->)|[Hn ->]]; [done|].
    destruct l as [|[] [|]]; try done. exfalso. by eapply Hn.
Qed.
Lemma does_parse_if G Pre n el t key v : attr_val yaml el n t v -> does G Pre (parse_if parse_sub v) (fun y => filled yaml parse_sub el n key (AsNorm t) [(key, y)]) (fun _ => Pre).
Proof.
  intros Hv. assert (does G Pre (bind (parse_if1 parse_sub v) (fun y => ret (KNorm [y] false))) (fun y => filled yaml parse_sub el n key (AsNorm t) [(key, y)]) (fun _ => Pre)) as H.
  { eapply does_seq; [apply does_parse_if1|intros y; apply does_ret|]. intros y. split.
    - intros (x & [(s & l & -> & Hl & Hn)|[Hn ->]] & ->); [by econstructor|by constructor].
    - inversion 1 as [| | | | | | | |t' s l x Hv' Hl Hn|t' v' Hv' Hn]; subst; pose proof (attr_val_fun _ _ _ _ _ Hv Hv') as ->.
      + exists x. split; [|done]. left. by exists s, l.
      + exists (inl v'). split; [|done]. by right. }
  destruct v; try exact H. exfalso. inversion Hv as [e n' t' s v' E1 E2 E3|tag d n' t' w E1 E2]; subst.
  - apply text_as_iff, coerce_sound in E3. inversion E3 as [v'' t'' Ht Ev Et| | |]; subst. destruct Ht as [Ht|[_ Ht]]; inversion Ht.
  - destruct E2 as [E2|[_ E2]]; inversion E2; congruence.
Qed.
Lemma does_opt_norm h el A N C n t : does [h] (holds h el A N C)
  (bind (opt_val h n t) (fun p => match p with None => ret [] | Some x => bind (parse_if parse_sub x) (fun y => ret [(n, y)]) end))
  (gives' el (Attr n n false (AsNorm t))) (fun _ => holds h el (n :: A) N C).
Proof.
  intros s Hs. destruct (does_opt_val h el A N C n t s Hs) as [(x & s1 & HR & HP & HF & HE)|[HR HE]].
  2:{ right. split; [|intros k; rewrite /bind; apply HE]. intros kw Hk. inversion Hk as [n' k' r' h' kw' Hf|]; subst; [|by apply (HR None)].
      inversion Hf as [| | | | | | | |t' s' l y Hv'|t' v' Hv']; subst; by apply (HR (Some _) Hv'). }
  destruct x as [v|].
  - assert (attr_val yaml el n t v) as Hv by by apply (HR (Some v)).
    destruct (does_parse_if [h] (holds h el (n :: A) N C) n el t n v Hv s1 HP) as [(y & s2 & HR2 & HP2 & HF2 & HE2)|[HR2 HE2]].
    + left. exists [(n, y)], s2. split; [|split; [done|split; [by eapply sframe_trans|]]].
      * intros kw. split; [|intros ->; constructor; by apply HR2]. inversion 1 as [n' k' r' h' kw' Hf|]; subst; [|exfalso; by eapply absent_scalar].
        inversion Hf as [| | | | | | | |t' s' l z Hv'|t' v' Hv']; subst; (do 2 f_equal; apply HR2; exact Hf).
      * intros k. rewrite /bind HE. apply HE2.
    + right. split; [|intros k; rewrite /bind HE; apply HE2]. intros kw. inversion 1 as [n' k' r' h' kw' Hf|]; subst; [|by eapply absent_scalar].
      inversion Hf as [| | | | | | | |t' s' l z Hv'|t' v' Hv']; subst; (eapply HR2; exact Hf).
  - assert (absent el n) as Ha by by apply (HR None).
    left. exists [], s1. split; [|split; [done|split; [done|]]].
    + intros kw. split; [|intros ->; by constructor]. inversion 1 as [n' k' r' h' kw' Hf|]; subst; [|done].
      inversion Hf as [| | | | | | | |t' s' l z Hv'|t' v' Hv']; subst; exfalso; by eapply absent_scalar.
    + intros k. rewrite /bind HE. done.
Qed.
Lemma does_norm h el A N C n t : does [h] (holds h el A N C)
  (bind (attr h n (RVal (Some (DScalar t))) false true) (fun p => match p with Some (HVal x) => parse_if parse_sub x | _ => raise XType end))
  (fun y => filled yaml parse_sub el n n (AsNorm t) [(n, y)]) (fun _ => holds h el (n :: A) N C).
Proof.
  intros s Hs. destruct (does_attr h el A N C n t false s Hs) as [(x & s1 & HR & HP & HF & HE)|[HR HE]].
  2:{ right. split; [|intros k; rewrite /bind; apply HE]. intros kw Hf.
      inversion Hf as [| | | | | | | |t' s' l y Hv'|t' v' Hv']; subst; by apply (HR (Some (HVal _)) Hv'). }
  destruct x as [[v|l]|]; [|by destruct (proj2 (HR _) eq_refl)|by destruct (proj2 (HR None) eq_refl)].
  assert (attr_val yaml el n t v) as Hv by by apply (HR (Some (HVal v))).
  destruct (does_parse_if [h] (holds h el (n :: A) N C) n el t n v Hv s1 HP) as [(y & s2 & HR2 & HP2 & HF2 & HE2)|[HR2 HE2]].
  - left. exists y, s2. split; [done|split; [done|split; [by eapply sframe_trans|]]]. intros k. rewrite /bind HE. apply HE2.
  - right. split; [done|]. intros k. rewrite /bind HE. apply HE2.
Qed.
(** The condition, with [absent]. *)
Inductive condition' (el : elem) : list (string * kval) -> Prop :=
| c'_none : absent el "if" -> absent el "unless" -> condition' el []
| c'_if s l : attr_text yaml el "if" s -> absent el "unless" -> parse_sub s = Ok l -> condition' el [("condition"%string, KIf l)]
| c'_unless s l : attr_text yaml el "unless" s -> absent el "if" -> parse_sub s = Ok l -> condition' el [("condition"%string, KUnless l)].
Lemma does_base h el A N C : does [h] (holds h el A N C) (parse_base parse_sub h) (condition' el) (fun _ => holds h el ("unless" :: "if" :: A)%string N C).
Proof.
  rewrite /parse_base.
  eapply (does_seq (fun i kw => exists u, opt_got el "unless" (attr_text yaml el "unless") u /\ match i, u with
    | Some _, Some _ => False
    | Some s, None => exists l, parse_sub s = Ok l /\ kw = [("condition"%string, KIf l)]
    | None, Some s => exists l, parse_sub s = Ok l /\ kw = [("condition"%string, KUnless l)]
    | None, None => kw = [] end)); [apply does_opt_text| |].
  - intros i. eapply does_bind; [apply does_opt_text|]. intros u.
    destruct i as [s|], u as [s'|]; [apply does_raise; by intros ? []| | |apply does_ret]; (eapply does_bind; [apply does_lift|]; intros l; apply does_ret).
  - intros kw. split.
    + intros ([s|] & Hi & [s'|] & Hu & Hk); simpl in *; [done| | |].
      * destruct Hk as (l & Hl & ->). by eapply c'_if.
      * destruct Hk as (l & Hl & ->). by eapply c'_unless.
      * subst. by apply c'_none.
    + inversion 1; subst; [exists None; split; [done|]; by exists None|exists (Some s); split; [done|]; exists None; split; [done|]; by eexists|exists None; split; [done|]; exists (Some s); split; [done|]; by eexists].
Qed.

(** ** Several entities *)
Lemma does_mono {X} G G' Pre (m : M X) R Post : (forall i, In i G -> In i G') -> does G Pre m R Post -> does G' Pre m R Post.
Proof.
  intros H Hm s Hs. destruct (Hm s Hs) as [(x & s' & HR & HP & HF & HE)|HE]; [left|by right]. exists x, s'. split; [done|]. split; [done|]. split; [by eapply sframe_mono|done].
Qed.
Lemma does_frame {X} (F : st -> Prop) G Pre (m : M X) R (Post : X -> st -> Prop) : (forall s s', sframe G s s' -> F s -> F s') ->
  does G Pre m R Post -> does G (fun s => Pre s /\ F s) m R (fun x s => Post x s /\ F s).
Proof.
  intros H Hm s [Hs HFs]. destruct (Hm s Hs) as [(x & s' & HR & HP & HF & HE)|HE]; [left|by right]. exists x, s'. split; [done|]. split; [split; [done|by eapply H]|done].
Qed.
Lemma does_pre {X} G (Pre Pre' : st -> Prop) (m : M X) R Post : (forall s, Pre' s -> Pre s) -> does G Pre m R Post -> does G Pre' m R Post.
Proof. intros H Hm s Hs. by apply Hm, H. Qed.
Definition each (P : elem -> ent -> Prop) (hs : list nat) (ks : list elem) (s : st) : Prop := Forall2 (fun g k => at_ s g (P k)) hs ks.
Lemma each_frame P hs ks G s s' : (forall i, In i hs -> ~ In i G) -> sframe G s s' -> each P hs ks s -> each P hs ks s'.
Proof.
  intros Hn HF H. induction H as [|g k hs ks Hg H IH]; [constructor|]. constructor; [eapply at_frame; [apply Hn; by left|exact HF|done]|].
  apply IH. intros i Hi. apply Hn. by right.
Qed.
Lemma mapM_does {Y} (f : nat -> M Y) (P Q : elem -> ent -> Prop) (B : elem -> Y -> Prop) hs ks : List.NoDup hs ->
  (forall g k, does [g] (fun s => at_ s g (P k)) (f g) (B k) (fun _ s => at_ s g (Q k))) ->
  does hs (each P hs ks) (mapM f hs) (fun l => Forall2 B ks l) (fun _ => each Q hs ks).
Proof.
  intros Hnd Hf. revert ks. induction Hnd as [|g hs Hg Hnd IH]; intros ks.
  - destruct ks as [|k ks]; [|intros s Hs; inversion Hs]. simpl. eapply does_post; [|eapply does_R; [|apply (does_ret [] (each P [] []))]]; [constructor|].
    intros x. split; [intros ->; constructor|]. by inversion 1.
  - destruct ks as [|k ks]; [intros s Hs; inversion Hs|]. cbn [mapM].
    assert (forall i, In i hs -> ~ In i [g]) as Hdis by (intros i Hi [<-|[]]; done).
    eapply (does_seq (fun y l => exists ys, Forall2 B ks ys /\ l = y :: ys)).
    + eapply (does_pre _ (fun s => at_ s g (P k) /\ each P hs ks s)); [intros s Hs; by inversion Hs|].
      eapply (does_mono [g]); [intros i [->|[]]; by left|]. eapply (does_frame (each P hs ks)); [|apply Hf].
      intros s s' HF. by eapply each_frame.
    + intros y. eapply (does_bind _ _ _ _ _ _ _ _ (does_pre _ _ _ _ _ _ _ (does_mono hs (g :: hs) _ _ _ _ _ (does_frame (fun s => at_ s g (Q k)) hs _ _ _ _ _ (IH ks))))).
      intros ys. eapply does_post; [|apply does_ret]. intros x s [H1 H2]. by constructor.
      Unshelve. * intros s [H1 H2]. by split. * intros i Hi. by right. * intros s s' HF. by eapply at_frame.
    + intros l. split.
      * intros (y & Hy & ys & Hys & ->). by constructor.
      * inversion 1 as [|? y ? ys]; subst. exists y. split; [done|]. by exists ys.
Qed.

(** ** Nested entities *)
Definition is_new (k : elem) (e : ent) : Prop := e = new_ent k.
Definition no_nested' (el : elem) (n : string) : Prop :=
  match el with ElX e => forall k, In k (x_kids e) -> x_tag k <> n | ElY _ _ => absent el n end.
(** Entities are found; only the first is known to be a mapping. *)
Inductive nested' : elem -> string -> list elem -> Prop :=
| ne'_xml e n k ks : map ElX (List.filter (fun k => String.eqb (x_tag k) n) (x_kids e)) = k :: ks -> nested' (ElX e) n (k :: ks)
| ne'_yaml tag d n d' l : assoc n d = Some (YList (YDict d' :: l)) -> nested' (ElY tag (YDict d)) n (map (ElY n) (YDict d' :: l)).
Definition mapping (k : elem) : Prop := match k with ElX _ => True | ElY _ (YDict _) => True | _ => False end.
Lemma nested_iff el n ks : Forall mapping ks -> (nested' el n ks <-> nested el n ks).
Proof.
  intros Hm. split.
  - inversion 1; subst; [by constructor|]. econstructor; [done|]. rewrite List.Forall_forall. intros v Hv. rewrite List.Forall_forall in Hm.
    specialize (Hm (ElY n v) (in_map (ElY n) (YDict d' :: l) v Hv)). simpl in Hm. destruct v; try done. by eexists.
  - inversion 1 as [|tag d n' w l E1 E2]; subst; [by constructor|]. inversion E2 as [|? ? [d' ->]]; subst. by constructor.
Qed.
Lemma nested_fun el n ks ks' : nested' el n ks -> nested' el n ks' -> ks = ks'.
Proof. intros H1 H2. inversion H1; subst; inversion H2; subst; congruence. Qed.
Lemma nested_absent el n ks : nested' el n ks -> no_nested' el n -> False.
Proof.
  inversion 1 as [e n' k ks' E|tag d n' d' l E]; subst; simpl.
  - intros Hn. assert (In k (map ElX (List.filter (fun k => String.eqb (x_tag k) n) (x_kids e)))) as Hin by (rewrite E; by left).
    apply in_map_iff in Hin as (x & <- & Hx). apply filter_In in Hx as [Hx Ht]. apply String.eqb_eq in Ht. by apply (Hn x).
  - by rewrite E.
Qed.
Lemma nested_in t v n ks : nested' (ElY t v) n ks -> y_in n v = Ok true.
Proof. inversion 1 as [|tag d n' d' l E]; subst. by rewrite /= E. Qed.
Lemma seq_new (hp : heap) (es : list ent) own ks : es = map new_ent ks -> each is_new (seq (length hp) (length es)) ks (own ++ seq (length hp) (length es), hp ++ es).
Proof.
  intros ->. assert (forall pre own', (forall i, (length pre <= i)%nat -> (i < length pre + length (map new_ent ks))%nat -> In i own') ->
    each is_new (seq (length pre) (length (map new_ent ks))) ks (own', pre ++ map new_ent ks)) as H.
  { induction ks as [|k ks IH]; intros pre own' Ho; [constructor|]. cbn [map length seq]. constructor.
    - split; [apply Ho; simpl; lia|]. exists (new_ent k). split; [|done]. by rewrite /= list_lookup_middle.
    - specialize (IH (pre ++ [new_ent k]) own'). rewrite app_length Nat.add_1_r -app_assoc in IH. apply IH. intros i H1 H2. apply Ho; simpl in *; lia. }
  apply H. intros i H1 H2. apply in_or_app. right. apply in_seq. lia.
Qed.
(** What [opt_ents] does. *)
Lemma opt_ents_cases h el A N C n s : holds h el A N C s ->
  (no_nested' el n /\ (forall ks, ~ nested' el n ks) /\ exists s', holds h el A (n :: N) C s' /\ sframe [h] s s' /\ forall k, ev s (opt_ents h n k) = ev s' (k None))
  \/ (exists ks s' hs, nested' el n ks /\ holds h el A (n :: N) C s' /\ sframe [h] s s' /\ each is_new hs ks s' /\ List.NoDup hs /\ (forall i, In i hs -> (length s.2 <= i)%nat)
        /\ forall k, ev s (opt_ents h n k) = ev s' (k (Some hs)))
  \/ (~ no_nested' el n /\ (forall ks, ~ nested' el n ks) /\ forall k, ev s (opt_ents h n k) = None).
Proof.
  intros Hs. pose proof (at_usable _ _ _ Hs) as Hu. destruct Hs as [Hi (e & He & Ht)]. pose proof (proj1 Ht) as Hel. pose proof (lookup_lt_Some _ _ _ He) as Hl.
  assert (forall e', e_get yaml e n REnts true true = (e', Ok None) -> tracks el A (n :: N) C e' ->
     exists s', holds h el A (n :: N) C s' /\ sframe [h] s s' /\ forall k, ev s (opt_ents h n k) = ev s' (k None)) as Hnone.
  { intros e' Eg Ht'. exists (s.1 ++ [], <[h:=e']> s.2).
    assert (forall i, In i s.1 -> In i (s.1 ++ [])) as Ho by (intros i; by rewrite app_nil_r).
    split; [by apply (at_insert s.1)|]. split; [destruct s; by apply sframe_insert|].
    intros k. rewrite /opt_ents /bind ev_attr Hu /h_get He Eg. done. }
  assert (forall e' ks, e_get yaml e n REnts true true = (e', Ok (Some (GEnts (map new_ent ks)))) -> tracks el A (n :: N) C e' ->
     exists s' hs, holds h el A (n :: N) C s' /\ sframe [h] s s' /\ each is_new hs ks s' /\ List.NoDup hs /\ (forall i, In i hs -> (length s.2 <= i)%nat)
        /\ forall k, ev s (opt_ents h n k) = ev s' (k (Some hs))) as Hsome.
  { intros e' ks Eg Ht'. set (hs := seq (length s.2) (length (map new_ent ks))). exists (s.1 ++ hs, <[h:=e']> s.2 ++ map new_ent ks), hs.
    assert (forall i, In i s.1 -> In i (s.1 ++ hs)) as Ho by (intros i; rewrite in_app_iff; by left).
    split; [split; [by apply Ho|]; exists e'; split; [|done]; rewrite /= lookup_app_l ?insert_length //; by apply list_lookup_insert|].
    split; [split; [done|]; split; [rewrite /= app_length insert_length; lia|]; intros i Hi' Hn; rewrite /= lookup_app_l ?insert_length // list_lookup_insert_ne //; intros <-; apply Hn; by left|].
    split; [pose proof (seq_new (<[h:=e']> s.2) (map new_ent ks) s.1 ks eq_refl) as Hq; by rewrite insert_length in Hq|].
    split; [apply seq_NoDup|]. split; [intros i Hin; apply in_seq in Hin; lia|].
    intros k. rewrite /opt_ents /bind ev_attr Hu /h_get He Eg. rewrite /alloc insert_length. done. }
  assert (forall e' z, e_get yaml e n REnts true true = (e', z) -> (forall r, z <> Ok r) -> forall k, ev s (opt_ents h n k) = None) as Hbad.
  { intros e' z Eg Hz k. rewrite /opt_ents /bind ev_attr Hu /h_get He Eg. destruct z as [r| |]; [by destruct (Hz r)|done|done]. }
  destruct e as [x|y]; simpl in Hel; subst el; cbn [e_get] in Hnone, Hsome, Hbad.
  - rewrite /x_get in Hnone Hsome Hbad. destruct (List.filter (fun k => String.eqb (x_tag k) n) (x_kids (xs_el x))) as [|k0 ks0] eqn:Ef.
    + left. assert (forall k, In k (x_kids (xs_el x)) -> x_tag k <> n) as Hno.
      { intros k Hk Ek. assert (In k (List.filter (fun k => String.eqb (x_tag k) n) (x_kids (xs_el x)))) as Hin by (apply filter_In; split; [done|by apply String.eqb_eq]). by rewrite Ef in Hin. }
      split; [done|]. split; [intros ks H; by eapply nested_absent|]. apply (Hnone (EX x)); [done|]. destruct Ht as [_ [HA HK]]. split; [done|]. split; [done|].
      intros k Hk. rewrite HK //. simpl. split; [tauto|]. intros [|[E|]]; [tauto| |tauto]. by destruct (Hno k Hk).
    + right. left. exists (map ElX (k0 :: ks0)). destruct (Hsome (EX (Xst (xs_el x) (xs_attrs x) (n :: xs_kids x))) (map ElX (k0 :: ks0))) as (s' & hs & H).
      { by rewrite map_map. }
      { destruct Ht as [_ [HA HK]]. split; [done|]. split; [done|]. simpl. intros k Hk. rewrite HK //. tauto. }
      exists s', hs. split; [|done]. simpl. constructor. by rewrite Ef.
  - rewrite /y_get in Hnone Hsome Hbad. destruct (y_in n (ys_el y)) as [[]|err|] eqn:Ein.
    + right. cbn [ys_el] in *. destruct (ys_el y) as [| | | |sv|l|d] eqn:Ey; try by (simpl in Ein; discriminate Ein).
      * right. split; [simpl; simpl in Ein; congruence|]. split; [by inversion 1|]. by eapply Hbad.
      * right. split; [simpl; simpl in Ein; congruence|]. split; [by inversion 1|]. by eapply Hbad.
      * simpl in Ein. destruct (assoc n d) as [w|] eqn:En; [|done].
        assert (~ no_nested' (ElY (ys_type y) (YDict d)) n) as Hnn by (simpl; rewrite En; done).
        destruct w as [| | | | |[|w0 l]|]; try (right; split; [done|]; split; [intros ks H; inversion H; congruence|]; by eapply Hbad).
        destruct (is_dict w0) eqn:Ed.
        -- destruct w0 as [| | | | | |d']; try done. left. destruct (Hsome (EY (Yst (ys_type y) (YDict d) (n :: ys_keys y) (ys_called y))) (map (ElY n) (YDict d' :: l))) as (s' & hs & H).
           { by rewrite map_map. }
           { destruct Ht as [_ [HC HA]]. split; [done|]. rewrite Ey in HA. simpl. split; [done|]. intros a Ha. simpl. rewrite HA // !in_app_iff /=. tauto. }
           exists (map (ElY n) (YDict d' :: l)), s', hs. split; [by constructor|done].
        -- right. split; [done|]. split; [intros ks H; inversion H; subst; assert (w0 = YDict d') as -> by congruence; done|]. by eapply Hbad.
    + left. split; [done|]. split; [intros ks H; by eapply nested_absent|]. apply (Hnone (EY y)); [by destruct (ys_el y)|].
      destruct Ht as [_ [HC HA]]. split; [done|]. split; [done|]. destruct (ys_el y) as [| | | | | |d]; try done.
      intros a Ha. rewrite HA // !in_app_iff /=. split; [tauto|]. intros [[|[<-|]]|]; [tauto| |tauto|tauto]. simpl in Ein. destruct (assoc n d) eqn:En; [done|]. apply assoc_not_in in En. done.
    + right. right. split; [simpl; congruence|]. split; [intros ks H; apply nested_in in H; congruence|]. by eapply Hbad.
    + right. right. split; [simpl; congruence|]. split; [intros ks H; apply nested_in in H; congruence|]. by eapply Hbad.
Qed.
Lemma sframe_new G hs s s' s2 : (forall i, In i hs -> (length s.2 <= i)%nat) -> sframe G s s' -> sframe hs s' s2 -> sframe G s s2.
Proof.
  intros Hnew [O1 [L1 F1]] [O2 [L2 F2]]. split; [auto|]. split; [lia|]. intros i Hi Hn. transitivity (s'.2 !! i); [|by apply F1]. apply F2; [lia|]. intros Hin. specialize (Hnew i Hin). apply (Nat.lt_irrefl i). by eapply Nat.lt_le_trans.
Qed.
Lemma does_nested {Y} h el A N C n (body : list nat -> M Y) (none : Y) (B : list elem -> Y -> Prop) :
  (forall hs ks, List.NoDup hs -> does hs (each is_new hs ks) (body hs) (B ks) (fun _ _ => True)) -> (forall ks y, B ks y -> Forall mapping ks) ->
  does [h] (holds h el A N C) (bind (opt_ents h n) (fun v => match v with Some hs => body hs | None => ret none end))
    (fun y => (no_nested' el n /\ y = none) \/ exists ks, nested el n ks /\ B ks y) (fun _ => holds h el A (n :: N) C).
Proof.
  intros Hb Hm s Hs. destruct (opt_ents_cases h el A N C n s Hs) as [(Hno & Hnn & s' & Hs' & HF & HE)|[(ks & s' & hs & Hne & Hs' & HF & Heach & Hnd & Hnew & HE)|(Hno & Hnn & HE)]].
  - left. exists none, s'. split; [|split; [done|split; [done|]]].
    + intros y. split; [|intros ->; by left]. intros [[_ ->]|(ks & Hk & HB)]; [done|]. apply nested_iff in Hk; [by destruct (Hnn ks)|by eapply Hm].
    + intros k. by rewrite /bind HE.
  - assert (~ In h hs) as Hh. { intros Hi. apply Hnew in Hi. destruct Hs as [_ (e & He & _)]. apply lookup_lt_Some in He. lia. }
    destruct (Hb hs ks Hnd s' Heach) as [(y & s2 & HR & _ & HF2 & HE2)|[HR HE2]].
    + left. exists y, s2. split; [|split; [by eapply at_frame|split]].
      * intros z. rewrite -HR. split.
        -- intros [[Hno _]|(ks' & Hk & HB)]; [by destruct (nested_absent _ _ _ Hne)|]. apply nested_iff in Hk; [|by eapply Hm]. by rewrite (nested_fun _ _ _ _ Hne Hk).
        -- intros HB. right. exists ks. split; [|done]. apply nested_iff; [by eapply Hm|done].
      * by eapply sframe_new.
      * intros k. rewrite /bind HE. apply HE2.
    + right. split; [|intros k; rewrite /bind HE; apply HE2]. intros z [[Hno _]|(ks' & Hk & HB)]; [by eapply nested_absent|].
      apply nested_iff in Hk; [|by eapply Hm]. rewrite -(nested_fun _ _ _ _ Hne Hk) in HB. by apply (HR z).
  - right. split; [|intros k; rewrite /bind; apply HE]. intros z [[Hno' _]|(ks' & Hk & HB)]; [done|]. apply nested_iff in Hk; [by destruct (Hnn ks')|by eapply Hm].
Qed.
Lemma attr_mapping el n t v : attr_val yaml el n t v -> mapping el. Proof. by inversion 1. Qed.
Lemma holds_new g k s : at_ s g (is_new k) -> holds g k [] [] false s.
Proof. intros [Hi (e & He & ->)]. split; [done|]. exists (new_ent k). split; [done|apply tracks_new]. Qed.
Lemma at_sub s g (P Q : ent -> Prop) : (forall e, P e -> Q e) -> at_ s g P -> at_ s g Q.
Proof. intros H [Hi (e & He & HP)]. split; [done|]. exists e. split; [done|by apply H]. Qed.
Lemma does_assert g k A N C : does [g] (holds g k A N C) (assert_done g) (fun _ => nothing_else k A N C) (fun _ => holds g k A N C).
Proof.
  intros s Hs. pose proof (at_usable _ _ _ Hs) as Hu. pose proof Hs as Hs0. destruct Hs as [Hi (e & He & Ht)].
  assert (forall kk, ev s (assert_done g kk) = match e_assert e with Ok u => ev s (kk u) | _ => None end) as HE.
  { intros kk. destruct s as [own hp]. rewrite /assert_done /ev. cbn [run_with fst snd] in *. rewrite Hu /h_assert He. simpl. by destruct (e_assert e). }
  destruct (e_assert e) as [[]|err|] eqn:Ea.
  - left. exists tt, s. split; [|split; [done|split; [apply sframe_refl|done]]]. intros []. split; [done|]. intros _. by apply (tracks_done _ _ _ _ _ Ht).
  - right. split; [|done]. intros _ H. apply (tracks_done _ _ _ _ _ Ht) in H. congruence.
  - right. split; [|done]. intros _ H. apply (tracks_done _ _ _ _ _ Ht) in H. congruence.
Qed.
Definition name_val (k : elem) (p : list subst * list subst) : Prop := subs_of k "name" p.1 /\ subs_of k "value" p.2.
Lemma does_name_value g k : does [g] (fun s => at_ s g (is_new k)) (name_value parse_sub g) (name_val k) (fun _ s => at_ s g (tracks k ["value"; "name"]%string [] false)).
Proof.
  rewrite /name_value. eapply (does_pre _ (holds g k [] [] false)); [apply holds_new|].
  eapply (does_seq (fun a p => exists b, subs_of k "value" b /\ p = (a, b))); [apply does_subs| |].
  - intros a. eapply does_bind; [apply does_subs|]. intros b. apply does_ret.
  - intros [a b]. split; [intros (a' & Ha & b' & Hb & [= -> ->]); done|]. intros [Ha Hb]. exists a. split; [done|]. by exists b.
Qed.
Lemma nothing_else_perm el A A' N C : (forall a, In a A <-> In a A') -> nothing_else el A N C <-> nothing_else el A' N C.
Proof.
  intros H. destruct el as [e|t [| | | | | |d]]; simpl; try done.
  - split; intros [H1 H2]; (split; [intros a Ha; apply H; by apply H1|done]).
  - split; intros H1 a Ha; specialize (H1 a Ha); rewrite !in_app_iff in H1 |- *; rewrite H in H1 || rewrite -H in H1; tauto.
Qed.
Lemma pair_iff k p : pair_of yaml parse_sub k p <-> name_val k p /\ nothing_else k ["value"; "name"]%string [] false.
Proof.
  assert (nothing_else k ["value"; "name"]%string [] false <-> nothing_else k ["name"; "value"]%string [] false) as Hp by (apply nothing_else_perm; intros a; simpl; tauto).
  rewrite Hp. split.
  - intros (s1 & s2 & H1 & H2 & H3 & H4 & H5). split; [|done]. split; [by exists s1|by exists s2].
  - intros [[(s1 & H1 & H2) (s2 & H3 & H4)] H5]. by exists s1, s2.
Qed.
Lemma does_pairs hs ks : List.NoDup hs -> does hs (each is_new hs ks) (pairs parse_sub hs) (fun l => Forall2 (pair_of yaml parse_sub) ks l) (fun _ _ => True).
Proof.
  intros Hnd. rewrite /pairs.
  eapply (does_seq (fun l l' => l' = l /\ Forall (fun k => nothing_else k ["value"; "name"]%string [] false) ks)); [apply mapM_does; [done|]; apply does_name_value| |].
  - intros l. eapply (does_seq (fun us l' => l' = l)); [apply mapM_does; [done|]|intros us; eapply does_post; [|apply does_ret]; done|].
    + intros g k. apply does_assert.
    + intros l'. simpl. split.
      * intros (us & H & ->). split; [done|]. clear -H. induction H; by constructor.
      * intros [-> H]. exists (map (fun _ => tt) ks). split; [|done]. clear -H. induction H; by constructor.
  - intros l. split.
    + intros (l' & H & -> & H'). clear -H H'. revert H'. induction H as [|k p ks l Hp H IH]; [constructor|]. inversion 1; subst. constructor; [by apply pair_iff|by apply IH].
    + intros H. exists l. clear -H. induction H as [|k p ks l Hp H IH]; [by repeat constructor|]. apply pair_iff in Hp as [Hp1 Hp2]. destruct IH as (I1 & _ & I2). repeat split; constructor; done.
Qed.
Definition pairs_given (el : elem) (n key : string) (kw : list (string * kval)) : Prop :=
  (no_nested' el n /\ kw = []) \/ exists ks, nested el n ks /\ exists l, Forall2 (pair_of yaml parse_sub) ks l /\ kw = [(key, KPairs l)].
Definition choices_given (el : elem) (n key : string) (kw : list (string * kval)) : Prop :=
  (no_nested' el n /\ kw = []) \/ exists ks, nested el n ks /\ exists l, Forall2 (choice_of yaml) ks l /\ kw = [(key, KTexts l)].
Lemma pairs_mapping ks l : Forall2 (pair_of yaml parse_sub) ks l -> Forall mapping ks.
Proof. induction 1 as [|k p ks l (s1 & s2 & H1 & _) _ IH]; constructor; [by eapply attr_mapping|done]. Qed.
Lemma choices_mapping ks l : Forall2 (choice_of yaml) ks l -> Forall mapping ks.
Proof. induction 1 as [|k p ks l (s1 & H1 & _) _ IH]; constructor; [by eapply attr_mapping|done]. Qed.
Lemma does_opt_pairs h el A N C n key : does [h] (holds h el A N C) (opt_pairs parse_sub h n key) (pairs_given el n key) (fun _ => holds h el A (n :: N) C).
Proof.
  rewrite /opt_pairs. apply (does_nested h el A N C n (fun hs => bind (pairs parse_sub hs) (fun l => ret [(key, KPairs l)])) []).
  - intros hs ks Hnd. eapply does_bind; [by apply does_pairs|]. intros l. apply does_ret.
  - intros ks y (l & Hl & _). by eapply pairs_mapping.
Qed.
Lemma does_choices h el A N C n key : does [h] (holds h el A N C)
  (bind (opt_ents h n) (fun v => match v with None => ret [] | Some hs => bind (mapM choice_value hs) (fun l => ret [(key, KTexts l)]) end))
  (choices_given el n key) (fun _ => holds h el A (n :: N) C).
Proof.
  assert (forall hs ks, List.NoDup hs -> does hs (each is_new hs ks) (bind (mapM choice_value hs) (fun l => ret [(key, KTexts l)]))
    (fun kw => exists l, Forall2 (choice_of yaml) ks l /\ kw = [(key, KTexts l)]) (fun _ _ => True)) as H.
  { intros hs ks Hnd. eapply does_bind; [|intros l; eapply does_post; [|apply does_ret]; done].
    apply (mapM_does _ _ (fun k => tracks k ["value"]%string [] false)); [done|]. intros g k. eapply (does_pre _ (holds g k [] [] false)); [apply holds_new|].
    rewrite /choice_value. eapply does_seq; [apply does_text|intros s; apply does_ret|]. intros t. done. }
  pose proof (does_nested h el A N C n _ [] _ H) as Hd.
  assert (forall ks (kw : list (string * kval)), (exists l, Forall2 (choice_of yaml) ks l /\ kw = [(key, KTexts l)]) -> Forall mapping ks) as Hm by (intros ks kw (l & Hl & _); by eapply choices_mapping).
  specialize (Hd Hm). intros s Hs. destruct (Hd s Hs) as [(x & s' & HR & HP & HF & HE)|[HR HE]].
  - left. exists x, s'. split; [done|]. split; [done|]. split; [done|]. intros k. rewrite -HE /bind. done.
  - right. split; [done|]. intros k. rewrite -(HE k) /bind. done.
Qed.

(** ** Children *)
Lemma kids_back l ks : Forall2 (fun v k => exists t' w, v = YDict [(t', w)] /\ k = ElY t' w) l ks -> mapR y_child l = Ok (map new_ent ks).
Proof. induction 1 as [|v k l ks (t' & w & -> & ->) H IH]; [done|]. simpl. by rewrite IH. Qed.
Lemma kids_complete e ks : kids_of (el_of e) ks -> exists e', e_children e = (e', Ok (map new_ent ks)).
Proof.
  destruct e as [x|y]; cbn [e_children el_of].
  - inversion 1; subst. rewrite /x_children. rewrite map_map. by eexists.
  - rewrite /y_children. destruct y as [ty v yk yc]. cbn [ys_type ys_el ys_keys ys_called].
    inversion 1 as [|t l ks' Hl|t d l ks' Ha Hl|t d Ha|t d Ha]; subst; rewrite ?Ha; eexists; f_equal; try (by apply kids_back); done.
Qed.
Lemma kids_fun el ks ks' : kids_of el ks -> kids_of el ks' -> ks = ks'.
Proof.
  intros H1 H2. assert (el = el_of (new_ent el)) as E by by destruct el. rewrite E in H1 H2. apply kids_complete in H1 as (e1 & H1), H2 as (e2 & H2).
  rewrite H1 in H2. injection H2 as _ H2. clear -H2. revert ks' H2. induction ks as [|k ks IH]; intros [|k' ks']; try done.
  intros [= Hk H]. f_equal; [|by apply IH]. destruct k, k'; simpl in Hk; unfold new_x, new_y in Hk; congruence.
Qed.
Lemma child_new v e : y_child v = Ok e -> e = new_ent (el_of e).
Proof. destruct v as [| | | |[|? [|]]|[|? [|]]|[|[] [|]]]; simpl; try done. by intros [= <-]. Qed.
Lemma children_new l ks : mapR y_child l = Ok ks -> ks = map new_ent (map el_of ks).
Proof.
  revert ks. induction l as [|v l IH]; intros ks; cbn [mapR]; [by intros [= <-]|]. destruct (y_child v) as [e| |] eqn:E; [|done..]. cbn [res_bind].
  destruct (mapR y_child l) as [es| |]; [|done..]. intros [= <-]. simpl. f_equal; [by apply child_new in E|by apply IH].
Qed.
Lemma e_children_new e e' l : e_children e = (e', Ok l) -> l = map new_ent (map el_of l).
Proof.
  destruct e as [x|y]; cbn [e_children].
  - rewrite /x_children. intros [= <- <-]. rewrite !map_map. done.
  - rewrite /y_children. destruct y as [ty v yk yc]. cbn [ys_type ys_el ys_keys ys_called].
    destruct v as [| | | | |vl|d]; try done.
    + intros [= <- H]. by eapply children_new.
    + destruct (assoc "children" d) as [c|] eqn:Ea; [|done]. intros [= <- H]. destruct (y_iter c) as [vl| |]; [|done..]. by eapply children_new.
Qed.
Lemma tracks_kids el A N e e' l : tracks el A N false e -> e_children e = (e', Ok l) -> tracks el A N true e'.
Proof.
  intros [<- H]. destruct e as [x|y]; cbn [e_children].
  - rewrite /x_children. intros [= <- <-]. split; [done|]. destruct H as [HA HK]. split; [done|]. intros k Hk. cbn [xs_kids xs_el] in *. split; [by left|]. intros _. by apply in_map.
  - rewrite /y_children. destruct y as [ty v yk yc]. cbn [ys_type ys_el ys_keys ys_called] in *. destruct H as [HC HA].
    destruct v as [| | | | |vl|d]; try done.
    + by intros [= <- H].
    + destruct (assoc "children" d) as [c|] eqn:Ea; [|done]. intros [= <- H]. split; [done|]. split; [done|]. intros a Ha. cbn [ys_keys]. simpl. rewrite HA //. split; [|]; [intros [<-|[|[]]]|intros [|[_ ->]]]; tauto.
Qed.
Lemma does_kids {Y} h el A N (body : list nat -> M Y) (B : list elem -> Y -> Prop) :
  (forall hs ks, List.NoDup hs -> does hs (each is_new hs ks) (body hs) (B ks) (fun _ _ => True)) ->
  does [h] (holds h el A N false) (bind (children h) body) (fun y => exists ks, kids_of el ks /\ B ks y) (fun _ => holds h el A N true).
Proof.
  intros Hb s Hs. pose proof (at_usable _ _ _ Hs) as Hu. destruct Hs as [Hi (e & He & Ht)]. pose proof (proj1 Ht) as Hel. pose proof (lookup_lt_Some _ _ _ He) as Hl.
  destruct (e_children e) as [e' r] eqn:Ec.
  assert (forall k, ev s (children h k) = match r with Ok l => ev (s.1 ++ seq (length s.2) (length l), <[h:=e']> s.2 ++ l) (k (seq (length s.2) (length l))) | _ => None end) as HE.
  { intros k. destruct s as [own hp]. rewrite /children /ev. cbn [run_with fst snd] in *. rewrite Hu /h_children He Ec. cbn [negb].
    destruct r as [l|err|]; [|done..]. rewrite /alloc insert_length. cbn [kids_got lift]. by destruct (run_with yaml act _ _ _) as [[? ?] ?]. }
  assert ((forall l, r <> Ok l) -> outc [h] (bind (children h) body) (fun y => exists ks, kids_of el ks /\ B ks y) (fun _ => holds h el A N true) s) as Hbad.
  { intros Hr. right. split; [|intros k; rewrite /bind HE; destruct r as [l| |]; [by destruct (Hr l)|done|done]]. intros y (ks & Hk & _). rewrite -Hel in Hk. apply kids_complete in Hk as (e2 & Hk).
    rewrite Ec in Hk. injection Hk as _ Hk. by eapply Hr. }
  destruct r as [l|err|]; [|by apply Hbad|by apply Hbad]. clear Hbad.
  pose proof (e_children_new _ _ _ Ec) as Hnew. pose proof (e_children_answer _ _ _ Ec) as Hkids. rewrite Hel in Hkids. pose proof (tracks_kids _ _ _ _ _ _ Ht Ec) as Ht'.
  set (ks := map el_of l) in *. set (hs := seq (length s.2) (length l)) in *. set (s' := (s.1 ++ hs, <[h:=e']> s.2 ++ l)) in *.
  assert (holds h el A N true s') as Hs'. { split; [apply in_or_app; by left|]. exists e'. split; [|done]. rewrite /= lookup_app_l ?insert_length //. by apply list_lookup_insert. }
  assert (sframe [h] s s') as HF.
  { split; [intros i Hin; apply in_or_app; by left|]. split; [rewrite /= app_length insert_length; lia|]. intros i Hi' Hn. rewrite /= lookup_app_l ?insert_length // list_lookup_insert_ne //. intros <-. apply Hn. by left. }
  assert (each is_new hs ks s') as Heach. { pose proof (seq_new (<[h:=e']> s.2) l s.1 ks Hnew) as Hq. by rewrite insert_length in Hq. }
  assert (forall i, In i hs -> (length s.2 <= i)%nat) as Hge by (intros i Hin; apply in_seq in Hin; lia).
  assert (~ In h hs) as Hh by (intros Hin; apply Hge in Hin; lia).
  destruct (Hb hs ks (seq_NoDup _ _) s' Heach) as [(y & s2 & HR & _ & HF2 & HE2)|[HR HE2]].
  - left. exists y, s2. split; [|split; [by eapply at_frame|split; [by eapply sframe_new|]]].
    + intros z. rewrite -HR. split; [|intros HB; by exists ks]. intros (ks' & Hk & HB). by rewrite (kids_fun _ _ _ Hkids Hk).
    + intros k. rewrite /bind HE. apply HE2.
  - right. split; [|intros k; rewrite /bind HE; apply HE2]. intros z (ks' & Hk & HB). rewrite (kids_fun _ _ _ Hk Hkids) in HB. by apply (HR z).
Qed.

(** ** Nested actions *)
Context (D : elem -> ParseMethods.act -> Prop).
Definition acts_as : Prop := forall hp g el, hp !! g = Some (new_ent el) ->
  match act hp g with
  | (hp', _, Ok a) => (forall b, D el b <-> b = a) /\ frame [g] hp hp'
  | _ => forall b, ~ D el b
  end.
Context (Hact : acts_as).
Lemma does_action g k : does [g] (fun s => at_ s g (is_new k)) (action g) (D k) (fun _ s => at_ s g (fun _ => True)).
Proof.
  intros s Hs. pose proof (at_usable _ _ _ Hs) as Hu. destruct Hs as [Hi (e & He & ->)]. pose proof (Hact s.2 g k He) as H.
  assert (forall kk, ev s (action g kk) = match act s.2 g with (hp', _, Ok a) => ev (s.1, hp') (kk a) | _ => None end) as HE.
  { intros kk. destruct s as [own hp]. rewrite /action /ev. cbn [run_with fst snd] in *. rewrite Hu. cbn [negb]. destruct (act hp g) as [[hp' tr] [a| |]]; cbn [lift]; [|done|done].
    by destruct (run_with yaml act _ _ _) as [[? ?] ?]. }
  destruct (act s.2 g) as [[hp' tr] [a|err|]].
  - destruct H as [HD HF]. left. exists a, (s.1, hp'). split; [done|]. split; [|by split].
    split; [done|]. destruct (hp' !! g) as [e|] eqn:E; [by exists e|]. apply lookup_ge_None in E. apply lookup_lt_Some in He. destruct HF as [HL _]. simpl in *. lia.
  - right. done.
  - right. done.
Qed.
Lemma does_type g k : does [g] (fun s => at_ s g (is_new k)) (type_is g) (fun t => t = tag_of k) (fun _ s => at_ s g (is_new k)).
Proof.
  intros s Hs. pose proof (at_usable _ _ _ Hs) as Hu. pose proof Hs as Hs0. destruct Hs as [Hi (e & He & ->)].
  left. exists (tag_of k), s. split; [done|]. split; [done|]. split; [apply sframe_refl|]. intros kk. destruct s as [own hp]. rewrite /type_is /ev. cbn [run_with fst snd] in *. rewrite Hu He. cbn [negb]. by destruct k.
Qed.
Lemma does_not_keep hs ks : List.NoDup hs ->
  does hs (each is_new hs ks) (not_keep hs) (fun l => Forall2 D (List.filter (fun k => negb (is_keep k)) ks) l) (fun _ _ => True).
Proof.
  intros Hnd. revert ks. induction Hnd as [|g hs Hg Hnd IH]; intros ks.
  - destruct ks as [|k ks]; [|intros s Hs; inversion Hs]. simpl. eapply does_post; [|eapply does_R; [|apply (does_ret [] (each is_new [] []))]]; [done|].
    intros x. split; [intros ->; constructor|]. by inversion 1.
  - destruct ks as [|k ks]; [intros s Hs; inversion Hs|]. cbn [not_keep List.filter].
    assert (forall i, In i hs -> ~ In i [g]) as Hdis by (intros i Hi [<-|[]]; done).
    assert (does (g :: hs) (each is_new hs ks) (not_keep hs) (fun l => Forall2 D (List.filter (fun k => negb (is_keep k)) ks) l) (fun _ _ => True)) as IH'
      by (eapply (does_mono hs); [intros i Hi; by right|apply IH]).
    eapply (does_seq (fun t l => Forall2 D ((if negb (String.eqb t "keep") then [k] else []) ++ List.filter (fun k => negb (is_keep k)) ks) l)).
    + eapply (does_pre _ (fun s => at_ s g (is_new k) /\ each is_new hs ks s)); [intros s Hs; by inversion Hs|].
      eapply (does_mono [g]); [intros i [->|[]]; by left|]. eapply (does_frame (each is_new hs ks)); [|apply does_type].
      intros s s' HF. by eapply each_frame.
    + intros t. simpl. destruct (String.eqb t "keep"); cbn [negb app].
      * eapply does_pre; [|exact IH']. by intros s [_ H].
      * eapply (does_seq (fun a l => exists as_, Forall2 D (List.filter (fun k => negb (is_keep k)) ks) as_ /\ l = a :: as_)).
        -- eapply (does_mono [g]); [intros i [->|[]]; by left|]. eapply (does_frame (each is_new hs ks)); [|apply does_action]. intros s s' HF. by eapply each_frame.
        -- intros a. eapply does_bind; [eapply does_pre; [|exact IH']; by intros s [_ H]|]. intros l. apply does_ret.
        -- intros l. split; [intros (a & Ha & as_ & Has & ->); by constructor|]. inversion 1 as [|? a ? as_]; subst. exists a. split; [done|]. by exists as_.
    + intros l. rewrite /is_keep. split; [intros (t & -> & H)|intros H; exists (tag_of k); split; [done|]]; destruct (String.eqb (tag_of k) "keep"); exact H.
Qed.
Lemma does_actions hs ks : List.NoDup hs -> does hs (each is_new hs ks) (mapM action hs) (fun l => Forall2 D ks l) (fun _ _ => True).
Proof. intros Hnd. eapply does_post; [|apply mapM_does; [done|]; apply does_action]. done. Qed.

(** ** The methods *)
Definition gives2 (el : elem) (c : column) (kw : list (string * kval)) : Prop :=
  match c with Attr _ _ _ _ => gives' el c kw | Pairs n key => pairs_given el n key kw | Choices n key => choices_given el n key kw end.
Lemma does_bind2 {X Y Z} G Pre (m : M X) (f : X -> M Y) (g : Y -> M Z) R R2 Post Post2 :
  does G Pre (bind m f) R Post -> (forall y, does G (Post y) (g y) (R2 y) Post2) -> does G Pre (bind m (fun x => bind (f x) g)) (fun z => exists y, R y /\ R2 y z) Post2.
Proof. exact (does_bind G Pre (bind m f) g R R2 Post Post2). Qed.
Lemma does_on_exit h el A N C : does [h] (holds h el A N C)
  (bind (opt_text h "on_exit") (fun o => match o with None => ret [] | Some s => if String.eqb s "shutdown" then ret [("on_exit"%string, KShutdown)] else raise XValue end))
  (gives' el (Attr "on_exit" "on_exit" false AsShutdown)) (fun _ => holds h el ("on_exit"%string :: A) N C).
Proof.
  eapply (does_seq (fun o kw => match o with None => kw = [] | Some s => s = "shutdown"%string /\ kw = [("on_exit"%string, KShutdown)] end)); [apply does_opt_text| |].
  - intros [s|]; [|apply does_ret]. destruct (String.eqb_spec s "shutdown") as [->|Hs].
    + eapply does_R; [|apply does_ret]. intros y. simpl. tauto.
    + apply does_raise. by intros y [].
  - intros kw. split.
    + intros ([s|] & Hx & Hk); simpl in *; [destruct Hk as [-> ->]; by repeat constructor|]. subst. by constructor.
    + inversion 1 as [n' k' r' h' kw' Hf|]; subst; [inversion Hf; subst; by exists (Some "shutdown"%string)|by exists None].
Qed.
Lemma does_reason h el A N C : does [h] (holds h el A N C)
  (bind (opt_text h "reason") (fun o => match o with None => ret [] | Some s => if String.eqb s "" then ret [] else bind (lift (parse_sub s)) (fun l => ret [("reason"%string, KSubs l)]) end))
  (gives' el (Attr "reason" "reason" false AsReason)) (fun _ => holds h el ("reason"%string :: A) N C).
Proof.
  eapply (does_seq (fun o kw => match o with None => kw = [] | Some s => (s = "" /\ kw = []) \/ (s <> "" /\ exists l, parse_sub s = Ok l /\ kw = [("reason"%string, KSubs l)]) end)); [apply does_opt_text| |].
  - intros [s|]; [|apply does_ret]. destruct (String.eqb_spec s "") as [->|Hs].
    + eapply does_R; [|apply does_ret]. intros y. simpl. split; [intros ->; by left|]. intros [[_ ->]|[H _]]; done.
    + eapply does_seq; [apply does_lift|intros l; apply does_ret|]. intros y. simpl. split; [intros (l & Hl & ->); right; split; [done|]; by exists l|]. intros [[-> _]|[_ H]]; done.
  - intros kw. split.
    + intros ([s|] & Hx & Hk); simpl in *; [|subst; by constructor]. destruct Hk as [[-> ->]|[Hs (l & Hl & ->)]]; constructor; [by apply f_no_reason|by eapply f_reason].
    + inversion 1 as [n' k' r' h' kw' Hf|]; subst; [|by exists None]. inversion Hf; subst; [exists (Some s)|exists (Some "")]; (split; [done|]); [right; split; [done|]; by exists l|by left].
Qed.
(** What a method is to do: the row, what it reads. *)
Definition row_ok (el : elem) (r : rowspec) (k : K) : Prop :=
  exists base kws, condition' el base /\ Forall2 (gives2 el) (r_before r) kws /\
    match r_kids r with
    | NoKids => k = (r_class r, base ++ concat kws)
    | m => exists ks acts kws', kids_of el ks /\ Forall2 D (kept m ks) acts /\ Forall2 (gives2 el) (r_after r) kws' /\ k = (r_class r, base ++ concat kws ++ [("actions"%string, KActs acts)] ++ concat kws')
    end.
Definition after (el : elem) (r : rowspec) (h : nat) (s : st) : Prop := exists A N, holds h el A N (match r_kids r with NoKids => false | _ => true end) s
  /\ (forall a, In a A <-> In a ("if" :: "unless" :: attr_names (r_before r ++ match r_kids r with NoKids => [] | _ => r_after r end))%string)
  /\ (forall a, In a N <-> In a (nest_names (r_before r))).
Ltac step := first [eapply does_bind; [first [apply does_base|apply does_opt_subs|apply does_subs|apply does_opt_kval|apply does_opt_seconds|apply does_opt_pairs|apply does_text|apply does_lift]|intros ?; cbv beta]
  |eapply does_bind; [apply does_opt_text|intros ?; cbv beta]].
Ltac fin := intros ? ? Hfin; do 2 eexists; split; [exact Hfin|]; split; intros ?; simpl; tauto.
Ltac split_kws := repeat match goal with H : Forall2 _ (_ :: _) ?l |- _ => inversion H; clear H; subst | H : Forall2 _ [] ?l |- _ => inversion H; clear H; subst end.
Definition does_row (el : elem) (h : nat) (m : M K) (r : rowspec) : Prop := does [h] (holds h el [] [] false) m (row_ok el r) (fun _ => after el r h).
Lemma gives_req el n key l : subs_of el n l -> gives2 el (req n key) [(key, KSubs l)].
Proof. intros H. apply subs_gives. by exists l. Qed.
Ltac start := eapply does_post; [|eapply does_R].
Ltac cols := repeat first [apply Forall2_nil_2|apply Forall2_cons_2]; first [assumption|by apply gives_req|idtac].
Ltac same := rewrite /= ?app_nil_r -?app_assoc //.
Ltac reqs := repeat match goal with H : gives2 _ (req _ _) _ |- _ => apply subs_gives in H; destruct H as (? & ? & ->) end.
Ltac ex := repeat match goal with H : gives2 ?el (opt ?n ?k) ?y |- _ => change (gives' el (opt n k) y) in H end; repeat match goal with |- exists _, _ => eexists | |- _ /\ _ => split end; try eassumption.
Lemma m_log h el : does_row el h (parse_log parse_sub h) (Row "LogInfo" [req "message" "msg"] NoKids []).
Proof.
  rewrite /parse_log. start; [| |step; step; apply does_ret]; [fin|].
  intros k. split.
  - intros (base & Hb & m & Hm & ->). exists base, [[("msg"%string, KSubs m)]]. split; [done|]. split; [cols|same].
  - intros (base & kws & Hb & Hk & ->). simpl in Hk. split_kws. reqs. ex. same.
Qed.
Lemma m_unset_env h el : does_row el h (parse_unset_env parse_sub h) (Row "UnsetEnvironmentVariable" [req "name" "name"] NoKids []).
Proof.
  rewrite /parse_unset_env. start; [| |step; step; apply does_ret]; [fin|].
  intros k. split.
  - intros (base & Hb & m & Hm & ->). exists base, [[("name"%string, KSubs m)]]. split; [done|]. split; [cols|same].
  - intros (base & kws & Hb & Hk & ->). simpl in Hk. split_kws. reqs. ex. same.
Qed.
Lemma m_reset_env h el : does_row el h (parse_reset_env parse_sub h) (Row "ResetEnvironment" [] NoKids []).
Proof.
  rewrite /parse_reset_env. start; [| |step; apply does_ret]; [fin|].
  intros k. split.
  - intros (base & Hb & ->). exists base, []. split; [done|]. split; [cols|same].
  - intros (base & kws & Hb & Hk & ->). simpl in Hk. split_kws. ex. same.
Qed.
Lemma m_shutdown h el : does_row el h (parse_shutdown parse_sub h) (Row "Shutdown" [Attr "reason" "reason" false AsReason] NoKids []).
Proof.
  rewrite /parse_shutdown. start; [| |step; eapply does_bind2; [apply does_reason|intros ?; cbv beta; apply does_ret]]; [fin|].
  intros k. split.
  - intros (base & Hb & kw & Hm & ->). exists base, [kw]. split; [done|]. split; [cols|same].
  - intros (base & kws & Hb & Hk & ->). simpl in Hk. split_kws. ex. same.
Qed.
Lemma m_set_env h el : does_row el h (parse_set_env parse_sub h) (Row "SetEnvironmentVariable" [req "name" "name"; req "value" "value"] NoKids []).
Proof.
  rewrite /parse_set_env. start; [| |step; step; step; apply does_ret]; [fin|].
  intros k. split.
  - intros (base & Hb & m & Hm & v & Hv & ->). exists base, [[("name"%string, KSubs m)]; [("value"%string, KSubs v)]]. split; [done|]. split; [cols|same].
  - intros (base & kws & Hb & Hk & ->). simpl in Hk. split_kws. reqs. ex. same.
Qed.
Lemma m_let h el : does_row el h (parse_let parse_sub h) (Row "SetLaunchConfiguration" [req "name" "name"; req "value" "value"] NoKids []).
Proof.
  rewrite /parse_let. start; [| |step; step; step; apply does_ret]; [fin|].
  intros k. split.
  - intros (m & Hm & v & Hv & base & Hb & ->). exists base, [[("name"%string, KSubs m)]; [("value"%string, KSubs v)]]. split; [done|]. split; [cols|same].
  - intros (base & kws & Hb & Hk & ->). simpl in Hk. split_kws. reqs. ex. same.
Qed.
Lemma m_reset h el : does_row el h (parse_reset parse_sub h) (Row "ResetLaunchConfigurations" [Pairs "keep" "launch_configurations"] NoKids []).
Proof.
  rewrite /parse_reset. start; [| |step; step; apply does_ret]; [fin|].
  intros k. split.
  - intros (base & Hb & kw & Hm & ->). exists base, [kw]. split; [done|]. split; [cols|same].
  - intros (base & kws & Hb & Hk & ->). simpl in Hk. split_kws. ex. same.
Qed.
Lemma m_include h el : does_row el h (parse_include parse_sub h) (Row "IncludeLaunchDescription" [req "file" "launch_description_source"; Pairs "arg" "launch_arguments"] NoKids []).
Proof.
  rewrite /parse_include. start; [| |step; step; step; apply does_ret]; [fin|].
  intros k. split.
  - intros (base & Hb & m & Hm & kw & Hv & ->). exists base, [[("launch_description_source"%string, KSubs m)]; kw]. split; [done|]. split; [cols|same].
  - intros (base & kws & Hb & Hk & ->). simpl in Hk. split_kws. reqs. ex. same.
Qed.
Lemma m_append_env h el : does_row el h (parse_append_env parse_sub h) (Row "AppendEnvironmentVariable"
  [req "name" "name"; req "value" "value"; Attr "prepend" "prepend" false (AsNorm TBool); opt "separator" "separator"] NoKids []).
Proof.
  rewrite /parse_append_env. start; [| |step; step; step; eapply does_bind2; [apply does_opt_norm|intros ?; cbv beta; step; apply does_ret]]; [fin|].
  intros k. split.
  - intros (base & Hb & m & Hm & v & Hv & p & Hp & sep & Hsep & ->). exists base, [[("name"%string, KSubs m)]; [("value"%string, KSubs v)]; p; sep]. split; [done|]. split; [cols|same].
  - intros (base & kws & Hb & Hk & ->). simpl in Hk. split_kws. reqs. ex. same.
Qed.
Lemma gives_plain_req el n key kw : gives' el (Attr n key true AsPlain) kw <-> exists s, attr_text yaml el n s /\ kw = [(key, KText (unescape s))].
Proof. split; [|intros (s & Hs & ->); by repeat constructor]. inversion 1 as [n' k' r' h' kw' Hf|]; subst. inversion Hf; subst. by eexists. Qed.
Lemma gives_plain el n key kw : gives' el (Attr n key false AsPlain) kw <->
  exists o, opt_got el n (attr_text yaml el n) o /\ kw = match o with Some d => [(key, KText (unescape d))] | None => [] end.
Proof.
  split; [|intros ([s|] & Hs & ->); by repeat constructor]. inversion 1 as [n' k' r' h' kw' Hf|]; subst; [|by exists None]. inversion Hf; subst. by exists (Some s).
Qed.
Lemma m_arg h el : does_row el h (parse_arg parse_sub h) (Row "DeclareLaunchArgument"
  [Attr "name" "name" true AsPlain; opt "default" "default_value"; Attr "description" "description" false AsPlain; Choices "choice" "choices"] NoKids []).
Proof.
  rewrite /parse_arg. start; [| |step; step; step; step; eapply does_bind2; [apply does_choices|intros ?; cbv beta; apply does_ret]]; [fin|].
  intros k. split.
  - intros (base & Hb & m & Hm & df & Hdf & ds & Hds & ch & Hch & ->).
    exists base, [[("name"%string, KText (unescape m))]; df; match ds with Some d => [("description"%string, KText (unescape d))] | None => [] end; ch].
    split; [done|]. split; [cols|same]; [apply gives_plain_req; by exists m|apply gives_plain; by exists ds].
  - intros (base & kws & Hb & Hk & ->). simpl in Hk. split_kws.
    repeat match goal with H : gives2 _ (Attr "name" _ _ _) _ |- _ => apply gives_plain_req in H; destruct H as (? & ? & ->)
      | H : gives2 _ (Attr "description" _ _ _) _ |- _ => apply gives_plain in H; destruct H as (? & ? & ->) end. ex. same.
Qed.
Lemma gives_norm_req el n t kw : gives' el (Attr n n true (AsNorm t)) kw <-> exists p, filled yaml parse_sub el n n (AsNorm t) [(n, p)] /\ kw = [(n, p)].
Proof.
  split; [|intros (p & Hp & ->); by constructor]. inversion 1 as [n' k' r' h' kw' Hf|]; subst. inversion Hf; subst; (eexists; split; [exact Hf|done]).
Qed.
Lemma m_timer h el : does_row el h (parse_timer parse_sub h) (Row "TimerAction" [Attr "period" "period" true (AsNorm TFloat)] AllKids [Attr "cancel_on_shutdown" "cancel_on_shutdown" false (AsNorm TBool)]).
Proof.
  rewrite /parse_timer. start; [| |step; eapply does_bind2; [apply does_norm|intros ?; cbv beta]; eapply does_bind2; [apply does_kids; apply does_actions|intros ?; cbv beta];
    eapply does_bind2; [apply does_opt_norm|intros ?; cbv beta; apply does_ret]]; [fin|].
  intros k. split.
  - intros (base & Hb & p & Hp & acts & (ks & Hks & Hacts) & c & Hc & ->). exists base, [[("period"%string, p)]]. split; [done|]. split; [cols; by constructor|].
    exists ks, acts, [c]. split; [done|]. split; [done|]. split; [cols|same].
  - intros (base & kws & Hb & Hk & ks & acts & kws' & Hks & Hacts & Ha & ->). simpl in Hk, Ha. split_kws.
    match goal with H : gives2 _ (Attr "period" _ _ _) _ |- _ => apply gives_norm_req in H; destruct H as (? & ? & ->) end. ex. same.
Qed.
Lemma m_group h el : does_row el h (parse_group parse_sub h) (Row "GroupAction"
  [Attr "scoped" "scoped" false (AsVal TBool); Attr "forwarding" "forwarding" false (AsVal TBool); Pairs "keep" "launch_configurations"] ButKeep []).
Proof.
  rewrite /parse_group. start; [| |step; step; step; step; eapply does_bind2; [apply does_kids; apply does_not_keep|intros ?; cbv beta; apply does_ret]]; [fin|].
  intros k. split.
  - intros (base & Hb & p & Hp & f & Hf & kp & Hkp & acts & (ks & Hks & Hacts) & ->). exists base, [p; f; kp]. split; [done|]. split; [cols|].
    exists ks, acts, []. split; [done|]. split; [done|]. split; [cols|same].
  - intros (base & kws & Hb & Hk & ks & acts & kws' & Hks & Hacts & Ha & ->). simpl in Hk, Ha. split_kws. ex. same.
Qed.
Lemma gives_cmd el kw : gives' el (Attr "cmd" "cmd" true AsCommand) kw <-> exists l c, subs_of el "cmd" l /\ parse_cmdline l = Ok c /\ kw = [("cmd"%string, KCmd c)].
Proof.
  split; [|intros (l & c & (s & Hs & Hl) & Hc & ->); constructor; by econstructor]. inversion 1 as [n' k' r' h' kw' Hf|]; subst. inversion Hf; subst. exists l, c. split; [by exists s|done].
Qed.
Lemma m_executable h el : does_row el h (parse_executable parse_sub h) (Row "ExecuteProcess"
      [Attr "cmd" "cmd" true AsCommand; opt "cwd" "cwd"; opt "name" "name"; Attr "on_exit" "on_exit" false AsShutdown;
       opt "launch-prefix" "prefix"; opt "output" "output"; opt "respawn" "respawn";
       Attr "respawn_max_retries" "respawn_max_retries" false (AsVal TInt); Attr "respawn_delay" "respawn_delay" false (AsSeconds false);
       Attr "sigkill_timeout" "sigkill_timeout" false (AsSeconds true); Attr "sigterm_timeout" "sigterm_timeout" false (AsSeconds true);
       Attr "shell" "shell" false (AsVal TBool); Attr "emulate_tty" "emulate_tty" false (AsVal TBool); Pairs "env" "additional_env"] NoKids []).
Proof.
  rewrite /parse_executable. start; [| |do 5 step; eapply does_bind2; [apply does_on_exit|intros ?; cbv beta]; do 10 step; apply does_ret]; [fin|].
  intros k. split.
  - intros (base & Hb & l & Hl & c & Hc & x1 & H1 & x2 & H2 & x3 & H3 & x4 & H4 & x5 & H5 & x6 & H6 & x7 & H7 & x8 & H8 & x9 & H9 & x10 & H10 & x11 & H11 & x12 & H12 & x13 & H13 & ->).
    exists base, [[("cmd"%string, KCmd c)]; x1; x2; x3; x4; x5; x6; x7; x8; x9; x10; x11; x12; x13]. split; [done|]. split; [cols; apply gives_cmd; by exists l, c|same].
  - intros (base & kws & Hb & Hk & ->). simpl in Hk. split_kws.
    match goal with H : gives2 _ (Attr "cmd" _ _ _) _ |- _ => apply gives_cmd in H; destruct H as (? & ? & ? & ? & ->) end. ex. same.
Qed.
Lemma methods_ok tag m r h el : assoc tag (table parse_sub) = Some m -> assoc tag rows = Some r -> does_row el h (m h) r.
Proof.
  rewrite /table /rows. cbn [assoc].
  repeat match goal with |- (if ?b then _ else _) = _ -> _ => destruct b; [intros [= <-] [= <-]|] end; [..|done].
  - apply m_executable.
  - apply m_shutdown.
  - apply m_reset_env.
  - apply m_arg.
  - apply m_log.
  - apply m_unset_env.
  - apply m_reset.
  - apply m_include.
  - apply m_append_env.
  - apply m_set_env.
  - apply m_group.
  - apply m_timer.
  - apply m_let.
Qed.
Lemma tags_known tag : assoc tag (table parse_sub) = None <-> assoc tag rows = None.
Proof. rewrite /table /rows. cbn [assoc]. repeat match goal with |- context [if ?b then _ else _] => destruct b; [done|] end. done. Qed.
End markup.

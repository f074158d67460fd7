(** Lemmas about listing launch arguments and about includes. *)
From Coq Require Import ssreflect.
From Verif Require Import SubstFacts SubstLaws ExecFacts SpecVisit SpecActions VisitFacts ActionFacts.

#[local] Arguments String.append : simpl nomatch.

Scheme walk_ind2 := Induction for walk Sort Prop
with walk_each_ind2 := Induction for walk_each Sort Prop.
Combined Scheme walk_mut from walk_ind2, walk_each_ind2.

(** ** Entities without contents *)
Section plain.
Context (al : entity -> list entity) (so : entity -> res (list (list entity))).
Definition plain (e : entity) : Prop :=
  al e = [] /\ so e = Ok [] /\ (forall i k cfgs, e <> EAct i k (AResetLC cfgs)) /\ (forall i k n d ch, e <> EAct i k (ADeclare n d ch)).
Lemma walk_nil b ds : walk al so b [] ds -> ds = [].
Proof. intros H. by inversion H. Qed.
Lemma walk_plain b e l ds : plain e -> walk al so b (e :: l) ds <-> walk al so b l ds.
Proof.
  intros (Ha & Hs & Hr & Hd). split.
  - intros H. inversion H; subst; [by destruct (Hr i k cfgs)|by destruct (Hd i k n d ch)|].
    match goal with H : walk _ _ false (al e) _ |- _ => rewrite Ha in H; apply walk_nil in H as -> end.
    match goal with H : so e = Ok _ |- _ => rewrite Hs in H; injection H as <- end.
    match goal with H : walk_each _ _ [] _ |- _ => inversion H; subst end. done.
  - intros H. apply (dd_other al so b e l [] [] [] ds Hr Hd); [rewrite Ha; constructor|done|constructor|done].
Qed.
Lemma walk_before b p l ds : Forall plain p -> walk al so b (p ++ l) ds <-> walk al so b l ds.
Proof. intros H. induction H as [|e p He _ IH]; [done|]. by rewrite /= walk_plain. Qed.
Lemma walk_plains b p : Forall plain p -> walk al so b p [].
Proof. intros H. rewrite -(app_nil_r p) walk_before //. constructor. Qed.
Lemma walk_after b p l ds : Forall plain p -> walk al so b (l ++ p) ds <-> walk al so b l ds.
Proof.
  intros Hp. revert ds. induction l as [|e l IH]; intros ds; simpl.
  - rewrite -{1}(app_nil_r p). by rewrite walk_before.
  - split; intros H; inversion H; subst; [apply dd_reset|apply dd_declare; by apply IH| |apply dd_reset|apply dd_declare; by apply IH|].
    + eapply dd_other; eauto. by apply IH.
    + eapply dd_other; eauto. by apply IH.
Qed.
End plain.

Lemma is_reset_dec e : (exists i k cfgs, e = EAct i k (AResetLC cfgs)) \/ ~ (exists i k cfgs, e = EAct i k (AResetLC cfgs)).
Proof. destruct e as [|i k []]; eauto; right; by intros (?&?&?&?). Qed.
Lemma is_declare_dec e : (exists i k n d ch, e = EAct i k (ADeclare n d ch)) \/ ~ (exists i k n d ch, e = EAct i k (ADeclare n d ch)).
Proof. destruct e as [|i k []]; eauto 8; right; by intros (?&?&?&?&?&?). Qed.

(** ** Keeping the first entries *)
Lemma fe_ext l : forall s s', (forall x, In x s <-> In x s') -> first_entries s l = first_entries s' l.
Proof.
  induction l as [|d l IH]; intros s s' H; [done|]. simpl.
  assert (existsb (String.eqb (li_name d)) s = existsb (String.eqb (li_name d)) s') as ->.
  { apply eq_true_iff_eq. by rewrite !existsb_in. }
  destruct (existsb _ s'); [by apply IH|]. f_equal. apply IH. intros x. simpl. by rewrite H.
Qed.
Lemma fe_app a b : forall s, first_entries s (a ++ b) = first_entries s a ++ first_entries (s ++ map li_name a) b.
Proof.
  induction a as [|d a IH]; intros s; simpl; [by rewrite app_nil_r|].
  destruct (existsb _ s) eqn:E; simpl; rewrite IH; [f_equal|do 2 f_equal].
  - apply fe_ext. intros x. rewrite !in_app_iff /=. apply existsb_in in E. intuition (subst; auto).
  - apply fe_ext. intros x. simpl. rewrite !in_app_iff /=. intuition.
Qed.
Lemma fe_names s l x : In x s \/ In x (map li_name (first_entries s l)) <-> In x s \/ In x (map li_name l).
Proof.
  revert s. induction l as [|d l IH]; intros s; simpl; [done|].
  destruct (existsb _ s) eqn:E; simpl.
  - rewrite IH. apply existsb_in in E. intuition (subst; auto).
  - specialize (IH (li_name d :: s)). simpl in IH. tauto.
Qed.
Lemma fe_nodup l : forall s, NoDup (map li_name (first_entries s l)) /\ forall x, In x s -> ~ In x (map li_name (first_entries s l)).
Proof.
  induction l as [|d l IH]; intros s; simpl; [split; [constructor|by intros ? ? []]|].
  destruct (existsb _ s) eqn:E; [apply IH|]. destruct (IH (li_name d :: s)) as [H1 H2]. simpl. split.
  - constructor; [|done]. rewrite elem_of_list_In. apply H2. by left.
  - intros x Hx [<-|Hi].
    + apply existsb_in in Hx. congruence.
    + by apply (H2 x); [right|].
Qed.
Lemma fe_first l : forall s d, In d (first_entries s l) <->
  ~ In (li_name d) s /\ exists a b, l = a ++ d :: b /\ ~ In (li_name d) (map li_name a).
Proof.
  induction l as [|e l IH]; intros s d; simpl.
  { split; [done|]. intros (_ & [] & ? & ? & ?); simplify_eq. }
  destruct (existsb _ s) eqn:E.
  - rewrite IH. apply existsb_in in E. split; intros (Hn & a & b & El & Ha); (split; [done|]).
    + exists (e :: a), b. split; [by rewrite El|]. simpl. intros [H|H]; [apply Hn; by rewrite -H|done].
    + destruct a as [|f a]; simplify_eq/=; [done|]. exists a, b. split; [done|tauto].
  - assert (Hn : ~ In (li_name e) s) by (intros H%existsb_in; congruence). simpl. rewrite IH /=. split.
    + intros [->|(H & a & b & El & Ha)]; [split; [done|]; exists [], l; split; [done|by intros []]|].
      split; [tauto|]. exists (e :: a), b. split; [by rewrite El|]. simpl. tauto.
    + intros (H & a & b & El & Ha). destruct a as [|f a]; simplify_eq/=; [by left|]. right.
      split; [tauto|]. exists a, b. split; [done|]. tauto.
Qed.

Section listing.
Context (w : world) (c : ctx) (known : nat -> option (list entity)).
Notation pe := (process_entities w c known).

Definition descend fuel (nested : option nat) (e : entity) (s : astate) : astate * res unit :=
  let '(s, nested') :=
    match e with
    | EAct _ _ (AInclude _ args) =>
        let names := map fst args in
        match nested with
        | None => (mkA (a_heap s ++ [[names]]) (a_decls s), Some (length (a_heap s)))
        | Some r => (mkA (alter (fun x => x ++ [names]) r (a_heap s)) (a_decls s), Some r)
        end
    | _ => (s, nested)
    end in
  (pe fuel (describe_sub_entities w c known e) false nested' ;;;
   cs <-- liftS (describe_conditional_sub_entities w c known e) ;;
   (fix gos (cs : list (list entity)) : astate -> astate * res unit :=
      match cs with
      | [] => retS tt
      | x :: cs' => pe fuel x true nested' ;;; gos cs'
      end) cs) s.
Definition pe_list fuel (b : bool) (nested : option nat) :=
  fix pe_list (l : list entity) (s : astate) : astate * res unit :=
  match l with
  | [] => (s, Ok tt)
  | e :: l' =>
      match e with
      | EAct _ k (ADeclare n d ch) =>
          if existsb (fun x => String.eqb (dl_name x) n) (a_decls s) then pe_list l' s
          else
            let s1 := mkA (a_heap s)
                (a_decls s ++ [mkDecl n d ch (b || match k with Some _ => true | None => false end) nested]) in
            (descend fuel nested e ;;; pe_list l') s1
      | EAct _ _ (AResetLC _) => (s, Ok tt)
      | _ => (descend fuel nested e ;;; pe_list l') s
      end
  end.
Lemma pe_S fuel l b nested s : pe (S fuel) l b nested s = pe_list fuel b nested l s.
Proof.
  reflexivity.
Qed.

(** The state [s'] adds to [s] the first entries of [ds]. *)
Definition adds (ds : list listed) (s s' : astate) : Prop :=
  map listed_of (a_decls s') = map listed_of (a_decls s) ++ first_entries (map dl_name (a_decls s)) ds.
Lemma names_listed l : map li_name (map listed_of l) = map dl_name l.
Proof. rewrite map_map. by apply map_ext. Qed.
Lemma adds_nil s : adds [] s s.
Proof. by rewrite /adds app_nil_r. Qed.
Lemma adds_heap h ds s s' : adds ds (mkA h (a_decls s)) s' -> adds ds s s'.
Proof. done. Qed.
Lemma adds_trans ds ds' s s1 s2 : adds ds s s1 -> adds ds' s1 s2 -> adds (ds ++ ds') s s2.
Proof.
  rewrite /adds => E1 E2. rewrite E2 E1 -app_assoc fe_app. do 2 f_equal. apply fe_ext. intros x.
  rewrite -(names_listed (a_decls s1)) E1 map_app names_listed !in_app_iff. apply fe_names.
Qed.
Definition gos fuel (nested : option nat) :=
  fix gos (cs : list (list entity)) : astate -> astate * res unit :=
      match cs with
      | [] => retS tt
      | x :: cs' => pe fuel x true nested ;;; gos cs'
      end.
Lemma descend_eq fuel nested e s : exists h nested',
  descend fuel nested e s =
  (pe fuel (describe_sub_entities w c known e) false nested' ;;;
   cs <-- liftS (describe_conditional_sub_entities w c known e) ;;
   gos fuel nested' cs) (mkA h (a_decls s)).
Proof.
  rewrite /descend. destruct s as [h ds].
  destruct e as [l|a k []]; try by exists h, nested.
  destruct nested; by eexists _, _.
Qed.

Notation dm := (walk (describe_sub_entities w c known) (describe_conditional_sub_entities w c known)).
Notation dm_each := (walk_each (describe_sub_entities w c known) (describe_conditional_sub_entities w c known)).
Section sound.
Context (fuel : nat).
Hypothesis IH : forall l b nested s s', pe fuel l b nested s = (s', Ok tt) ->
  exists ds, dm b l ds /\ adds ds s s'.
Lemma gos_sound nested cs : forall s s', gos fuel nested cs s = (s', Ok tt) ->
  exists ds, dm_each cs ds /\ adds ds s s'.
Proof.
  induction cs as [|l cs IHc]; intros s s'; cbn [gos]; rewrite -/gos.
  { intros [= <-]. exists []. split; [constructor|apply adds_nil]. }
  intros [(s1 & [] & E1 & E2)|[(?&?&?)|[??]]]%bindS_inv; [|done..].
  apply IH in E1 as (ds & H1 & A1). apply IHc in E2 as (ds' & H2 & A2).
  exists (ds ++ ds'). split; [by constructor|by eapply adds_trans].
Qed.
Lemma descend_sound nested e s s' : descend fuel nested e s = (s', Ok tt) ->
  exists dsub cs dcond, dm false (describe_sub_entities w c known e) dsub /\ describe_conditional_sub_entities w c known e = Ok cs
    /\ dm_each cs dcond /\ adds (dsub ++ dcond) s s'.
Proof.
  destruct (descend_eq fuel nested e s) as (h & nested' & ->).
  intros [(s1 & [] & E1 & E2)|[(?&?&?)|[??]]]%bindS_inv; [|done..].
  revert E2. intros [(s2 & cs & E2 & E3)|[(?&?&?)|[??]]]%bindS_inv; [|done..].
  injection E2 as <- E2.
  apply IH in E1 as (ds & H1 & A1). apply gos_sound in E3 as (ds' & H2 & A2).
  exists ds, cs, ds'. split_and!; [done..|]. by eapply adds_trans.
Qed.
Lemma pe_list_sound b nested l : forall s s', pe_list fuel b nested l s = (s', Ok tt) ->
  exists ds, dm b l ds /\ adds ds s s'.
Proof.
  induction l as [|e l IHl]; intros s s' H.
  { injection H as <-. exists []. split; [constructor|apply adds_nil]. }
  destruct (is_reset_dec e) as [(i & k & cfgs & ->)|Hr].
  { injection H as <-. exists []. split; [constructor|apply adds_nil]. }
  destruct (is_declare_dec e) as [(i & k & n & d & ch & ->)|Hd].
  { cbn [pe_list] in H. rewrite -/(pe_list fuel b nested) in H.
    set (x := mkListed n d ch (b || bool_decide (k <> None))).
    destruct (existsb _ (a_decls s)) eqn:Ex.
    - apply IHl in H as (ds & Hds & A). exists (x :: ds). split; [by constructor|].
      rewrite /adds A. simpl. assert (existsb (String.eqb n) (map dl_name (a_decls s)) = true) as ->; [|done].
      apply existsb_in, in_map_iff. apply existsb_exists in Ex as (y & Hy & Hy2%String.eqb_eq). by exists y.
    - revert H. intros [(s1 & [] & E1 & E2)|[(?&?&?)|[??]]]%bindS_inv; [|done..].
      apply IHl in E2 as (ds & Hds & A2). apply descend_sound in E1 as (dsub & cs & dcond & H1 & H2 & H3 & A1).
      assert (dsub = [] /\ dcond = []) as [-> ->].
      { destruct k as [k|]; simpl in *.
        - injection H2 as <-. inversion H1; subst. inversion H3; subst.
          match goal with H : walk _ _ true [] _ |- _ => inversion H; subst end.
          match goal with H : walk_each _ _ [] _ |- _ => inversion H; subst end. done.
        - injection H2 as <-. inversion H1; subst. inversion H3; by subst. }
      exists (x :: ds). split; [by constructor|].
      change (x :: ds) with ([x] ++ ds). eapply adds_trans; [|exact A2].
      rewrite /adds in A1 |- *. rewrite A1 /= app_nil_r map_app.
      assert (existsb (String.eqb n) (map dl_name (a_decls s)) = false) as ->.
      { destruct (existsb (String.eqb n) _) eqn:F; [|done]. apply existsb_in, in_map_iff in F as (y & <- & Hy).
        assert (existsb (fun z => String.eqb (dl_name z) (dl_name y)) (a_decls s) = true); [|congruence].
        apply existsb_exists. exists y. split; [done|]. apply String.eqb_refl. }
      f_equal. rewrite /listed_of /= /x. do 2 f_equal. by destruct k. }
  assert (E : pe_list fuel b nested (e :: l) s = (descend fuel nested e ;;; pe_list fuel b nested l) s).
  { destruct e as [|? ? []]; try done; exfalso; eauto 10. }
  rewrite E in H. revert H. intros [(s1 & [] & E1 & E2)|[(?&?&?)|[??]]]%bindS_inv; [|done..].
  apply IHl in E2 as (ds & Hds & A2). apply descend_sound in E1 as (dsub & cs & dcond & H1 & H2 & H3 & A1).
  exists (dsub ++ dcond ++ ds). split; [|rewrite app_assoc; by eapply adds_trans].
  econstructor; eauto; intros; intros ->; eauto 10.
Qed.
End sound.
Lemma pe_sound fuel : forall l b nested s s', pe fuel l b nested s = (s', Ok tt) ->
  exists ds, dm b l ds /\ adds ds s s'.
Proof.
  induction fuel as [|fuel IH]; [done|]. intros l b nested s s'. rewrite pe_S. by apply pe_list_sound.
Qed.
(** Listing terminates without an exception. *)
Lemma pe_complete :
  (forall b l ds, dm b l ds ->
     exists n, forall fuel nested s, (n <= fuel)%nat -> exists s', pe fuel l b nested s = (s', Ok tt)) /\
  (forall cs ds, dm_each cs ds ->
     exists n, forall fuel nested s, (n <= fuel)%nat -> exists s', gos fuel nested cs s = (s', Ok tt)).
Proof.
  apply walk_mut.
  - intros b. exists 1%nat. intros [|f] nested s ?; [lia|]. rewrite pe_S. by eexists.
  - intros b i k cfgs l. exists 1%nat. intros [|f] nested s ?; [lia|]. rewrite pe_S. by eexists.
  - intros b i k n d ch l ds _ [m Hm]. exists (m + 3)%nat. intros [|f] nested s ?; [lia|]. rewrite pe_S.
    cbn [pe_list]. rewrite -/(pe_list f b nested).
    assert (Hl : forall s, exists s', pe_list f b nested l s = (s', Ok tt)).
    { intros s0. rewrite -pe_S. apply Hm. lia. }
    destruct (existsb _ _); [done|].
    rewrite /bindS. destruct (descend_eq f nested (EAct i k (ADeclare n d ch))
      (mkA (a_heap s) (a_decls s ++ [mkDecl n d ch (b || match k with Some _ => true | None => false end) nested]))) as (h & nn & ->).
    destruct f as [|[|f]]; [lia..|]. destruct k; simpl; apply Hl.
  - intros b e l dsub cs dcond ds Hr Hd _ [m1 H1] Hc _ [m2 H2] _ [m3 H3].
    exists (S (m1 + m2 + m3)). intros [|f] nested s ?; [lia|]. rewrite pe_S.
    assert (pe_list f b nested (e :: l) s = (descend f nested e ;;; pe_list f b nested l) s) as ->.
    { destruct e as [|? ? []]; try done; exfalso; eauto 10. by eapply Hr. by eapply Hd. }
    rewrite /bindS. destruct (descend_eq f nested e s) as (h & nn & ->).
    rewrite /bindS. destruct (H1 f nn (mkA h (a_decls s))) as [s1 E1]; [lia|]. rewrite E1.
    rewrite Hc /=.
    destruct (H2 f nn s1) as [s2 ->]; [lia|]. rewrite -pe_S. apply H3. lia.
  - exists 0%nat. intros f nested s ?. by eexists.
  - intros l ls ds ds' _ [m1 H1] _ [m2 H2]. exists (m1 + m2)%nat. intros f nested s ?.
    cbn [gos]. rewrite -/(gos f nested) /bindS. destruct (H1 f nested s) as [s1 ->]; [lia|]. apply H2. lia.
Qed.
Lemma dm_det :
  (forall b l ds, dm b l ds -> forall ds', dm b l ds' -> ds = ds') /\
  (forall cs ds, dm_each cs ds -> forall ds', dm_each cs ds' -> ds = ds').
Proof.
  apply walk_mut.
  - intros b ds' H. by inversion H.
  - intros b i k cfgs l ds' H. inversion H; subst; [done|]. exfalso. by eapply H2.
  - intros b i k n d ch l ds _ IH ds' H. inversion H; subst; [f_equal; by apply IH|]. exfalso. by eapply H3.
  - intros b e l dsub cs dcond ds Hr Hd _ IH1 Hc _ IH2 _ IH3 ds' H. inversion H; subst.
    + exfalso. by eapply Hr.
    + exfalso. by eapply Hd.
    + rewrite Hc in H5. injection H5 as <-. f_equal; [by apply IH1|]. f_equal; [by apply IH2|by apply IH3].
  - intros ds' H. by inversion H.
  - intros l ls ds ds0 _ IH1 _ IH2 ds' H. inversion H; subst. f_equal; [by apply IH1|by apply IH2].
Qed.
(** The walk of the specification. *)
Lemma plain_anon k : match k with APushLC | APushEnv | APopLC | APopEnv | AResetEnv | ASetLC _ _ => True | _ => False end ->
  plain (describe_sub_entities w c known) (describe_conditional_sub_entities w c known) (anon k) /\ plain (always w c known) (sometimes w c known) (anon k).
Proof. destruct k; try by intros []. all: intros _; split; by split_and!. Qed.
Lemma plain_lcs cfgs : Forall (plain (describe_sub_entities w c known) (describe_conditional_sub_entities w c known)) (set_lcs cfgs) /\
  Forall (plain (always w c known) (sometimes w c known)) (set_lcs cfgs).
Proof. split; apply Forall_forall; intros e (kv & -> & _)%elem_of_list_fmap; by apply plain_anon. Qed.
Lemma walk_group al so b sc fw cfgs body ds : (forall k, match k with APushLC | APushEnv | APopLC | APopEnv | AResetEnv | ASetLC _ _ => True | _ => False end -> plain al so (anon k)) ->
  walk al so b (group_entities sc fw cfgs body) ds <-> walk al so b (contents w c known (AGroup sc fw cfgs body)) ds.
Proof.
  intros HP. assert (Forall (plain al so) (set_lcs cfgs)) as HL by (apply Forall_forall; intros e (kv & -> & _)%elem_of_list_fmap; by apply HP).
  assert (forall k1 k2, plain al so (anon k1) -> plain al so (anon k2) -> Forall (plain al so) [anon k1; anon k2]) as H2 by (intros k1 k2 H1 H2; by repeat apply Forall_cons_2).
  rewrite /group_entities. destruct sc; [destruct fw|].
  - rewrite walk_before; [by apply H2; apply HP|]. rewrite walk_before //. apply walk_after. by apply H2; apply HP.
  - change (walk al so b ([anon APushLC; anon APushEnv] ++ [anon AResetEnv] ++ (anon (AResetLC (Some cfgs)) :: body ++ [anon APopEnv; anon APopLC])) ds <-> walk al so b [] ds).
    rewrite walk_before; [by apply H2; apply HP|]. rewrite walk_before; [apply Forall_cons_2; [by apply HP|done]|]. split; intros H.
    + inversion H; subst; [constructor|]. exfalso. match goal with H : forall i k cfgs, anon _ <> _ |- _ => by eapply H end.
    + apply walk_nil in H as ->. constructor.
  - by rewrite walk_before.
Qed.
Lemma walk_contents al so b k ds : (forall k, match k with APushLC | APushEnv | APopLC | APopEnv | AResetEnv | ASetLC _ _ => True | _ => False end -> plain al so (anon k)) ->
  walk al so b (get_sub_entities w c known k) ds <-> walk al so b (contents w c known k) ds.
Proof.
  intros HP. destruct k; try done; [by apply walk_group|]. simpl. rewrite /try_get_without_context. destruct (known _); [done|].
  destruct (perform_substitutions _ _ _).2; try done. by destruct (w_load _ _ _ _).
Qed.
Lemma sometimes_cases e : describe_conditional_sub_entities w c known e = sometimes w c known e \/
  exists k, describe_conditional_sub_entities w c known e = Ok [get_sub_entities w c known k] /\ sometimes w c known e = Ok [contents w c known k].
Proof.
  destruct e as [l|i cond k]; [by left|]. destruct (match k with ARegister _ => true | _ => false end) eqn:Er.
  { destruct k; try done. left. simpl. rewrite /handler_entities. destruct (h_body _); try done; cbn [res_bind]; destruct cond; try done; by destruct l. }
  destruct cond as [cd|]; [|left; by destruct k]. destruct (match k with ATimer _ _ _ => true | _ => false end) eqn:Et; [left; by destruct k|].
  right. exists k. by destruct k.
Qed.
Lemma always_cases e : describe_sub_entities w c known e = always w c known e \/
  exists k, describe_sub_entities w c known e = get_sub_entities w c known k /\ always w c known e = contents w c known k.
Proof. destruct e as [l|i [cond|] k]; [by left|by left|right]. by exists k. Qed.
Lemma each_one al so l ds : walk_each al so [l] ds <-> walk al so true l ds.
Proof.
  split.
  - intros H. inversion H; subst. match goal with H : walk_each _ _ [] _ |- _ => inversion H; subst end. by rewrite app_nil_r.
  - intros H. rewrite -(app_nil_r ds). constructor; [done|constructor].
Qed.
Lemma dm_declared : (forall b l ds, dm b l ds -> declared w c known b l ds) /\ (forall cs ds, dm_each cs ds -> walk_each (always w c known) (sometimes w c known) cs ds).
Proof.
  apply walk_mut; try by econstructor.
  intros b e l dsub cs dcond ds Hr Hd _ IH1 Hc _ IH2 _ IH3.
  assert (walk (always w c known) (sometimes w c known) false (always w c known e) dsub) as H1.
  { destruct (always_cases e) as [<-|(k & E & ->)]; [done|]. rewrite E in IH1. apply walk_contents; [|done]. intros k' Hk. by apply plain_anon. }
  destruct (sometimes_cases e) as [E|(k & E & E')].
  - econstructor; try done. by rewrite -E.
  - rewrite Hc in E. injection E as ->. econstructor; [done|done|exact H1|exact E'| |done].
    apply each_one. apply each_one in IH2. apply walk_contents; [|done]. intros k' Hk. by apply plain_anon.
Qed.
Lemma declared_dm : (forall b l ds, declared w c known b l ds -> dm b l ds) /\ (forall cs ds, walk_each (always w c known) (sometimes w c known) cs ds -> dm_each cs ds).
Proof.
  apply walk_mut; try by econstructor.
  intros b e l dsub cs dcond ds Hr Hd _ IH1 Hc _ IH2 _ IH3.
  assert (dm false (describe_sub_entities w c known e) dsub) as H1.
  { destruct (always_cases e) as [->|(k & -> & E)]; [done|]. rewrite E in IH1. apply walk_contents; [|done]. intros k' Hk. by apply plain_anon. }
  destruct (sometimes_cases e) as [E|(k & E & E')].
  - econstructor; try done. by rewrite E.
  - rewrite Hc in E'. injection E' as ->. econstructor; [done|done|exact H1|exact E| |done].
    apply each_one. apply each_one in IH2. apply walk_contents; [|done]. intros k' Hk. by apply plain_anon.
Qed.
Lemma listing_sound fuel l b a : get_launch_arguments w c known fuel l b = Ok a ->
  exists ds, declared w c known b l ds /\ map listed_of (a_decls a) = first_entries [] ds.
Proof.
  rewrite /get_launch_arguments. destruct (process_entities _ _ _ _ _ _ _ _) as [s [[]| |]] eqn:E; try done.
  intros [= <-]. apply pe_sound in E as (ds & H & A). exists ds. split; [by apply dm_declared|done].
Qed.
Lemma listing_complete b l ds : declared w c known b l ds ->
  exists n, forall fuel, (n <= fuel)%nat -> exists a, get_launch_arguments w c known fuel l b = Ok a
    /\ map listed_of (a_decls a) = first_entries [] ds.
Proof.
  intros H%declared_dm. destruct (proj1 pe_complete _ _ _ H) as [n Hn]. exists n. intros fuel Hf.
  destruct (Hn fuel None (mkA [] []) Hf) as [a Ha]. exists a.
  assert (Hg : get_launch_arguments w c known fuel l b = Ok a) by by rewrite /get_launch_arguments Ha.
  split; [done|]. apply listing_sound in Hg as (ds' & Hd%declared_dm & ->). by rewrite (proj1 dm_det _ _ _ H _ Hd).
Qed.
Lemma listing_facts fuel l b a : get_launch_arguments w c known fuel l b = Ok a ->
  exists ds, declared w c known b l ds
    /\ NoDup (map dl_name (a_decls a))
    /\ (forall n, In n (map dl_name (a_decls a)) <-> In n (map li_name ds))
    /\ (forall d, In d (map listed_of (a_decls a)) <->
          exists before after, ds = before ++ d :: after /\ ~ In (li_name d) (map li_name before)).
Proof.
  intros (ds & H & E)%listing_sound. exists ds. rewrite -names_listed E. split_and!; [done| | |].
  - apply fe_nodup.
  - intros n. destruct (fe_names [] ds n) as [H1 H2]. simpl in *. tauto.
  - intros d. rewrite fe_first. simpl. tauto.
Qed.
End listing.

(** ** The check of an include *)
Section check.
Context (w : world) (c : ctx) (heap : list (list (list (list subst)))).
Notation check := (check_arguments w c heap).
Lemma names_ctx i l : names_without_context w c i = Some l <-> (perform_list w i (fresh_ctx c)).2 = Ok l.
Proof. rewrite /names_without_context. destruct (perform_list w i (fresh_ctx c)).2; split; congruence. Qed.
Lemma extend_cases acc ilds :
  (exists ls, Forall2 (fun i l => (perform_list w i (fresh_ctx c)).2 = Ok l) ilds ls
              /\ extend_names w c acc ilds = Ok (acc ++ concat ls))
  \/ ((forall ls, ~ Forall2 (fun i l => (perform_list w i (fresh_ctx c)).2 = Ok l) ilds ls)
      /\ extend_names w c acc ilds = Exn XType).
Proof.
  revert acc. induction ilds as [|i ilds IH]; intros acc; simpl.
  { left. exists []. split; [constructor|]. by rewrite app_nil_r. }
  destruct (names_without_context w c i) as [l|] eqn:E.
  - destruct (IH (acc ++ l)) as [(ls & H & ->)|(H & ->)].
    + left. exists (l :: ls). split; [constructor; [by apply names_ctx|done]|]. by rewrite /= -app_assoc.
    + right. split; [|done]. intros ls Hf. inversion Hf; subst. by eapply H.
  - right. split; [|done]. intros ls Hf. inversion Hf as [|? y ? ? Hy]; subst. apply names_ctx in Hy. congruence.
Qed.
Definition nested_names (d : decl) (acc : list string) : res (list string) :=
  match dl_nested d with None => Ok acc | Some r => extend_names w c acc (nth r heap []) end.
Lemma nested_cases d acc :
  (exists l, passed_inside w c heap d l /\ nested_names d acc = Ok (acc ++ l))
  \/ ((forall l, ~ passed_inside w c heap d l) /\ nested_names d acc = Exn XType).
Proof.
  rewrite /nested_names /passed_inside. destruct (dl_nested d) as [r|].
  - destruct (extend_cases acc (nth r heap [])) as [(ls & H & ->)|(H & ->)].
    + left. eauto 10.
    + right. split; [|done]. intros l (ls & Hf & _). by eapply H.
  - left. exists []. by rewrite app_nil_r.
Qed.
Lemma passed_inside_det d l l' : passed_inside w c heap d l -> passed_inside w c heap d l' -> l = l'.
Proof.
  rewrite /passed_inside. destruct (dl_nested d) as [r|]; [|congruence].
  intros (ls & H & ->) (ls' & H' & ->). f_equal. revert ls' H'.
  induction H; intros ls' H'; inversion H'; subst; [done|]. f_equal; [congruence|]. by apply IHForall2.
Qed.
Lemma required_eq d : (dl_cond d || match dl_default d with Some _ => true | None => false end) = negb (required d).
Proof. rewrite /required. by destruct (dl_cond d), (dl_default d). Qed.
Lemma check_cons d ds acc : check (d :: ds) acc =
  if required d then res_bind (nested_names d acc) (fun acc' =>
    if existsb (String.eqb (dl_name d)) acc' then check ds acc' else Exn XRuntime)
  else check ds acc.
Proof. cbn [check_arguments]. rewrite required_eq. by destruct (required d). Qed.
Lemma check_ok ds acc : check ds acc = Ok tt <->
  forall before d after, ds = before ++ d :: after -> required d = true ->
    exists extra, passed_for w c heap (before ++ [d]) extra /\ In (dl_name d) (acc ++ extra).
Proof.
  revert acc. induction ds as [|d ds IH]; intros acc.
  { split; [|done]. intros _ [] ? ? ?; simplify_eq. }
  rewrite check_cons. destruct (required d) eqn:Er.
  - destruct (nested_cases d acc) as [(l & Hl & ->)|(Hn & ->)]; simpl; last first.
    { split; [done|]. intros H. destruct (H [] d ds eq_refl Er) as (extra & (ls & Hf & ->) & _).
      simpl in Hf. rewrite Er in Hf. inversion Hf; subst. exfalso. by eapply Hn. }
    assert (Hd : passed_for w c heap [d] l).
    { exists [l]. simpl. rewrite Er app_nil_r. split; [|done]. by constructor. }
    destruct (existsb _ _) eqn:Ei; last first.
    { split; [done|]. intros H. destruct (H [] d ds eq_refl Er) as (extra & (ls & Hf & ->) & Hi).
      simpl in Hf. rewrite Er in Hf. apply Forall2_cons_inv_l in Hf as (y & l' & Hy & ->%Forall2_nil_inv_l & ->).
      rewrite /= app_nil_r in Hi. rewrite -(passed_inside_det _ _ _ Hl Hy) in Hi.
      apply existsb_in in Hi. congruence. }
    apply existsb_in in Ei. rewrite IH. split.
    + intros H [|d' before] d1 after E Hr; simplify_eq/=; [by exists l|].
      destruct (H before d1 after eq_refl Hr) as (extra & (ls & Hf & ->) & Hi).
      exists (l ++ concat ls). rewrite app_assoc. split; [|done]. exists (l :: ls). simpl. rewrite Er.
      split; [by constructor|done].
    + intros H before d1 after -> Hr.
      destruct (H (d :: before) d1 after eq_refl Hr) as (extra & (ls & Hf & ->) & Hi).
      simpl in Hf. rewrite Er in Hf. apply Forall2_cons_inv_l in Hf as (y & l' & Hy & Hl' & ->). rewrite (passed_inside_det _ _ _ Hl Hy).
      exists (concat l'). rewrite -app_assoc. split; [by exists l'|done].
  - rewrite IH. split.
    + intros H [|d' before] d1 after E Hr; simplify_eq/=; [congruence|].
      destruct (H before d1 after eq_refl Hr) as (extra & (ls & Hf & ->) & Hi).
      exists (concat ls). split; [|done]. exists ls. simpl. by rewrite Er.
    + intros H before d1 after -> Hr.
      destruct (H (d :: before) d1 after eq_refl Hr) as (extra & (ls & Hf & ->) & Hi).
      simpl in Hf. rewrite Er in Hf. exists (concat ls). split; [by exists ls|done].
Qed.
Lemma check_cases ds acc : check ds acc = Ok tt \/ check ds acc = Exn XRuntime \/ check ds acc = Exn XType.
Proof.
  revert acc. induction ds as [|d ds IH]; intros acc; [by left|]. rewrite check_cons.
  destruct (required d); [|apply IH].
  destruct (nested_cases d acc) as [(l & Hl & ->)|(Hn & ->)]; simpl; [|auto].
  destruct (existsb _ _); auto.
Qed.
End check.

(** ** Include actions *)
Section include.
Context (w : world).
Lemma perform_list_evals ls c c' ts : perform_list w ls c = (c', Ok ts) <-> evals w ls c c' ts.
Proof.
  split.
  - revert c c' ts. induction ls as [|l ls IH]; intros c c' ts; simpl.
    { intros [= <- <-]. constructor. }
    intros [(c1 & t & E1 & E2)|[(?&?&?)|[??]]]%bindS_inv; [|done..].
    revert E2. intros [(c2 & us & E2 & E3)|[(?&?&?)|[??]]]%bindS_inv; [|done..].
    injection E3 as -> <-. econstructor; eauto.
  - induction 1; [done|]. simpl. rewrite /bindS H IHevals. done.
Qed.
Lemma get_ld_ok src s s' loc ld : get_launch_description w src s = (s', Ok (loc, ld)) ->
  sframe (cx s) (cx s') /\ known_srcs s' src = Some ld
  /\ (forall ld0, known_srcs s src = Some ld0 -> ld = ld0)
  /\ (known_srcs s src = None -> exists n, w_load w src loc n = Ok ld).
Proof.
  rewrite /get_launch_description.
  intros [(s1 & l & E1 & E2)|[(?&?&?)|[??]]]%bindS_inv; [|done..].
  assert (sframe (cx s) (cx s1) /\ known_srcs s1 src = known_srcs s src) as [F1 K1].
  { revert E1. rewrite /known_srcs. destruct (srcs s !! src) as [[[l0|] ld0]|] eqn:Es.
    - intros [= <- <-]. rewrite Es. split; [apply sframe_refl|done].
    - intros [(s2 & t & (c & E & ->)%perform_st_inv & E3)|[(?&?&?)|[??]]]%bindS_inv; [|done..].
      injection E3 as <- <-. simpl. rewrite lookup_insert. split; [|done]. by eapply perform_substitutions_frames.
    - intros [(s2 & t & (c & E & ->)%perform_st_inv & E3)|[(?&?&?)|[??]]]%bindS_inv; [|done..].
      injection E3 as <- <-. simpl. rewrite lookup_insert. split; [|done]. by eapply perform_substitutions_frames. }
  revert E2. rewrite -K1 /known_srcs. destruct (srcs s1 !! src) as [[x [ld0|]]|] eqn:Es.
  - intros [= <- -> ->]. rewrite Es. split_and!; [done..| |done]. by intros ? [= <-].
  - destruct (w_load w src l (nonce (cx s1))) eqn:El; [|done..]. intros [= <- -> ->]. simpl.
    rewrite lookup_insert. split_and!; [|done..|by eexists]. eapply sframe_trans; [done|apply nonce_frame].
  - destruct (w_load w src l (nonce (cx s1))) eqn:El; [|done..]. intros [= <- -> ->]. simpl.
    rewrite lookup_insert. split_and!; [|done..|by eexists]. eapply sframe_trans; [done|apply nonce_frame].
Qed.
Lemma include_ok fuel a src args s s' ents :
  exec_action w fuel a (AInclude src args) s = (s', Ok ents) ->
  exists loc ld c1 names listing,
    known_srcs s' src = Some ld
    /\ (forall ld0, known_srcs s src = Some ld0 -> ld = ld0)
    /\ (known_srcs s src = None -> exists n, w_load w src loc n = Ok ld)
    /\ ents = map (fun kv => anon (ASetLC kv.1 kv.2)) args ++ [ELaunch ld]
    /\ same_variables (cx s) c1
    /\ evals w (map fst args)
         (c1 <| locals := <["current_launch_file_directory" := LStr (w_launchdir w loc)]>
                          (<["current_launch_file_path" := LStr (w_abspath w loc)]> (locals c1)) |>
             <| cache := None |>) (cx s') names
    /\ get_launch_arguments w (cx s') (known_srcs s') fuel ld false = Ok listing
    /\ argument_available w (cx s') (a_heap listing) (a_decls listing) names.
Proof.
  rewrite /exec_action /exec_include.
  intros [(s1 & [loc ld] & E1 & E)|[(?&?&?)|[??]]]%bindS_inv; [|done..].
  destruct (get_ld_ok _ _ _ _ _ E1) as (F & K & K1 & K2).
  apply bindS_inv in E as [(s2 & [] & [= <-] & E)|[(?&?&?)|[??]]]; [|done..].
  apply bindS_inv in E as [(s2 & [] & [= <-] & E)|[(?&?&?)|[??]]]; [|done..].
  apply bindS_inv in E as [(s2 & names & E2 & E)|[(?&?&?)|[??]]]; [|done..].
  revert E2. rewrite /on_ctx. destruct (perform_list w (map fst args) _) as [c r] eqn:E2. intros [= <- ->].
  apply perform_list_evals in E2.
  apply bindS_inv in E as [(s3 & [] & E3 & E)|[(?&?&?)|[??]]]; [|done..].
  injection E3 as <- E3. injection E as <- <-. cbn in *.
  change (known_srcs (set cx _ _)) with (known_srcs s1) in *.
  destruct (get_launch_arguments w c (known_srcs s1) fuel ld false) as [listing| |] eqn:El; [|done..].
  exists loc, ld, (cx s1), names, listing. split_and!; try done.
  - by apply sframe_same.
  - move: E2. rewrite /extend_locals !insert_union_singleton_l. by destruct (cx s1).
  - exact (proj1 (check_ok w c _ _ _) E3).
Qed.
(** The check decides between success and an exception. *)
Lemma include_checks fuel a src args s s1 loc ld c names listing :
  get_launch_description w src s = (s1, Ok (loc, ld)) ->
  evals w (map fst args)
         ((cx s1) <| locals := <["current_launch_file_directory" := LStr (w_launchdir w loc)]>
                          (<["current_launch_file_path" := LStr (w_abspath w loc)]> (locals (cx s1))) |>
             <| cache := None |>) c names ->
  get_launch_arguments w c (known_srcs s1) fuel ld false = Ok listing ->
  ~ argument_available w c (a_heap listing) (a_decls listing) names ->
  exists s' e, exec_action w fuel a (AInclude src args) s = (s', Exn e) /\ (e = XRuntime \/ e = XType).
Proof.
  intros E1 E2%perform_list_evals El Hn.
  rewrite /exec_action /exec_include /bindS E1 /modS /on_ctx /=.
  assert (extend_locals {["current_launch_file_directory" := LStr (w_launchdir w loc)]}
    (extend_locals {["current_launch_file_path" := LStr (w_abspath w loc)]} (cx s1)) =
    (cx s1) <| locals := <["current_launch_file_directory" := LStr (w_launchdir w loc)]>
                          (<["current_launch_file_path" := LStr (w_abspath w loc)]> (locals (cx s1))) |>
             <| cache := None |>) as ->.
  { rewrite /extend_locals !insert_union_singleton_l. by destruct (cx s1). }
  rewrite E2 /=. change (known_srcs (set cx _ _)) with (known_srcs s1). rewrite El /=.
  destruct (check_cases w c (a_heap listing) (a_decls listing) names) as [H|[H|H]]; rewrite H; eauto.
  by destruct (Hn (proj1 (check_ok w c _ _ _) H)).
Qed.

(** ** Visiting what an include returns *)
Lemma visit_set_lc fuel n v s s' subs :
  visit_one w fuel (anon (ASetLC n v)) s = (s', Ok subs) ->
  subs = [] /\ exists c1 k x q, evals w [v; n] (cx s) c1 [x; k]
    /\ Forall (fun e => exists a, e = EvComplete a) q
    /\ cx s' = c1 <| lc := <[k := x]> (lc c1) |> <| queue := queue c1 ++ q |>.
Proof.
  rewrite /visit_one /anon.
  intros [(s1 & b & [= <- <-] & E)|[(?&?&?)|[??]]]%bindS_inv; [|done..].
  revert E. destruct (exec_action _ _ _ _ _) as [s2 r] eqn:E. intros [= <- ->].
  apply set_lc_law in E as (c & _ & [(k & x & He & [= ->] & ->)|(?&?&?&?)]); [|done..].
  split; [done|]. rewrite /complete_action. case_match.
  - simpl. exists c, k, x, [EvComplete (Gen 0)]. split_and!; [done|by repeat constructor; eexists|].
    by destruct s, c.
  - exists c, k, x, []. rewrite app_nil_r. split_and!; [done|constructor|]. by destruct s, c.
Qed.
Lemma sets_visit args : forall s ts fs s', visit_runs w (set_lcs args) s ts fs s' ->
  fs = [] /\ sets w args (cx s) (cx s').
Proof.
  induction args as [|[n v] args IH]; intros s ts fs s' H.
  { inversion H; subst. split; [done|constructor]. }
  inversion H as [|e l s0 t fs1 s1 ts' gs s2 H1 H2]; subst.
  inversion H1 as [fuel e s0 sb s3 kids fs0 s4 Hv Hs]; subst.
  apply visit_set_lc in Hv as (-> & c1 & k & x & q & He & Hq & Ec).
  inversion Hs; subst. destruct (IH _ _ _ _ H2) as [-> Hset]. split; [done|].
  econstructor; [done|done|]. by rewrite -Ec.
Qed.
Lemma include_visit a src args s t fs s' :
  visit_run w (EAct a None (AInclude src args)) s t fs s' ->
  exists fuel s1 s2 s3 ld ts t2,
    exec_action w fuel a (AInclude src args) s1 = (s2, Ok (set_lcs args ++ [ELaunch ld]))
    /\ cx s1 = cx s /\ (cx s3 = cx s2 \/ cx s3 = (cx s2) <| queue := queue (cx s2) ++ [EvComplete a] |>)
    /\ t = VNode (EAct a None (AInclude src args)) (ts ++ [t2])
    /\ exists s4, visit_runs w (set_lcs args) s3 ts [] s4 /\ sets w args (cx s3) (cx s4)
               /\ visit_run w (ELaunch ld) s4 t2 fs s'.
Proof.
  intros H. inversion H as [fuel e s0 sb s3 kids fs0 s4 Hv Hs]; subst.
  revert Hv. rewrite /visit_one.
  intros [(s1 & b & [= <- <-] & E)|[(?&?&?)|[??]]]%bindS_inv; [|done..].
  revert E. destruct (exec_action _ _ _ _ _) as [s2 r] eqn:E. intros [= <- ->].
  destruct (include_ok _ _ _ _ _ _ _ E) as (loc & ld & _ & _ & _ & _ & _ & _ & -> & _).
  apply visit_runs_app in Hs as (ts1 & ts2 & fs1 & fs2 & s5 & -> & -> & H1 & H2).
  destruct (sets_visit _ _ _ _ _ H1) as [-> Hset].
  inversion H2 as [|e l s6 t fs3 s7 ts' gs s8 H3 H4]; subst. inversion H4; subst.
  eexists fuel, _, s2, (complete_action w (EAct a None (AInclude src args)) a (obs1 (OExecDone a) s2)), ld, ts1, t. split_and!; [exact E| | |done|].
  - by destruct s.
  - rewrite /complete_action. case_match; [right|left]; by destruct s2.
  - exists s5. simpl. rewrite /future_of /= !app_nil_r. done.
Qed.
End include.

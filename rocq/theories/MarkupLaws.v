(** From parse methods to what elements stand for (C88). *)
From Coq Require Import ssreflect.
From Verif Require Import SpecSubst SpecMarkup TypeFacts FrontendFacts MarkupFacts.

Section laws.
Context (yaml : string -> option (pv subst)) (parse_sub : string -> res (list subst)).
Notation K := (string * list (string * kval))%type.
Context (construct : K -> res act).
Notation builtin := (builtin parse_sub).
Notation stands := (stands yaml parse_sub construct).

(** Attributes that are not there *)
Lemma absent_iff el A N C : nothing_else el A N C -> (C = true -> exists ks, kids_of el ks) -> forall n, absent el n <-> ~ has_attr el n.
Proof.
  intros H HC n. destruct el as [e|t v]; [done|]. destruct v as [| | | | |l|d]; try done; simpl in *.
  - destruct (HC H) as [ks Hk]. inversion Hk as [|t' l' ks' Hl| | |]; subst. split; [by intros _ []|]. intros _. f_equal. apply not_true_iff_false. intros Hx. apply existsb_exists in Hx as (x & Hx & Hs).
    clear -Hl Hx Hs. induction Hl as [|v k l ks (t' & w & -> & ->) Hl IH]; [done|]. destruct Hx as [<-|Hx]; [done|by apply IH].
  - destruct (assoc n d) as [w|] eqn:E; simpl.
    + split; [done|]. intros Hn. destruct Hn. by eapply assoc_in.
    + split; [|done]. intros _. by apply assoc_not_in.
Qed.
Lemma cond_iff el base : (forall n, absent el n <-> ~ has_attr el n) -> condition' yaml parse_sub el base <-> condition yaml parse_sub el base.
Proof.
  intros Ha. split; inversion 1; subst.
  - apply c_none; by apply Ha.
  - eapply c_if; [done|by apply Ha|done].
  - eapply c_unless; [done|by apply Ha|done].
  - apply c'_none; by apply Ha.
  - eapply c'_if; [done|by apply Ha|done].
  - eapply c'_unless; [done|by apply Ha|done].
Qed.
Lemma gives_iff el c kw : (forall n, absent el n <-> ~ has_attr el n) -> gives2 yaml parse_sub el c kw <-> gives yaml parse_sub el c kw.
Proof.
  intros Ha. assert (forall n, no_nested' el n <-> no_nested el n) as Hn by (intros n; destruct el; simpl; [done|apply Ha]).
  destruct c as [n key r h|n key|n key]; cbn [gives2].
  - split; inversion 1; subst; [by constructor|constructor; by apply Ha|by constructor|constructor; by apply Ha].
  - split.
    + intros [[H ->]|(ks & Hk & l & Hl & ->)]; [constructor; by apply Hn|by econstructor].
    + inversion 1; subst; [right; by eexists _; split; [done|]; eexists|left; split; [by apply Hn|done]].
  - split.
    + intros [[H ->]|(ks & Hk & l & Hl & ->)]; [constructor; by apply Hn|by econstructor].
    + inversion 1; subst; [right; by eexists _; split; [done|]; eexists|left; split; [by apply Hn|done]].
Qed.
Lemma all_gives_iff el cs kws : (forall n, absent el n <-> ~ has_attr el n) -> Forall2 (gives2 yaml parse_sub el) cs kws <-> Forall2 (gives yaml parse_sub el) cs kws.
Proof. intros Ha. split; intros H; (induction H as [|c kw cs kws Hc H IH]; constructor; [by apply gives_iff|done]). Qed.

(** [n] levels *)
Definition all_of (r : rowspec) : list column := r_before r ++ match r_kids r with NoKids => [] | _ => r_after r end.
Definition with_kids (r : rowspec) : bool := match r_kids r with NoKids => false | _ => true end.
Definition one (D : elem -> act -> Prop) (el : elem) (a : act) : Prop :=
  exists r k, assoc (tag_of el) rows = Some r /\ row_ok yaml parse_sub D el r k
    /\ nothing_else el ("if" :: "unless" :: attr_names (all_of r))%string (nest_names (r_before r)) (with_kids r) /\ construct k = Ok a.
Fixpoint means (n : nat) (el : elem) (a : act) : Prop := match n with O => False | S n => one (means n) el a end.
Lemma nothing_else_eq el A A' N N' C : (forall a, In a A <-> In a A') -> (forall a, In a N <-> In a N') -> nothing_else el A N C <-> nothing_else el A' N' C.
Proof.
  intros HA HN. rewrite (nothing_else_perm yaml parse_sub el A A' N C HA). destruct el as [e|t [| | | | | |d]]; simpl; try done.
  - split; intros [H1 H2]; (split; [done|]); intros k Hk; (destruct (H2 k Hk) as [|H]; [by left|right; by apply HN]).
  - split; intros H1 a Ha; specialize (H1 a Ha); rewrite !in_app_iff in H1 |- *; specialize (HN a); tauto.
Qed.
Notation parse := (parse_action yaml builtin construct).
Lemma act_ok n : acts_as (parse n) (means n).
Proof.
  induction n as [|n IH]; intros hp g el He; [simpl; auto|].
  cbn [parse_action]. rewrite /act_with He.
  assert (type_name (new_ent el) = tag_of el) as -> by by destruct el.
  assert (builtin (tag_of el) = match assoc (tag_of el) (table parse_sub) with Some m => Some (fun h => m h (fun x => Ret (Ok x))) | None => None end) as -> by done.
  destruct (assoc (tag_of el) (table parse_sub)) as [m|] eqn:Em.
  2:{ intros b (r & k & Hr & _). apply tags_known in Em. congruence. }
  destruct (assoc (tag_of el) rows) as [r|] eqn:Er; [|apply (tags_known parse_sub) in Er; congruence].
  assert (holds g el [] [] false ([g], hp)) as Hs. { split; [by left|]. exists (new_ent el). split; [done|apply tracks_new]. }
  destruct (methods_ok yaml parse_sub (parse n) (means n) IH _ _ _ g el Em Er _ Hs) as [(k & s' & HR & HP & HF & HE)|[HR HE]].
  - specialize (HE (fun x => Ret (Ok x))). unfold ev in HE. cbn [run_with fst snd] in HE.
    destruct (run_with yaml (parse n) [g] hp (m g (fun x => Ret (Ok x)))) as [[hp' tr] r'] eqn:Erun. destruct r' as [k'|err|]; try done. injection HE as -> ->.
    destruct HP as (A & N & [_ (e & He' & Ht)] & HA & HN). rewrite /h_assert He'. pose proof (tracks_done _ _ _ _ _ Ht) as Hd.
    rewrite (nothing_else_eq _ _ _ _ _ _ HA HN) in Hd.
    assert (forall b, one (means n) el b <-> nothing_else el ("if" :: "unless" :: attr_names (all_of r))%string (nest_names (r_before r)) (with_kids r) /\ construct k = Ok b) as Hone.
    { intros b. split.
      - intros (r2 & k2 & Hr2 & Hk2 & Hne & Hc). assert (r2 = r) as -> by congruence. apply HR in Hk2 as ->. done.
      - intros [Hne Hc]. exists r, k. split; [done|]. split; [by apply HR|done]. }
    destruct (e_assert e) as [[]|err|] eqn:Ea.
    + assert (forall b, one (means n) el b <-> construct k = Ok b) as Hb. { intros b. rewrite Hone. split; [by intros []|]. intros H. split; [by apply Hd|done]. }
      destruct (construct k) as [a|err|] eqn:Ek.
      * split; [|apply HF]. intros b. simpl. rewrite Hb. split; congruence.
      * intros b H. simpl in H. apply Hb in H. done.
      * intros b H. simpl in H. apply Hb in H. done.
    + intros b H. simpl in H. apply Hone in H as [H _]. apply Hd in H. done.
    + intros b H. simpl in H. apply Hone in H as [H _]. apply Hd in H. done.
  - specialize (HE (fun x => Ret (Ok x))). unfold ev in HE. cbn [run_with fst snd] in HE.
    assert (forall b, ~ one (means n) el b) as Hno. { intros b (r2 & k2 & Hr2 & Hk2 & _). assert (r2 = r) as -> by congruence. by apply (HR k2). }
    destruct (run_with yaml (parse n) [g] hp (m g (fun x => Ret (Ok x)))) as [[hp' tr] r'] eqn:Erun. by destruct r' as [k'|err|].
Qed.

(** ** Any number of levels *)
Lemma row_mono (D D' : elem -> act -> Prop) el r k : (forall e a, D e a -> D' e a) -> row_ok yaml parse_sub D el r k -> row_ok yaml parse_sub D' el r k.
Proof.
  intros H (base & kws & Hb & Hk & Hm). exists base, kws. split; [done|]. split; [done|].
  destruct (r_kids r); [done| |]; destruct Hm as (ks & acts & kws' & H1 & H2 & H3 & H4); exists ks, acts, kws'; (split; [done|]; split; [|done]); by eapply Forall2_impl.
Qed.
Lemma means_S n el a : means n el a -> means (S n) el a.
Proof.
  revert el a. induction n as [|n IH]; intros el a; [done|]. intros (r & k & H1 & H2 & H3). exists r, k. split; [done|]. split; [|done]. eapply row_mono; [|exact H2]. exact IH.
Qed.
Lemma means_le n m el a : (n <= m)%nat -> means n el a -> means m el a.
Proof. induction 1; [done|]. intros Hn. apply means_S. auto. Qed.
Definition means_any (el : elem) (a : act) : Prop := exists n, means n el a.
Lemma means_all ks acts : Forall2 means_any ks acts -> exists n, Forall2 (means n) ks acts.
Proof.
  induction 1 as [|k a ks acts [n Hn] _ [m Hm]]; [exists O; constructor|]. exists (max n m). constructor; [by eapply means_le; [|exact Hn]; lia|].
  eapply Forall2_impl; [exact Hm|]. intros e b. apply means_le. lia.
Qed.
Lemma kids_cond el r ks : with_kids r = true -> kids_of el ks -> with_kids r = true -> exists ks, kids_of el ks. Proof. eauto. Qed.
Lemma names_app a b : attr_names (a ++ b) = attr_names a ++ attr_names b. Proof. apply flat_map_app. Qed.
Lemma one_stands el a (D : elem -> act -> Prop) : (forall e b, D e b -> stands e b) -> one D el a -> stands el a.
Proof.
  intros HD (r & k & Hr & (base & kws & Hb & Hk & Hm) & Hne & Hc). rewrite /all_of /with_kids in Hne.
  destruct (r_kids r) eqn:Ek.
  - subst k. assert (forall n, absent el n <-> ~ has_attr el n) as Ha by (eapply absent_iff; [exact Hne|done]). rewrite app_nil_r in Hne.
    eapply stands_leaf; [done|done|by apply cond_iff|by apply all_gives_iff|done|done].
  - destruct Hm as (ks & acts & kws' & H1 & H2 & H3 & ->). assert (forall n, absent el n <-> ~ has_attr el n) as Ha by (eapply absent_iff; [exact Hne|eauto]).
    eapply stands_kids; [done|by rewrite Ek|by apply cond_iff|by apply all_gives_iff|done|rewrite Ek; eapply Forall2_impl; [exact H2|done]|by apply all_gives_iff|done|done].
  - destruct Hm as (ks & acts & kws' & H1 & H2 & H3 & ->). assert (forall n, absent el n <-> ~ has_attr el n) as Ha by (eapply absent_iff; [exact Hne|eauto]).
    eapply stands_kids; [done|by rewrite Ek|by apply cond_iff|by apply all_gives_iff|done|rewrite Ek; eapply Forall2_impl; [exact H2|done]|by apply all_gives_iff|done|done].
Qed.
Lemma means_stands n el a : means n el a -> stands el a.
Proof. revert el a. induction n as [|n IH]; intros el a; [done|]. by apply one_stands. Qed.
Lemma stands_means : forall el a, stands el a -> means_any el a.
Proof.
  fix IH 3. intros el a H. destruct H as [el r base kws a Hr Hk Hb Hg Hne Hc|el r base kws ks acts kws' a Hr Hk Hb Hg Hks Hacts Hg' Hne Hc].
  - exists 1%nat. exists r, (r_class r, base ++ concat kws). rewrite /all_of /with_kids Hk app_nil_r. split; [done|]. split; [|done].
    assert (forall n, absent el n <-> ~ has_attr el n) as Ha by (eapply absent_iff; [exact Hne|done]).
    exists base, kws. rewrite Hk. split; [by apply cond_iff|]. split; [by apply all_gives_iff|done].
  - assert (Forall2 means_any (kept (r_kids r) ks) acts) as HM. { clear -Hacts IH. induction Hacts as [|k b ks' bs Hkb Hrest IHr]; constructor; [by apply IH|exact IHr]. }
    apply means_all in HM as [n Hn]. exists (S n). exists r, (r_class r, base ++ concat kws ++ [("actions"%string, KActs acts)] ++ concat kws').
    assert (forall n, absent el n <-> ~ has_attr el n) as Ha by (eapply absent_iff; [exact Hne|eauto]).
    split; [done|]. rewrite /all_of /with_kids /row_ok. destruct (r_kids r); [done| |].
    + split; [|done]. exists base, kws. split; [by apply cond_iff|]. split; [by apply all_gives_iff|]. exists ks, acts, kws'. split; [done|]. split; [done|]. split; [by apply all_gives_iff|done].
    + split; [|done]. exists base, kws. split; [by apply cond_iff|]. split; [by apply all_gives_iff|]. exists ks, acts, kws'. split; [done|]. split; [done|]. split; [by apply all_gives_iff|done].
Qed.
Lemma stands_iff el a : stands el a <-> means_any el a.
Proof. split; [apply stands_means|]. intros [n Hn]. by eapply means_stands. Qed.

(** ** Results *)
Definition result {X} (o : outcome X) : res X := o.2.
Lemma action_sound n hp h el a : hp !! h = Some (new_ent el) -> result (parse n hp h) = Ok a -> stands el a.
Proof.
  intros He Hr. pose proof (act_ok n hp h el He) as H. destruct (parse n hp h) as [[hp' tr] r]. simpl in Hr. subst r. destruct H as [H _].
  eapply means_stands. by apply H.
Qed.
Lemma action_means n hp h el a : hp !! h = Some (new_ent el) -> means n el a -> result (parse n hp h) = Ok a.
Proof.
  intros He Hm. pose proof (act_ok n hp h el He) as H. destruct (parse n hp h) as [[hp' tr] [b|err|]]; simpl; [|by destruct (H a)|by destruct (H a)].
  destruct H as [H _]. apply H in Hm. congruence.
Qed.
Lemma action_complete hp h el a : hp !! h = Some (new_ent el) -> stands el a -> exists n0, forall n, (n0 <= n)%nat -> result (parse n hp h) = Ok a.
Proof. intros He Hs. apply stands_means in Hs as [n0 Hn]. exists n0. intros n Hle. apply action_means with el; [done|]. by eapply means_le. Qed.
Lemma each_result n hs ks hp : List.NoDup hs -> Forall2 (fun h k => hp !! h = Some (new_ent k)) hs ks ->
  match parse_each yaml builtin construct n hp hs with
  | (_, _, Ok l) => Forall2 (means n) ks l
  | (_, _, _) => forall l, ~ Forall2 (means n) ks l
  end.
Proof.
  intros Hnd. revert ks hp. induction Hnd as [|h hs Hh Hnd IH]; intros ks hp Hks.
  - inversion Hks; subst. simpl. constructor.
  - inversion Hks as [|? k ? ks' Hk Hrest]; subst. cbn [parse_each]. pose proof (act_ok n hp h k Hk) as Ha.
    destruct (parse n hp h) as [[hp' tr] [a|err|]].
    + destruct Ha as [Ha HF]. assert (Forall2 (fun h k => hp' !! h = Some (new_ent k)) hs ks') as Hrest'.
      { clear -Hrest HF Hh. induction Hrest as [|g k' hs ks' Hg Hrest IHr]; constructor.
        - destruct HF as [_ HF]. rewrite HF //; [by apply lookup_lt_Some in Hg|]. intros [<-|[]]. apply Hh. by left.
        - apply IHr. intros Hi. apply Hh. by right. }
      specialize (IH ks' hp' Hrest'). destruct (parse_each yaml builtin construct n hp' hs) as [[hp2 tr2] [l|err|]]; simpl.
      * constructor; [by apply Ha|done].
      * intros l Hl. inversion Hl; subst. by eapply IH.
      * intros l Hl. inversion Hl; subst. by eapply IH.
    + intros l Hl. inversion Hl; subst. by eapply Ha.
    + intros l Hl. inversion Hl; subst. by eapply Ha.
Qed.
Lemma means_det n el a b : means n el a -> means n el b -> a = b.
Proof.
  intros H1 H2. pose proof (action_means n [new_ent el] 0 el a eq_refl H1). pose proof (action_means n [new_ent el] 0 el b eq_refl H2). congruence.
Qed.
Lemma stands_det el a b : stands el a -> stands el b -> a = b.
Proof.
  intros [n Hn]%stands_iff [m Hm]%stands_iff. apply (means_det (max n m) el); [by eapply means_le; [|exact Hn]; lia|by eapply means_le; [|exact Hm]; lia].
Qed.
Lemma all_means_det n ks l l' : Forall2 (means n) ks l -> Forall2 (means n) ks l' -> l = l'.
Proof. intros H. revert l'. induction H as [|k a ks l Hk H IH]; intros l'; inversion 1; subst; [done|]. f_equal; [by eapply means_det|by apply IH]. Qed.
Definition deprecated_ok (el : elem) : Prop := ~ has_attr el "deprecated" \/ exists s, attr_text yaml el "deprecated" s.
Lemma description_means n el l : result (parse_description yaml builtin construct n (new_ent el)) = Ok l <->
  tag_of el = "launch"%string /\ deprecated_ok el /\ exists ks, kids_of el ks /\ Forall2 (means n) ks l.
Proof.
  rewrite /parse_description. assert (type_name (new_ent el) = tag_of el) as -> by by destruct el.
  destruct (String.eqb_spec (tag_of el) "launch") as [Ht|Ht]; cbn [negb].
  2:{ split; [done|]. by intros [H _]. }
  set (act0 := fun (hp : heap) (_ : nat) => ((hp, [], OutOfFuel) : outcome act)).
  assert (holds 0 el [] [] false ([0%nat], [new_ent el])) as Hs. { split; [by left|]. exists (new_ent el). split; [done|apply tracks_new]. }
  pose proof (does_attr yaml parse_sub act0 0 el [] [] false "deprecated" TStr true _ Hs) as Hd.
  pose proof (fun k => ev_attr yaml act0 ([0%nat], [new_ent el]) 0 "deprecated" (RVal (Some (DScalar TStr))) true true k) as Hev. simpl in Hev.
  assert (forall ks, kids_of el ks -> (absent el "deprecated" <-> ~ has_attr el "deprecated")) as Hab.
  { intros ks Hk. destruct el as [e|t v]; [done|]. eapply (absent_iff _ (match v with YDict d => map fst d | _ => [] end) [] true); [|eauto].
    inversion Hk; subst; simpl; try done; intros a Ha; left; rewrite app_nil_r; done. }
  destruct (h_get yaml [new_ent el] 0 "deprecated" (RVal (Some (DScalar TStr))) true true) as [hp r] eqn:Eg.
  destruct Hd as [(x & s' & HR & HP & HF & HE)|[HR HE]].
  - assert (deprecated_ok el) as Hdep.
    { assert (got_val yaml el "deprecated" TStr true x) as Hx by by apply HR. destruct x as [[v|l']|]; [right|destruct Hx|left]; simpl in Hx.
      - destruct (attr_val_text _ _ _ _ Hx) as [s ->]. by exists s.
      - destruct Hx as [_ Hx]. destruct el as [e|t v]; [done|]. simpl in Hx |- *. destruct v as [| | | | | |d]; try (by intros []). simpl in Hx. destruct (assoc "deprecated" d) eqn:E; [done|]. by apply assoc_not_in in E. }
    specialize (HE (fun _ => Ret (Ok ("", [])))). rewrite Hev in HE. unfold ev in HE. cbn [run_with fst snd] in HE.
    destruct r as [r0|err|]; [|done..]. injection HE as ->. destruct HP as [_ (e & He & Htr)]. pose proof (proj1 Htr) as Hel.
    rewrite /h_children He. destruct (e_children e) as [e' rc] eqn:Ec. destruct rc as [es|err|].
    + pose proof (e_children_new _ _ _ Ec) as Hnew. pose proof (e_children_answer _ _ _ Ec) as Hkids. rewrite Hel in Hkids. set (ks := map el_of es) in *.
      rewrite /alloc insert_length.
      assert (Forall2 (fun h k => (<[0%nat:=e']> s'.2 ++ es) !! h = Some (new_ent k)) (seq (length s'.2) (length es)) ks) as Hall.
      { pose proof (seq_new (<[0%nat:=e']> s'.2) es [] ks Hnew) as Hq. rewrite insert_length in Hq. eapply Forall2_impl; [exact Hq|]. intros h k [_ (e2 & He2 & ->)]. exact He2. }
      pose proof (each_result n _ _ _ (seq_NoDup _ _) Hall) as Hr.
      destruct (parse_each yaml builtin construct n (<[0%nat:=e']> s'.2 ++ es) (seq (length s'.2) (length es))) as [[hp2 tr2] [l2|err|]]; rewrite /result; cbn [snd].
      * split.
        -- intros [= <-]. split; [done|]. split; [done|]. by exists ks.
        -- intros (_ & _ & ks' & Hk' & Hl). rewrite (kids_fun _ _ _ Hk' Hkids) in Hl. f_equal. by eapply all_means_det.
      * split; [done|]. intros (_ & _ & ks' & Hk' & Hl). rewrite (kids_fun _ _ _ Hk' Hkids) in Hl. by destruct (Hr l).
      * split; [done|]. intros (_ & _ & ks' & Hk' & Hl). rewrite (kids_fun _ _ _ Hk' Hkids) in Hl. by destruct (Hr l).
    + split; [done|]. intros (_ & _ & ks' & Hk' & Hl). rewrite -Hel in Hk'. apply kids_complete in Hk' as (e2 & Hk'). rewrite Ec in Hk'. done.
    + split; [done|]. intros (_ & _ & ks' & Hk' & Hl). rewrite -Hel in Hk'. apply kids_complete in Hk' as (e2 & Hk'). rewrite Ec in Hk'. done.
  - specialize (HE (fun _ => Ret (Ok ("", [])))). rewrite Hev in HE. unfold ev in HE. cbn [run_with fst snd] in HE.
    assert (~ (deprecated_ok el /\ exists ks, kids_of el ks)) as Hno.
    { intros [[Hn|[s Hs']] (ks & Hk)]; [apply (HR None); split; [done|]; by eapply Hab|by apply (HR (Some (HVal (PStr s))))]. }
    destruct r as [r0|err|]; [done| |]; (split; [done|]; intros (_ & Hd & ks & Hk & _); destruct Hno; eauto).
Qed.
Lemma description_sound n el l : result (parse_description yaml builtin construct n (new_ent el)) = Ok l ->
  tag_of el = "launch"%string /\ deprecated_ok el /\ exists ks, kids_of el ks /\ Forall2 stands ks l.
Proof.
  intros (H1 & H2 & ks & Hk & Hl)%description_means. split; [done|]. split; [done|]. exists ks. split; [done|]. eapply Forall2_impl; [exact Hl|]. intros. by eapply means_stands.
Qed.
Lemma description_complete el l ks : tag_of el = "launch"%string -> deprecated_ok el -> kids_of el ks -> Forall2 stands ks l ->
  exists n0, forall n, (n0 <= n)%nat -> result (parse_description yaml builtin construct n (new_ent el)) = Ok l.
Proof.
  intros H1 H2 Hk Hl. assert (Forall2 means_any ks l) as [n0 Hn]%means_all by (eapply Forall2_impl; [exact Hl|]; intros e a; apply stands_means).
  exists n0. intros n Hle. apply description_means. split; [done|]. split; [done|]. exists ks. split; [done|]. eapply Forall2_impl; [exact Hn|]. intros e a. by apply means_le.
Qed.
End laws.

(** Lemmas about XML and YAML that say the same (C89). *)
From Coq Require Import ssreflect.
From Verif Require Import SpecSubst SpecMarkup TypeFacts FrontendFacts MarkupFacts MarkupLaws.

Lemma row_facts tag r n key q h : assoc tag rows = Some r -> In (Attr n key q h) (all_of r) -> expects r n = type_of_how h /\ ~ reserved r n.
Proof.
  rewrite /rows. cbn [assoc].
  repeat match goal with |- (if ?b then _ else _) = _ -> _ => destruct b; [intros [= <-]; rewrite /all_of /reserved; cbn [r_before r_kids r_after r_class app nest_names flat_map has_kids opt req]; intros Hin|] end; [..|done].
  all: repeat (destruct Hin as [Hin|Hin]; [first [discriminate Hin|injection Hin as <- <- <- <-]|]).
  all: try done.
  all: split; [reflexivity|].
  all: intros [Hr|[Hr1 Hr2]].
  all: try done. all: repeat destruct Hr as [[=]|Hr]; done.
Qed.
Lemma base_free tag r n : assoc tag rows = Some r -> n = "if"%string \/ n = "unless"%string -> expects r n = TStr /\ ~ reserved r n.
Proof.
  rewrite /rows. cbn [assoc].
  repeat match goal with |- (if ?b then _ else _) = _ -> _ => destruct b; [intros [= <-]; rewrite /reserved; cbn [r_before r_kids r_after r_class app nest_names flat_map has_kids opt req]|] end; [..|done].
  all: intros [->| ->]; (split; [reflexivity|]).
  all: intros [Hr|[Hr1 Hr2]].
  all: try done. all: repeat destruct Hr as [[=]|Hr]; done.
Qed.
Lemma nest_facts tag r : assoc tag rows = Some r -> nest_names (all_of r) = nest_names (r_before r) /\ ~ In "children"%string (nest_names (r_before r))
  /\ (r_kids r = AllKids -> nest_names (r_before r) = []) /\ (r_kids r = ButKeep -> nest_names (r_before r) = ["keep"%string]).
Proof.
  rewrite /rows. cbn [assoc].
  repeat match goal with |- (if ?b then _ else _) = _ -> _ => destruct b; [intros [= <-]|] end; [..|done].
  all: split; [reflexivity|]; split; [|split; done].
  all: simpl; intros Hr; repeat destruct Hr as [[=]|Hr]; done.
Qed.
Section same.
Context (yaml : string -> option (pv subst)) (parse_sub : string -> res (list subst)).
Lemma filled_same el el' n key h kw : (forall v, attr_val yaml el n (type_of_how h) v <-> attr_val yaml el' n (type_of_how h) v) -> filled yaml parse_sub el n key h kw -> filled yaml parse_sub el' n key h kw.
Proof.
  intros H. inversion 1 as [s l Ht Hp|s l Ht Hs Hp|Ht|s Ht|s l c Ht Hl Hc|Ht|t v Hv|b f Hv Hn|t s l x Hv Hl Hn|t v Hv Hn]; subst; simpl in H.
  - apply H in Ht. by eapply f_subs.
  - apply H in Ht. by eapply f_reason.
  - apply H in Ht. by apply f_no_reason.
  - apply H in Ht. by apply f_plain.
  - apply H in Ht. by eapply f_command.
  - apply H in Ht. by apply f_shutdown.
  - apply H in Hv. by apply f_val.
  - apply H in Hv. by apply f_seconds.
  - apply H in Hv. by eapply f_norm_text.
  - apply H in Hv. by apply f_norm.
Qed.
Lemma texts_attr k n w d v : w = YDict d -> (forall n, ~ In (n ++ "-sep")%string (map fst (x_attrs k))) ->
  (forall n, assoc n d = match assoc n (x_attrs k) with Some s => Some (YStr s) | None => None end) -> forall t, attr_val yaml (ElX k) n TStr v <-> attr_val yaml (ElY t w) n TStr v.
Proof.
  intros -> Hs Hd t. specialize (Hd n). split.
  - inversion 1 as [e n' t' s v' E1 E2 E3|]; subst. rewrite E1 in Hd. inversion E3; subst. apply (av_yaml yaml t d n TStr (YStr s)); [done|]. left. constructor.
  - inversion 1 as [|tag d' n' t' w' E1 E2]; subst. rewrite E1 in Hd. destruct (assoc n (x_attrs k)) as [s|] eqn:Es; [|done]. injection Hd as ->. apply (av_xml yaml k n TStr s); [done|done|constructor].
Qed.
Lemma texts_pair k w t p : same_texts k w -> pair_of yaml parse_sub (ElX k) p <-> pair_of yaml parse_sub (ElY t w) p.
Proof.
  intros (d & -> & Hk & Hs & Hd). assert (nothing_else (ElX k) ["name"; "value"]%string [] false <-> nothing_else (ElY t (YDict d)) ["name"; "value"]%string [] false) as Hn.
  { simpl. rewrite Hk. assert (forall a, In a (map fst (x_attrs k)) <-> In a (map fst d)) as Hin.
    { intros a. specialize (Hd a). destruct (assoc a (x_attrs k)) as [s|] eqn:E.
      - split; intros _; by eapply assoc_in.
      - apply assoc_not_in in E, Hd. tauto. }
    split; [intros [H _] a Ha; left; apply H; by apply Hin|]. intros H. split; [|done]. intros a Ha. by destruct (H a (proj1 (Hin a) Ha)) as [|[? _]]. }
  rewrite /pair_of. split.
  - intros (s1 & s2 & H1 & H2 & H3 & H4 & H5). exists s1, s2. rewrite /attr_text. split; [by apply (texts_attr k _ (YDict d) d)|]. split; [done|]. split; [by apply (texts_attr k _ (YDict d) d)|]. split; [done|by apply Hn].
  - intros (s1 & s2 & H1 & H2 & H3 & H4 & H5). exists s1, s2. rewrite /attr_text. split; [by apply (texts_attr k _ (YDict d) d _ eq_refl Hs Hd t)|]. split; [done|]. split; [by apply (texts_attr k _ (YDict d) d _ eq_refl Hs Hd t)|]. split; [done|by apply Hn].
Qed.
Lemma texts_choice k w t s : same_texts k w -> choice_of yaml (ElX k) s <-> choice_of yaml (ElY t w) s.
Proof.
  intros (d & -> & Hk & Hs & Hd). split; intros (s1 & H1 & ->); exists s1; (split; [|done]); by apply (texts_attr k _ (YDict d) d _ eq_refl Hs Hd t).
Qed.
Lemma texts_all {Y} (B : elem -> Y -> Prop) t xs ws (l : list Y) : (forall k w y, same_texts k w -> B (ElX k) y <-> B (ElY t w) y) -> Forall2 same_texts xs ws -> Forall2 B (map ElX xs) l <-> Forall2 B (map (ElY t) ws) l.
Proof.
  intros HB H. revert l. induction H as [|k w xs ws Hk H IH]; intros l; [done|]. simpl. split; inversion 1; subst; constructor; try (by apply (HB k w)); by apply IH.
Qed.

(** An element and its mapping *)
Context (e : xml) (d : list (string * yv)) (r : rowspec) (D : elem -> act -> Prop).
Notation X := (ElX e).
Notation Y := (ElY (x_tag e) (YDict d)).
Context (HO : same_own yaml e d r).
Let Hr := so_row yaml e d r HO. Let Hsep := so_sep yaml e d r HO. Let Hres := so_reserved yaml e d r HO. Let Hattr := so_attrs yaml e d r HO. Let Hnest := so_nested yaml e d r HO.
Lemma has_same n : ~ reserved r n -> In n (map fst (x_attrs e)) <-> In n (map fst d).
Proof.
  intros H. pose proof (Hattr n H) as Ha0. destruct (assoc n (x_attrs e)) as [s|] eqn:E1, (assoc n d) as [w|] eqn:E2; try done.
  - split; intros _; by eapply assoc_in.
  - apply assoc_not_in in E1, E2. tauto.
Qed.
Lemma absent_same n : ~ reserved r n -> absent X n <-> absent Y n.
Proof.
  intros H. cbn [absent y_in]. rewrite has_same //. destruct (assoc n d) as [w|] eqn:E.
  - split; [|done]. intros Hn. destruct Hn. by eapply assoc_in.
  - split; [done|]. intros _. by apply assoc_not_in.
Qed.
Lemma val_same n v : ~ reserved r n -> attr_val yaml X n (expects r n) v <-> attr_val yaml Y n (expects r n) v.
Proof.
  intros H. pose proof (Hattr n H) as Ha0. split.
  - inversion 1 as [e' n' t' s v' E1 E2 E3|]; subst. rewrite E1 in Ha0. destruct (assoc n d) as [w|] eqn:E; [|done]. assert (v = to_pv w) as -> by (eapply text_as_fun; eassumption). constructor; [done|].
    apply text_as_iff, coerce_sound in E3. inversion E3; subst. done.
  - inversion 1 as [|tag d' n' t' w E1 E2]; subst. rewrite E1 in Ha0. destruct (assoc n (x_attrs e)) as [s|] eqn:E; [|done]. by apply (av_xml yaml e n (expects r n) s).
Qed.
Lemma gives_same c kw : In c (all_of r) -> gives2 yaml parse_sub X c kw <-> gives2 yaml parse_sub Y c kw.
Proof.
  intros Hin. destruct c as [n key q h|n key|n key]; cbn [gives2].
  - destruct (row_facts _ _ _ _ _ _ Hr Hin) as [He Hn]. pose proof (fun v => val_same n v Hn) as Hv. rewrite He in Hv. pose proof (absent_same n Hn) as Ha.
    split; inversion 1; subst; constructor; try (by apply Ha); (eapply filled_same; [|eassumption]); intros v; by rewrite Hv.
  - assert (In n (nest_names (r_before r))) as Hin'. { destruct (nest_facts _ _ Hr) as [<- _]. apply in_flat_map. exists (Pairs n key). split; [done|by left]. }
    assert (no_nested' X n <-> called n (x_kids e) = []) as Hx.
    { simpl. rewrite /called. split.
      - intros H. destruct (List.filter _ _) as [|k ks] eqn:E; [done|]. assert (In k (List.filter (fun k => String.eqb (x_tag k) n) (x_kids e))) as Hk by (rewrite E; by left). apply filter_In in Hk as [Hk Ht]. apply String.eqb_eq in Ht. by destruct (H k).
      - intros H k Hk Ht. assert (In k (List.filter (fun k => String.eqb (x_tag k) n) (x_kids e))) as Hi by (apply filter_In; split; [done|by apply String.eqb_eq]). by rewrite H in Hi. }
    rewrite /pairs_given Hx. destruct (Hnest n Hin') as [[H1 H2]|(H1 & l & H2 & H3)].
    + cbn [no_nested' absent y_in]. rewrite H1 H2. split.
      * intros [[_ ->]|(ks & Hk & _)]; [by left|]. inversion Hk as [e' n' k ks' E|]; subst. unfold called in H1. rewrite H1 in E. done.
      * intros [[_ ->]|(ks & Hk & _)]; [by left|]. inversion Hk; congruence.
    + cbn [no_nested' absent y_in]. rewrite H2. assert (Forall (fun v => exists d', v = YDict d') l) as Hd. { clear -H3. induction H3 as [|k w xs ws (d' & -> & _) H IH]; constructor; [by eexists|done]. }
      destruct (called n (x_kids e)) as [|k0 ks0] eqn:Ec; [done|]. unfold called in Ec. inversion H3 as [|? w0 ? ws0 Hw0 Hws0]; subst.
      split; (intros [[? _]|(ks & Hk & pl & Hpl & ->)]; [done|]; right).
      * inversion Hk as [e' n' k ks' E|]; subst. rewrite Ec in E. cbn [map] in E. injection E as <- <-. exists (map (ElY n) (w0 :: ws0)). split; [by econstructor|]. exists pl. split; [|done].
        apply (texts_all (pair_of yaml parse_sub) n (k0 :: ks0) (w0 :: ws0)); [|done|done]. intros. by apply texts_pair.
      * inversion Hk as [|tag d' n' w l' E1 E2]; subst. assert (w :: l' = w0 :: ws0) as El by congruence. exists (map ElX (k0 :: ks0)). split; [constructor; by rewrite Ec|]. exists pl. split; [|done].
        apply (texts_all (pair_of yaml parse_sub) n (k0 :: ks0) (w0 :: ws0)); [intros; by apply texts_pair|done|]. by rewrite -El.
  - assert (In n (nest_names (r_before r))) as Hin'. { destruct (nest_facts _ _ Hr) as [<- _]. apply in_flat_map. exists (Choices n key). split; [done|by left]. }
    assert (no_nested' X n <-> called n (x_kids e) = []) as Hx.
    { simpl. rewrite /called. split.
      - intros H. destruct (List.filter _ _) as [|k ks] eqn:E; [done|]. assert (In k (List.filter (fun k => String.eqb (x_tag k) n) (x_kids e))) as Hk by (rewrite E; by left). apply filter_In in Hk as [Hk Ht]. apply String.eqb_eq in Ht. by destruct (H k).
      - intros H k Hk Ht. assert (In k (List.filter (fun k => String.eqb (x_tag k) n) (x_kids e))) as Hi by (apply filter_In; split; [done|by apply String.eqb_eq]). by rewrite H in Hi. }
    rewrite /choices_given Hx. destruct (Hnest n Hin') as [[H1 H2]|(H1 & l & H2 & H3)].
    + cbn [no_nested' absent y_in]. rewrite H1 H2. split.
      * intros [[_ ->]|(ks & Hk & _)]; [by left|]. inversion Hk as [e' n' k ks' E|]; subst. unfold called in H1. rewrite H1 in E. done.
      * intros [[_ ->]|(ks & Hk & _)]; [by left|]. inversion Hk; congruence.
    + cbn [no_nested' absent y_in]. rewrite H2. assert (Forall (fun v => exists d', v = YDict d') l) as Hd. { clear -H3. induction H3 as [|k w xs ws (d' & -> & _) H IH]; constructor; [by eexists|done]. }
      destruct (called n (x_kids e)) as [|k0 ks0] eqn:Ec; [done|]. unfold called in Ec. inversion H3 as [|? w0 ? ws0 Hw0 Hws0]; subst.
      split; (intros [[? _]|(ks & Hk & pl & Hpl & ->)]; [done|]; right).
      * inversion Hk as [e' n' k ks' E|]; subst. rewrite Ec in E. cbn [map] in E. injection E as <- <-. exists (map (ElY n) (w0 :: ws0)). split; [by econstructor|]. exists pl. split; [|done].
        apply (texts_all (choice_of yaml) n (k0 :: ks0) (w0 :: ws0)); [|done|done]. intros. by apply texts_choice.
      * inversion Hk as [|tag d' n' w l' E1 E2]; subst. assert (w :: l' = w0 :: ws0) as El by congruence. exists (map ElX (k0 :: ks0)). split; [constructor; by rewrite Ec|]. exists pl. split; [|done].
        apply (texts_all (choice_of yaml) n (k0 :: ks0) (w0 :: ws0)); [intros; by apply texts_choice|done|]. by rewrite -El.
Qed.
Lemma all_gives_same cs kws : (forall c, In c cs -> In c (all_of r)) -> Forall2 (gives2 yaml parse_sub X) cs kws <-> Forall2 (gives2 yaml parse_sub Y) cs kws.
Proof.
  revert kws. induction cs as [|c cs IH]; intros kws Hin; [split; inversion 1; constructor|].
  split; inversion 1; subst; (constructor; [apply gives_same; [apply Hin; by left|done]|apply IH; [intros c' Hc'; apply Hin; by right|done]]).
Qed.
Lemma cond_same base : condition' yaml parse_sub X base <-> condition' yaml parse_sub Y base.
Proof.
  destruct (base_free _ _ "if"%string Hr (or_introl eq_refl)) as [Ei Ni]. destruct (base_free _ _ "unless"%string Hr (or_intror eq_refl)) as [Eu Nu].
  pose proof (absent_same _ Ni) as Ai. pose proof (absent_same _ Nu) as Au. pose proof (fun v => val_same _ v Ni) as Vi. pose proof (fun v => val_same _ v Nu) as Vu. rewrite Ei in Vi. rewrite Eu in Vu.
  split; inversion 1; subst.
  - apply c'_none; [by apply Ai|by apply Au].
  - eapply c'_if; [by apply Vi|by apply Au|done].
  - eapply c'_unless; [by apply Vu|by apply Ai|done].
  - apply c'_none; [by apply Ai|by apply Au].
  - eapply c'_if; [by apply Vi|by apply Au|done].
  - eapply c'_unless; [by apply Vu|by apply Ai|done].
Qed.
Lemma reserved_dec n : reserved r n \/ ~ reserved r n.
Proof. rewrite /reserved. destruct (in_dec string_dec n (nest_names (r_before r))); destruct (has_kids r); destruct (string_dec n "children"); naive_solver. Qed.
Lemma nothing_same : (has_kids r = false -> forall k, In k (x_kids e) -> In (x_tag k) (nest_names (r_before r))) ->
  nothing_else X ("if" :: "unless" :: attr_names (all_of r))%string (nest_names (r_before r)) (with_kids r) <-> nothing_else Y ("if" :: "unless" :: attr_names (all_of r))%string (nest_names (r_before r)) (with_kids r).
Proof.
  intros Hk. change (with_kids r) with (has_kids r). generalize ("if" :: "unless" :: attr_names (all_of r))%string as A. intros A. cbn [nothing_else]. split.
  - intros [H1 _] a Ha. destruct (reserved_dec a) as [[Hn|[H2 H3]]|Hn]; [left; apply in_or_app; by right|by right|]. left. apply in_or_app. left. apply H1. by apply has_same.
  - intros H. split.
    + intros a Ha. assert (~ reserved r a) as Hn by (intros Hx; by apply (Hres a Hx)). apply has_same in Ha; [|done]. destruct (H a Ha) as [[H1|H1]%in_app_or|H1]; [done| |]; destruct Hn; [by left|by right].
    + intros k Hin. destruct (has_kids r); [by left|right]. by apply Hk.
Qed.
Lemma kids_same ws acts : has_kids r = true ->
  assoc "children" d = Some (YList (map (fun kw => YDict [(x_tag (fst kw), snd kw)]) (combine (action_kids (r_kids r) (x_kids e)) ws))) ->
  Forall2 (fun k w => forall a, D (ElX k) a <-> D (ElY (x_tag k) w) a) (action_kids (r_kids r) (x_kids e)) ws ->
  (exists ks, kids_of X ks /\ Forall2 D (kept (r_kids r) ks) acts) <-> (exists ks, kids_of Y ks /\ Forall2 D (kept (r_kids r) ks) acts).
Proof.
  intros Hk Hc HD. set (ak := action_kids (r_kids r) (x_kids e)) in *. set (ks' := map (fun kw => ElY (x_tag (fst kw)) (snd kw)) (combine ak ws)).
  assert (kids_of Y ks') as Hy. { eapply ko_dict; [exact Hc|]. clear. rewrite /ks'. induction (combine ak ws) as [|[k w] l IH]; simpl; constructor; [by eexists _, _|done]. }
  assert (kept (r_kids r) (map ElX (x_kids e)) = map ElX ak) as Ex.
  { rewrite /ak /action_kids /kept. unfold has_kids in Hk. destruct (r_kids r); [done|done|]. clear. induction (x_kids e) as [|k l IH]; [done|]. simpl. rewrite /is_keep /=.
    destruct (String.eqb (x_tag k) "keep"); simpl; [done|by rewrite IH]. }
  assert (kept (r_kids r) ks' = ks') as Ey.
  { rewrite /ks' /ak /action_kids /kept. destruct (r_kids r); [done|done|]. clear. generalize ws. induction (x_kids e) as [|k l IH]; intros ws'; [done|]. simpl.
    destruct (String.eqb (x_tag k) "keep") eqn:E; simpl; [apply IH|]. destruct ws' as [|w ws']; [done|]. simpl. rewrite /is_keep /= E /=. f_equal. apply IH. }
  assert (Forall2 D (map ElX ak) acts <-> Forall2 D ks' acts) as Hall.
  { rewrite /ks'. clear -HD. revert acts. induction HD as [|k w ks ws Hkw H IH]; intros acts; [done|]. simpl. split; inversion 1; subst; (constructor; [by apply Hkw|by apply IH]). }
  split.
  - intros (ks & Hks & Ha). inversion Hks; subst. rewrite Ex in Ha. exists ks'. split; [done|]. rewrite Ey. by apply Hall.
  - intros (ks & Hks & Ha). rewrite (kids_fun _ _ _ Hks Hy) Ey in Ha. exists (map ElX (x_kids e)). split; [constructor|]. rewrite Ex. by apply Hall.
Qed.
End same.
Section main.
Context (yaml : string -> option (pv subst)) (parse_sub : string -> res (list subst)) (construct : string * list (string * kval) -> res act).
Notation means := (means yaml parse_sub construct).
Lemma one_same e d r (D : elem -> act -> Prop) a : same_own yaml e d r ->
  (has_kids r = false -> forall k, In k (x_kids e) -> In (x_tag k) (nest_names (r_before r))) ->
  (has_kids r = true -> forall acts, (exists ks, kids_of (ElX e) ks /\ Forall2 D (kept (r_kids r) ks) acts) <-> (exists ks, kids_of (ElY (x_tag e) (YDict d)) ks /\ Forall2 D (kept (r_kids r) ks) acts)) ->
  one yaml parse_sub construct D (ElX e) a <-> one yaml parse_sub construct D (ElY (x_tag e) (YDict d)) a.
Proof.
  intros HO Hleaf Hkids. pose proof (nothing_same yaml parse_sub e d r HO Hleaf) as Hne. pose proof (so_row _ _ _ _ HO) as Hr.
  assert (forall c, In c (r_before r) -> In c (all_of r)) as Hb by (intros c Hc; apply in_or_app; by left).
  assert (has_kids r = true -> forall c, In c (r_after r) -> In c (all_of r)) as Haf. { rewrite /has_kids /all_of. intros Hk c Hc. apply in_or_app. right. by destruct (r_kids r). }
  assert (forall k, row_ok yaml parse_sub D (ElX e) r k <-> row_ok yaml parse_sub D (ElY (x_tag e) (YDict d)) r k) as Hrow.
  { intros k. rewrite /row_ok. unfold has_kids in *. split; intros (base & kws & H1 & H2 & H3); exists base, kws; (split; [by apply (cond_same yaml parse_sub e d r HO)|]; split; [by apply (all_gives_same yaml parse_sub e d r HO)|]).
    - destruct (r_kids r); [done| |]; destruct H3 as (ks & acts & kws' & H3 & H4 & H5 & ->);
        (destruct (proj1 (Hkids eq_refl acts)) as (ks' & Hk1 & Hk2); [by exists ks|]; exists ks', acts, kws'; split; [done|]; split; [done|]; split; [|done]; apply (all_gives_same yaml parse_sub e d r HO); [by apply Haf|done]).
    - destruct (r_kids r); [done| |]; destruct H3 as (ks & acts & kws' & H3 & H4 & H5 & ->);
        (destruct (proj2 (Hkids eq_refl acts)) as (ks' & Hk1 & Hk2); [by exists ks|]; exists ks', acts, kws'; split; [done|]; split; [done|]; split; [|done]; apply (all_gives_same yaml parse_sub e d r HO); [by apply Haf|done]). }
  split; intros (r' & k & H1 & H2 & H3 & H4); cbn [tag_of] in H1; assert (r' = r) as -> by congruence; exists r, k; (split; [done|]; split; [by apply Hrow|]; split; [by apply Hne|done]).
Qed.
Lemma means_same n e w a : same yaml e w -> means n (ElX e) a <-> means n (ElY (x_tag e) w) a.
Proof.
  revert e w a. induction n as [|n IH]; intros e w a H; [done|]. cbn [MarkupLaws.means].
  destruct H as [e d r HO Hk Hleaf|e d r ws HO Hk Hc Hws]; apply (one_same e d r); try done; try (by rewrite Hk).
  intros _ acts. eapply kids_same; [done|exact Hc|]. eapply Forall2_impl; [exact Hws|]. intros k w Hkw b. by apply IH.
Qed.
Lemma stands_same e w a : same yaml e w -> stands yaml parse_sub construct (ElX e) a <-> stands yaml parse_sub construct (ElY (x_tag e) w) a.
Proof. intros H. rewrite !stands_iff. split; intros [n Hn]; exists n; by apply (means_same n e w). Qed.
End main.

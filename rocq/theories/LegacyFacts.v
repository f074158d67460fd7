(** Lemmas about the legacy test service. *)
From Coq Require Import ssreflect.
From Verif Require Import SpecLegacy.
From Verif Require StrFacts TestingFacts.

Lemma exit_bad al code : exit_ok al code = false <-> ~ may_exit al code.
Proof.
  destruct al as [l|[]]; cbn; [|naive_solver..]. rewrite -not_true_iff_false existsb_exists.
  split; intros H Hx; apply H; [exists code; split; [done|apply Z.eqb_refl]|]. destruct Hx as (c & Hc & ->%Z.eqb_eq). done.
Qed.

(** ** Dictionaries *)
Section dict.
Context {K V : Type} `{EqDecision K}.
Implicit Type l : list (K * V).
Lemma dget_dset k k' v l : dget k (dset k' v l) = if bool_decide (k = k') then Some v else dget k l.
Proof.
  induction l as [|[a b] l IH]; cbn; [done|]. destruct (bool_decide_reflect (k' = a)) as [->|Hne]; cbn.
  - by destruct (bool_decide (k = a)).
  - rewrite IH. destruct (bool_decide_reflect (k = a)) as [->|]; [|done]. rewrite bool_decide_false; [done|done].
Qed.
Lemma dget_in k v l : dget k l = Some v -> In (k, v) l.
Proof. induction l as [|[a b] l IH]; [done|]. cbn. destruct (bool_decide_reflect (k = a)) as [->|]; [intros [= ->]; by left|]. intros H. right. by apply IH. Qed.
Lemma dset_twice k v w l : dset k v (dset k w l) = dset k v l.
Proof. induction l as [|[a b] l IH]; cbn; [by rewrite bool_decide_true|]. destruct (bool_decide_reflect (k = a)) as [->|]; cbn; [by rewrite bool_decide_true|]. rewrite bool_decide_false; [done|]. by rewrite IH. Qed.
Lemma dset_in k v l x : In x (dset k v l) -> x = (k, v) \/ In x l.
Proof.
  induction l as [|[a b] l IH]; cbn; [intros [<-|[]]; by left|]. destruct (bool_decide_reflect (k = a)) as [->|Hne]; cbn.
  - intros [<-|H]; [by left|by right; right].
  - intros [<-|H]; [by right; left|]. destruct (IH H); [by left|by right; right].
Qed.
End dict.

(** ** Handlers *)
Definition demote (s : tstat) : tstat := match s with SArmed => SDropped | _ => s end.
Section service.
Context (pname : nat -> nat) (re : nat -> string -> bool).
Notation handle := (lt_handle pname re).
Definition target (h : lhandler) (e : levent) : option tname :=
  match h, e with
  | HProc a, EExit _ _ _ | HDone a, EDone _ _ => Some (a, None)
  | HOutExit _ t, EExit _ _ _ | HOutShut t _, EShut | HOutIO _ t _, EOut _ _ => Some t
  | _, _ => None
  end.
Definition new_out (o : otest) (text : string) (x : string * list pat) : string * list pat :=
  let out := collate o (fst x) (ot_filter o text) in (out, List.filter (fun p => negb (matched re out p)) (snd x)).
Definition eff (h : lhandler) (e : levent) (st : lts) : option (tstat * bool) :=
  match h, e with
  | HProc a, EExit b code _ => if Nat.eqb a b then Some (if Z.eqb code 0 then (SSucceeded, false) else (SFailed, true)) else None
  | HDone a, EDone b f => if Nat.eqb a b then Some (match f with FCancelled => (SDropped, false) | FRaised => (SFailed, true) | _ => (SSucceeded, false) end) else None
  | HOutExit a t, EExit b _ _ => if Nat.eqb a b && unmatched t st then Some (SFinished, false) else None
  | HOutShut t _, EShut => Some (SSucceeded, unmatched t st)
  | HOutIO a t o, EOut b text => if Nat.eqb a b then match dget t (lt_outs st) with Some x => if existsb truthy (snd (new_out o text x)) then None else Some (SSucceeded, false) | None => None end else None
  | _, _ => None
  end.
Definition drops (e : levent) (st : lts) (h : lhandler) : bool := match eff h e st with Some (_, d) => d | None => false end.
Lemma dget_drop t st : dget t (lt_tests (drop_armed st)) = demote <$> dget t (lt_tests st).
Proof.
  cbn. induction (lt_tests st) as [|[a b] l IH]; [done|]. cbn. rewrite /armed. destruct (bool_decide_reflect (b = SArmed)) as [->|Hb]; cbn; destruct (bool_decide (t = a)); cbn; try done. f_equal. by destruct b.
Qed.
Lemma handle_stat h e st t : dget t (lt_tests (fst (handle h e st))) =
  match target h e, eff h e st with
  | Some t', Some (s, d) => if bool_decide (t = t') then Some s else if d then demote <$> dget t (lt_tests st) else dget t (lt_tests st)
  | _, _ => dget t (lt_tests st)
  end.
Proof.
  destruct h, e; try done; cbn [lt_handle target eff].
  - by destruct (_ && _).
  - destruct (Nat.eqb a a0); [|done]. destruct (Z.eqb code 0); [by cbn; rewrite dget_dset|]. rewrite /lt_fail /fst dget_drop. cbn. rewrite dget_dset. by destruct (bool_decide _).
  - destruct (Nat.eqb a a0); [|done]. destruct f; rewrite /lt_fail /fst; rewrite ?dget_drop; cbn; rewrite dget_dset; by destruct (bool_decide _).
  - destruct (_ && _); [|done]. cbn. by rewrite dget_dset.
  - destruct (unmatched t0 st); cbn [fst lt_succeed set_stat lt_tests]; rewrite dget_dset; destruct (bool_decide_reflect (t = t0)) as [->|Hne]; try done. rewrite /lt_fail /fst dget_drop. cbn. rewrite dget_dset. by rewrite bool_decide_false.
  - destruct (Nat.eqb a a0); [|done]. destruct (dget t0 (lt_outs st)) as [[out ps]|]; [|done]. rewrite /new_out. cbn [fst snd]. destruct (existsb _ _); [done|]. cbn. by rewrite dget_dset.
Qed.
Lemma handle_outs h e st t : dget t (lt_outs (fst (handle h e st))) =
  match h, e with
  | HOutIO a t' o, EOut b text => if Nat.eqb a b && bool_decide (t = t') then new_out o text <$> dget t (lt_outs st) else dget t (lt_outs st)
  | _, _ => dget t (lt_outs st)
  end.
Proof.
  destruct h, e; try done; cbn [lt_handle].
  - by destruct (_ && _).
  - destruct (Nat.eqb a a0); [|done]. by destruct (Z.eqb code 0).
  - destruct (Nat.eqb a a0); [|done]. by destruct f.
  - by destruct (_ && _).
  - by destruct (unmatched t0 st).
  - destruct (Nat.eqb a a0); [|done]. cbn [andb]. destruct (dget t0 (lt_outs st)) as [[out ps]|] eqn:E; cbn.
    + destruct (existsb _ _); cbn; rewrite dget_dset; destruct (bool_decide_reflect (t = t0)) as [->|]; try done; by rewrite E.
    + destruct (bool_decide_reflect (t = t0)) as [->|]; [by rewrite E|done].
Qed.
Lemma eff_ext h e st st' : (forall t, target h e = Some t -> dget t (lt_outs st) = dget t (lt_outs st')) -> eff h e st = eff h e st'.
Proof. destruct h, e; try done; cbn; intros H; rewrite /unmatched ?(H _ eq_refl); done. Qed.
Lemma outs_other h e st t : target h e <> Some t -> dget t (lt_outs (fst (handle h e st))) = dget t (lt_outs st).
Proof. intros H. rewrite handle_outs. destruct h, e; try done. destruct (bool_decide_reflect (t = t0)) as [->|]; [done|]. by rewrite andb_false_r. Qed.
(** One event *)
Definition step_h (e : levent) (st : lts * list shut) (h : lhandler) : lts * list shut := let '(st', l) := handle h e (fst st) in (st', snd st ++ l).
Lemma step_h_fst e st h : fst (step_h e st h) = fst (handle h e (fst st)).
Proof. rewrite /step_h. by destruct (handle h e (fst st)). Qed.
Definition targets (e : levent) (L : list lhandler) : list tname := omap (fun h => target h e) L.
Lemma targets_in e L h t : In h L -> target h e = Some t -> In t (targets e L).
Proof. intros H1 H2. apply elem_of_list_In, elem_of_list_omap. exists h. split; [by apply elem_of_list_In|done]. Qed.
Lemma eff_after e L h st : NoDup (targets e (h :: L)) -> forall h', In h' L -> eff h' e (fst (handle h e st)) = eff h' e st.
Proof.
  intros HN h' Hin. apply eff_ext. intros t Ht. apply outs_other. intros E. cbn in HN. rewrite E in HN. inversion HN as [|? ? Hni _]; subst. apply Hni, elem_of_list_In. by eapply targets_in.
Qed.
Lemma demote_idem s : demote (demote s) = demote s.
Proof. by destruct s. Qed.
Lemma eff_settled h e st s d : eff h e st = Some (s, d) -> demote s = s.
Proof.
  destruct h, e; try done; cbn; repeat case_match; intros [= <- <-]; done.
Qed.
Lemma fold_stat e t L : NoDup (targets e L) -> forall st,
  let st' := fold_left (step_h e) L st in
  (forall h s d, In h L -> target h e = Some t -> eff h e (fst st) = Some (s, d) -> dget t (lt_tests (fst st')) = Some s) /\
  ((forall h, In h L -> target h e = Some t -> eff h e (fst st) = None) ->
   dget t (lt_tests (fst st')) = if existsb (drops e (fst st)) L then demote <$> dget t (lt_tests (fst st)) else dget t (lt_tests (fst st))).
Proof.
  induction L as [|h L IH]; intros HN st; [done|]. cbn [fold_left]. pose proof (eff_after e L h (fst st) HN) as HE.
  assert (NoDup (targets e L)) as HN'. { cbn in HN. destruct (target h e); [by inversion HN|done]. }
  destruct (IH HN' (step_h e st h)) as [IH1 IH2]. rewrite step_h_fst in IH1 IH2.
  assert (existsb (drops e (fst (handle h e (fst st)))) L = existsb (drops e (fst st)) L) as Hd.
  { clear -HE. induction L as [|h' L IHL]; [done|]. cbn. rewrite IHL; [intros; apply HE; by right|]. f_equal. rewrite /drops. rewrite HE; [by left|done]. }
  assert (target h e = Some t -> forall h', In h' L -> target h' e <> Some t) as HT.
  { intros E h' Hin E'. cbn in HN. rewrite E in HN. inversion HN as [|? ? Hni _]; subst. apply Hni, elem_of_list_In. by eapply targets_in. }
  pose proof (handle_stat h e (fst st) t) as HS. split.
  - intros h' s d [<-|Hin] Ht Hf.
    + rewrite Ht Hf bool_decide_true // in HS. rewrite IH2; [intros h' Hin E'; by destruct (HT Ht h' Hin)|]. rewrite HS. cbn. rewrite (eff_settled _ _ _ _ _ Hf). by destruct (existsb _ _).
    + eapply IH1; [exact Hin|done|]. by rewrite HE.
  - intros Hnone. rewrite IH2; [intros h' Hin E'; rewrite HE; [done|]; apply Hnone; [by right|done]|]. rewrite Hd HS. cbn [existsb]. assert (drops e (fst st) h = match eff h e (fst st) with Some (_, d) => d | None => false end) as Hdh by done. rewrite Hdh.
    destruct (target h e) as [t'|] eqn:Et.
    + destruct (eff h e (fst st)) as [[s d]|] eqn:Ee; [|done]. destruct (bool_decide_reflect (t = t')) as [->|Hne]; [assert (eff h e (fst st) = None) as Hx; [apply Hnone; [by left|done]|congruence]|].
      destruct d; cbn [orb]; destruct (existsb (drops e (fst st)) L); try done. destruct (dget t (lt_tests (fst st))); [|done]. cbn. by rewrite demote_idem.
    + assert (drops e (fst st) h = false) as Hdr; [|by rewrite /drops in Hdr; destruct (eff h e (fst st)) as [[? []]|]].
      rewrite /drops. by destruct h, e.
Qed.
Lemma fold_outs e t L : NoDup (targets e L) -> forall st, let st' := fold_left (step_h e) L st in
  dget t (lt_outs (fst st')) = match e with
    | EOut b text => match List.find (fun h => match h with HOutIO a t' _ => Nat.eqb a b && bool_decide (t = t') | _ => false end) L with Some (HOutIO _ _ o) => new_out o text <$> dget t (lt_outs (fst st)) | _ => dget t (lt_outs (fst st)) end
    | _ => dget t (lt_outs (fst st)) end.
Proof.
  induction L as [|h L IH]; intros HN st; [by destruct e|]. cbn [fold_left].
  assert (NoDup (targets e L)) as HN'. { cbn in HN. destruct (target h e); [by inversion HN|done]. }
  specialize (IH HN' (step_h e st h)). cbn zeta in IH |- *. rewrite step_h_fst in IH. rewrite IH. pose proof (handle_outs h e (fst st) t) as HO.
  destruct e as [| |b text|]; try (rewrite HO; by destruct h). cbn [List.find]. destruct h as [| | | | |a t' o]; try (by rewrite HO).
  destruct (Nat.eqb a b && bool_decide (t = t')) eqn:E.
  - assert (List.find (fun h => match h with HOutIO a t' _ => Nat.eqb a b && bool_decide (t = t') | _ => false end) L = None) as ->; [|by rewrite HO].
    apply andb_true_iff in E as [_ E]. rewrite bool_decide_eq_true in E. subst t'. destruct (List.find _ L) as [h'|] eqn:Ef; [|done]. exfalso. apply find_some in Ef as [Hin Hh]. destruct h' as [| | | | |a' t' o']; try done. apply andb_true_iff in Hh as [_ Hh]. rewrite bool_decide_eq_true in Hh. subst t'.
    cbn in HN. inversion HN as [|? ? Hni _]; subst. apply Hni, elem_of_list_In. by eapply targets_in.
  - by rewrite HO.
Qed.

(** ** What building gives *)
Definition hof (x : ladd) : list lhandler :=
  match x with
  | AddFixture a proc al => if proc then [HFixture a al] else []
  | AddTest a proc => [if proc then HProc a else HDone a]
  | AddOutput a _ s o _ => [HOutExit a (a, Some s); HOutShut (a, Some s) (ot_side o); HOutIO a (a, Some s) o]
  end.
Lemma dget_app {K V} `{EqDecision K} (k : K) (l l' : list (K * V)) : dget k (l ++ l') = match dget k l with Some v => Some v | None => dget k l' end.
Proof. induction l as [|[a b] l IH]; [done|]. cbn. by destruct (bool_decide (k = a)). Qed.
Lemma build_inv adds : forall hs0 st0 hs st, lt_build adds (hs0, st0) = Some (hs, st) ->
  hs = hs0 ++ flat_map hof adds /\ lt_tests st = lt_tests st0 ++ map (fun t => (t, SArmed)) (omap test_of adds) /\ lt_rcs st = lt_rcs st0 /\
  NoDup (omap test_of adds) /\ (forall t, In t (omap test_of adds) -> dget t (lt_tests st0) = None) /\
  (forall t, ~ In t (omap test_of adds) -> dget t (lt_outs st) = dget t (lt_outs st0)) /\
  (forall a pr s o ps, In (AddOutput a pr s o ps) adds -> pr = true /\ existsb truthy ps = true /\ dget (a, Some s) (lt_outs st) = Some ("", ps)).
Proof.
  induction adds as [|x adds IH]; intros hs0 st0 hs st.
  - cbn. intros [= <- <-]. rewrite !app_nil_r. split_and!; try done. constructor.
  - cbn [lt_build]. destruct (lt_add x (hs0, st0)) as [[hs1 st1]|] eqn:E; [|done]. intros HB. destruct (IH _ _ _ _ HB) as (Hh & Ht & Hr & Hnd & Hnew & Ho & Hout).
    assert (test_of x = None -> hs1 = hs0 ++ hof x /\ st1 = st0) as HA0.
    { destruct x as [a pr al| |]; try done. cbn in E. intros _. destruct pr; injection E as <- <-; cbn; by rewrite ?app_nil_r. }
    assert (forall t, test_of x = Some t -> hs1 = hs0 ++ hof x /\ lt_tests st1 = lt_tests st0 ++ [(t, SArmed)] /\ lt_rcs st1 = lt_rcs st0 /\ dget t (lt_tests st0) = None /\
        (forall t', t' <> t -> dget t' (lt_outs st1) = dget t' (lt_outs st0)) /\
        (forall a pr s o ps, x = AddOutput a pr s o ps -> pr = true /\ existsb truthy ps = true /\ dget (a, Some s) (lt_outs st1) = Some ("", ps))) as HA1.
    { intros t Htx. destruct x as [|a pr|a pr s o ps]; [done| |]; cbn in E, Htx; injection Htx as <-; rewrite /lt_arm in E.
      - destruct (dget _ _) eqn:Ed; [done|]. injection E as <- <-. split_and!; try done.
      - destruct (pr && existsb truthy ps) eqn:Ep; [|done]. cbn [set_out lt_tests lt_rcs lt_outs] in E. destruct (dget (a, Some s) (lt_tests st0)) eqn:Ed; rewrite ?Ed in E; [done|]. injection E as <- <-. cbn. split_and!; try done.
        + intros t' Hne. rewrite dget_dset. by rewrite bool_decide_false.
        + intros ? ? ? ? ? [= <- <- <- <- <-]. apply andb_true_iff in Ep as [-> ->]. split_and!; try done. rewrite dget_dset. by rewrite bool_decide_true. }
    cbn [flat_map omap list_omap]. destruct (test_of x) as [t|] eqn:Etx.
    + destruct (HA1 t eq_refl) as (-> & Ht1 & Hr1 & Hd1 & Ho1 & Hx1). rewrite Ht1 in Ht, Hnew.
      assert (~ In t (omap test_of adds)) as Hnin.
      { intros Hin. specialize (Hnew t Hin). rewrite dget_app Hd1 in Hnew. cbn in Hnew. by rewrite bool_decide_true in Hnew. }
      split_and!.
      * by rewrite Hh app_assoc.
      * rewrite Ht. by rewrite -app_assoc.
      * congruence.
      * constructor; [|done]. by rewrite elem_of_list_In.
      * intros t' [<-|Hin]; [done|]. specialize (Hnew t' Hin). rewrite dget_app in Hnew. by destruct (dget t' (lt_tests st0)).
      * intros t' Hni. rewrite Ho; [intros Hin; apply Hni; by right|]. apply Ho1. intros ->. apply Hni. by left.
      * intros a pr s o ps [Hx|Hin]; [|by eapply Hout]. destruct (Hx1 _ _ _ _ _ Hx) as (? & ? & Hg). split_and!; try done. rewrite Ho; [|done]. rewrite Hx in Etx. cbn in Etx. by injection Etx as <-.
    + destruct (HA0 eq_refl) as [-> ->]. split_and!; try done.
      * by rewrite Hh app_assoc.
      * intros a pr s o ps [Hx|Hin]; [by rewrite Hx in Etx|by eapply Hout].
Qed.
Lemma targets_hof e x : targets e (hof x) = [] \/ exists t, test_of x = Some t /\ targets e (hof x) = [t].
Proof. destruct x as [a pr al|a pr|a pr s o ps]; cbn. - destruct pr, e; by left. - destruct pr, e; (by left) || (right; by eexists). - destruct e; (by left) || (right; by eexists). Qed.
Lemma targets_app e l l' : targets e (l ++ l') = targets e l ++ targets e l'.
Proof. by rewrite /targets omap_app. Qed.
Lemma targets_all_in e adds t : In t (targets e (flat_map hof adds)) -> In t (omap test_of adds).
Proof.
  induction adds as [|x adds IH]; [done|]. cbn [flat_map]. rewrite targets_app in_app_iff. cbn [omap list_omap]. intros [H|H].
  - destruct (targets_hof e x) as [E|(t' & Et & E)]; rewrite E in H; [done|]. rewrite Et. destruct H as [->|[]]. by left.
  - destruct (test_of x); [right|]; by apply IH.
Qed.
Lemma targets_nodup e adds : NoDup (omap test_of adds) -> NoDup (targets e (rev (flat_map hof adds))).
Proof.
  intros H. rewrite /targets. rewrite -(Permutation_rev (flat_map hof adds)). induction adds as [|x adds IH]; [constructor|]. cbn [flat_map]. rewrite -/(targets e _) targets_app.
  destruct (targets_hof e x) as [->|(t & Et & ->)].
  - apply IH. cbn in H. destruct (test_of x); [by inversion H|done].
  - cbn in H. rewrite Et in H. inversion H as [|? ? Hn H']; subst. cbn. constructor; [|by apply IH]. rewrite elem_of_list_In. intros Hin%targets_all_in. apply Hn. by apply elem_of_list_In.
Qed.
Lemma test_of_inj adds : NoDup (omap test_of adds) -> forall x y t, In x adds -> In y adds -> test_of x = Some t -> test_of y = Some t -> x = y.
Proof.
  assert (forall l z t, In z l -> test_of z = Some t -> In t (omap test_of l)) as HI.
  { intros l z t Hz Hzt. apply elem_of_list_In, elem_of_list_omap. exists z. split; [by apply elem_of_list_In|done]. }
  induction adds as [|z adds IH]; intros H x y t Hx Hy Ex Ey; [done|]. cbn in H. destruct Hx as [->|Hx], Hy as [->|Hy]; [done| | |].
  - rewrite Ex in H. inversion H as [|? ? Hn _]; subst. destruct Hn. apply elem_of_list_In. by eapply HI.
  - rewrite Ey in H. inversion H as [|? ? Hn _]; subst. destruct Hn. apply elem_of_list_In. by eapply HI.
  - eapply IH; try done. destruct (test_of z); [by inversion H|done].
Qed.

(** ** Outputs *)
Lemma outputs_snoc a es e : outputs a (es ++ [e]) = outputs a es ++ match e with EOut b text => if Nat.eqb a b then [text] else [] | _ => [] end.
Proof. rewrite /outputs map_app concat_app. cbn. by rewrite app_nil_r. Qed.
Lemma collected_snoc o texts text : collected_output o (texts ++ [text]) = collate o (collected_output o texts) (ot_filter o text).
Proof. by rewrite /collected_output fold_left_app. Qed.
Lemma still_snoc o ps texts text p :
  still_missing re o ps (texts ++ [text]) p <-> still_missing re o ps texts p /\ matched re (collected_output o (texts ++ [text])) p = false.
Proof.
  rewrite /still_missing. split.
  - intros [H1 H2]. split; [split; [done|]|].
    + intros n Hn. specialize (H2 n). rewrite take_app_le in H2; [lia|]. apply H2. rewrite app_length. cbn. lia.
    + specialize (H2 (length (texts ++ [text]))). rewrite firstn_all in H2. apply H2. rewrite app_length. cbn. lia.
  - intros [[H1 H2] H3]. split; [done|]. intros n Hn. rewrite app_length in Hn. cbn in Hn. destruct (decide (n <= length texts)).
    + rewrite take_app_le; [lia|]. apply H2. lia.
    + rewrite take_ge; [|done]. rewrite app_length. cbn. lia.
Qed.
Definition inv_out (adds : list ladd) (es : list levent) (st : lts) : Prop :=
  forall a pr s o ps, In (AddOutput a pr s o ps) adds ->
    exists l, dget (a, Some s) (lt_outs st) = Some (collected_output o (outputs a es), l) /\ forall p, In p l <-> still_missing re o ps (outputs a es) p.
Lemma inv_missing adds es st a pr s o ps : inv_out adds es st -> In (AddOutput a pr s o ps) adds -> (unmatched (a, Some s) st = true <-> missing re o ps (outputs a es)).
Proof.
  intros HI Hin. destruct (HI _ _ _ _ _ Hin) as (l & E & Hl). rewrite /unmatched E existsb_exists /missing. split; intros (p & H1 & H2); exists p; (split; [by apply Hl|done]).
Qed.
Lemma new_out_inv o ps texts text l : (forall p, In p l <-> still_missing re o ps texts p) ->
  fst (new_out o text (collected_output o texts, l)) = collected_output o (texts ++ [text]) /\
  forall p, In p (snd (new_out o text (collected_output o texts, l))) <-> still_missing re o ps (texts ++ [text]) p.
Proof.
  intros Hl. rewrite /new_out. cbn [fst snd]. rewrite collected_snoc. split; [done|]. intros p. rewrite filter_In Hl still_snoc collected_snoc negb_true_iff. done.
Qed.
Lemma eff_spec adds x h e st es t : inv_out adds es st -> In x adds -> In h (hof x) -> target h e = Some t -> test_of x = Some t ->
  match eff h e st with
  | Some (s, d) => settles re x es e s /\ (forall s', settles re x es e s' -> s' = s) /\ (d = true <-> fails re x es e)
  | None => (forall s, ~ settles re x es e s) /\ ~ fails re x es e
  end.
Proof.
  intros HI Hin Hh Ht Htx. destruct x as [|a pr|a pr s o ps]; [done| |].
  - destruct Hh as [<-|[]]. destruct pr, e as [b code sd|b f|b text|]; try done; cbn [eff settles fails].
    + destruct (Nat.eqb_spec a b) as [->|Hne].
      * destruct (Z.eqb_spec code 0) as [->|Hz]; (split; [done|]; split; [by intros s' [_ ->]|]); split; try done. intros [_ Hx]. done.
      * split; [by intros s [? _]|]. by intros [? _].
    + destruct (Nat.eqb_spec a b) as [->|Hne].
      * destruct f; (split; [done|]; split; [by intros s' [_ ->]|]); split; done.
      * split; [by intros s [? _]|]. by destruct f; intros Hx.
  - cbn in Htx. injection Htx as <-. pose proof (inv_missing _ _ _ _ _ _ _ _ HI Hin) as HM. destruct (HI _ _ _ _ _ Hin) as (l & El & Hl).
    destruct Hh as [<-|[<-|[<-|[]]]]; destruct e as [b code sd|b f|b text|]; try done; cbn [eff settles fails].
    + destruct (Nat.eqb_spec a b) as [->|Hne]; cbn [andb].
      * destruct (unmatched _ _) eqn:Eu; [split; [split_and!; try done; by apply HM|]; split; [by intros s' (_ & _ & ->)|done]|]. split; [|by intros []]. intros s' (_ & Hm & _). apply HM in Hm. congruence.
      * split; [|by intros []]. by intros s' [? _].
    + destruct (Nat.eqb_spec a b) as [->|Hne]; cbn [andb].
      * rewrite El. destruct (new_out_inv o ps (outputs b es) text l Hl) as [_ Hn]. rewrite outputs_snoc Nat.eqb_refl.
        set (Q := existsb truthy _). assert (Q = true <-> missing re o ps (outputs b es ++ [text])) as HQ.
        { rewrite /Q existsb_exists /missing. split; intros (p & H1 & H2); exists p; (split; [by apply Hn|done]). }
        destruct Q; [split; [|by intros []]; intros s' (_ & Hm & _); apply Hm; by apply HQ|]. split; [split_and!; try done; intros Hm; apply HQ in Hm; congruence|]. split; [by intros s' (_ & _ & ->)|]. done.
      * split; [|by intros []]. by intros s' [? _].
Qed.
Lemma no_target x e es : (forall h, In h (hof x) -> target h e = None) -> (forall s, ~ settles re x es e s) /\ ~ fails re x es e.
Proof.
  intros H. destruct x as [|a pr|a pr s o ps]; cbn [hof] in H.
  - split; [intros s|]; intros Hx; by destruct e.
  - specialize (H _ (or_introl eq_refl)). split; [intros s|]; intros Hx; destruct pr, e; try done; by destruct f.
  - pose proof (H _ (or_introl eq_refl)). pose proof (H _ (or_intror (or_introl eq_refl))). pose proof (H _ (or_intror (or_intror (or_introl eq_refl)))). split; [intros s'|]; intros Hx; by destruct e.
Qed.
Lemma target_test x h e t : In h (hof x) -> target h e = Some t -> test_of x = Some t.
Proof.
  intros Hh Ht. destruct (targets_hof e x) as [E|(t' & E1 & E2)].
  - pose proof (targets_in e _ _ _ Hh Ht) as Hi. by rewrite E in Hi.
  - pose proof (targets_in e _ _ _ Hh Ht) as Hi. rewrite E2 in Hi. destruct Hi as [<-|[]]. done.
Qed.
Lemma target_dec x e : (exists h t, In h (hof x) /\ target h e = Some t) \/ (forall h, In h (hof x) -> target h e = None).
Proof.
  induction (hof x) as [|h l IH]; [by right|]. destruct (target h e) as [t|] eqn:E; [left; exists h, t; split; [by left|done]|].
  destruct IH as [(h' & t & ? & ?)|IH]; [left; exists h', t; split; [by right|done]|]. right. intros h' [<-|Hin]; [done|by apply IH].
Qed.

(** ** Statuses *)
Lemma snoc_split {A} (l : list A) e pre e' post : l ++ [e] = pre ++ e' :: post ->
  (pre = l /\ e' = e /\ post = []) \/ exists post', post = post' ++ [e] /\ l = pre ++ e' :: post'.
Proof.
  intros H. destruct post as [|y m _] using rev_ind.
  - apply app_inj_tail in H as [-> ->]. by left.
  - right. exists m. rewrite app_comm_cons app_assoc in H. apply app_inj_tail in H as [-> ->]. done.
Qed.
Lemma settles_settled x es e s : settles re x es e s -> demote s = s.
Proof.
  destruct x as [|a pr|a pr sf o ps]; [by destruct e| |].
  - destruct pr, e; try done; cbn; intros [_ ->]; [by destruct (Z.eqb _ _)|by destruct f].
  - destruct e; cbn; [by intros (_ & _ & ->)|done|by intros (_ & _ & ->)|by intros ->].
Qed.
Lemma status_settle adds es e x s : settles re x es e s -> status_is re adds (es ++ [e]) x s.
Proof.
  intros H. left. exists es, e, []. split; [done|]. split; [done|]. intros pre' e' post' s' E Hl. apply (f_equal length) in E. rewrite !app_length in E. cbn in E. lia.
Qed.
Lemma status_keep adds es e x s : status_is re adds es x s -> (forall s', ~ settles re x es e s') ->
  ((exists y, In y adds /\ fails re y es e) -> status_is re adds (es ++ [e]) x (demote s)) /\
  ((forall y, In y adds -> ~ fails re y es e) -> status_is re adds (es ++ [e]) x s).
Proof.
  intros HS Hno. destruct HS as [(pre & e0 & post & -> & Hset & Hlast)|[Hnone HS]].
  - assert (status_is re adds ((pre ++ e0 :: post) ++ [e]) x s) as HR; [|rewrite (settles_settled _ _ _ _ Hset); by split].
    left. exists pre, e0, (post ++ [e]). split; [by rewrite -app_assoc|]. split; [done|]. intros pre' e' post' s' E Hl. apply snoc_split in E as [(-> & -> & ->)|(post'' & -> & E)]; [by apply Hno|]. by eapply Hlast.
  - assert (forall pre e0 post s', es ++ [e] = pre ++ e0 :: post -> ~ settles re x pre e0 s') as Hn'.
    { intros pre e0 post s' E. apply snoc_split in E as [(-> & -> & ->)|(post'' & -> & E)]; [by apply Hno|]. by eapply Hnone. }
    split.
    + intros (y & Hy & Hf). right. split; [done|]. left. split; [by destruct HS as [[-> _]|[-> _]]|]. by exists y, es, e, [].
    + intros Hnf. right. split; [done|]. destruct HS as [[-> (y & pre & e0 & post & Hy & -> & Hf)]|[-> HS]].
      * left. split; [done|]. exists y, pre, e0, (post ++ [e]). split; [done|]. split; [by rewrite -app_assoc|done].
      * right. split; [done|]. intros y pre e0 post Hy E. apply snoc_split in E as [(-> & -> & ->)|(post'' & -> & E)]; [by apply Hnf|]. by eapply HS.
Qed.
Definition inv_stat (adds : list ladd) (es : list levent) (st : lts) : Prop :=
  forall x t, In x adds -> test_of x = Some t -> exists s, dget t (lt_tests st) = Some s /\ status_is re adds es x s.

Section run.
Context (adds : list ladd) (hs : list lhandler) (st0 : lts) (HB : lt_build adds ([], lt_init) = Some (hs, st0)).
Lemma run_hs : hs = flat_map hof adds.
Proof using HB. by destruct (build_inv _ _ _ _ _ HB) as (-> & _). Qed.
Lemma run_nodup : NoDup (omap test_of adds).
Proof using HB. by destruct (build_inv _ _ _ _ _ HB) as (_ & _ & _ & ? & _). Qed.
Lemma run_targets e : NoDup (targets e (rev hs)).
Proof using HB. rewrite run_hs. apply targets_nodup, run_nodup. Qed.
Lemma in_hs h : In h (rev hs) <-> exists x, In x adds /\ In h (hof x).
Proof using HB. rewrite -in_rev run_hs in_flat_map. done. Qed.
Definition after (es : list levent) : lts * list shut := lt_events pname re hs es st0.
Lemma after_snoc es e : after (es ++ [e]) = fold_left (step_h e) (rev hs) (after es).
Proof. rewrite /after /lt_events fold_left_app. done. Qed.
Lemma test_in x t : In x adds -> test_of x = Some t -> In t (omap test_of adds).
Proof. intros Hx Ht. apply elem_of_list_In, elem_of_list_omap. exists x. split; [by apply elem_of_list_In|done]. Qed.
Lemma drops_iff es e st : inv_out adds es st -> (existsb (drops e st) (rev hs) = true <-> exists y, In y adds /\ fails re y es e).
Proof using HB.
  intros HI. rewrite existsb_exists. split.
  - intros (h & Hh & Hd). apply in_hs in Hh as (x & Hx & Hh). exists x. split; [done|]. rewrite /drops in Hd.
    destruct (target h e) as [t|] eqn:Et; [|by destruct h, e].
    pose proof (eff_spec adds x h e st es t HI Hx Hh Et (target_test _ _ _ _ Hh Et)) as HE. destruct (eff h e st) as [[s d]|]; [|done]. by apply HE.
  - intros (y & Hy & Hf). destruct (target_dec y e) as [(h & t & Hh & Et)|Hn]; [|by destruct (no_target y e es Hn)].
    exists h. split; [apply in_hs; by exists y|]. pose proof (eff_spec adds y h e st es t HI Hy Hh Et (target_test _ _ _ _ Hh Et)) as HE. rewrite /drops. destruct (eff h e st) as [[s d]|]; [by apply HE|]. by destruct HE.
Qed.
Lemma run_inv es : inv_out adds es (fst (after es)) /\ inv_stat adds es (fst (after es)).
Proof using HB.
  induction es as [|e es [IHo IHs]] using rev_ind.
  - destruct (build_inv _ _ _ _ _ HB) as (_ & Ht & _ & Hnd & _ & _ & Hout). split.
    + intros a pr s o ps Hin. destruct (Hout _ _ _ _ _ Hin) as (_ & _ & Hg). exists ps. split; [done|]. intros p. rewrite /still_missing. split; [|by intros []]. intros Hp. split; [done|]. cbn. intros n Hn. lia.
    + intros x t Hx Htx. exists SArmed. split.
      * cbn. rewrite Ht. cbn. pose proof (test_in x t Hx Htx) as Hin. clear -Hin. induction (omap test_of adds) as [|t' l IH]; [done|]. cbn. destruct (bool_decide_reflect (t = t')) as [->|Hne]; [done|]. destruct Hin as [->|Hin]; [done|by apply IH].
      * right. split; [by intros [|] ? ?|]. right. split; [done|]. by intros ? [|].
  - rewrite after_snoc. split.
    + intros a pr s o ps Hin. destruct (IHo _ _ _ _ _ Hin) as (l & El & Hl). rewrite (fold_outs e (a, Some s) (rev hs) (run_targets e)).
      destruct e as [b code sd|b f|b text|]; try (exists l; rewrite outputs_snoc app_nil_r; done).
      destruct (List.find _ (rev hs)) as [h|] eqn:Ef.
      * apply find_some in Ef as [Hh Hc]. destruct h as [| | | | |a' t' o']; try done. apply andb_true_iff in Hc as [Hab Ht']. rewrite bool_decide_eq_true in Ht'. subst t'. apply Nat.eqb_eq in Hab. subst a'.
        apply in_hs in Hh as (y & Hy & Hh). assert (y = AddOutput a pr s o ps) as ->.
        { eapply (test_of_inj adds run_nodup); [exact Hy|exact Hin| |done]. eapply (target_test _ _ (EOut b text)); [exact Hh|done]. }
        destruct Hh as [?|[?|[Heq|[]]]]; try done. injection Heq as -> ->. rewrite El. cbn [fmap option_fmap option_map]. rewrite outputs_snoc Nat.eqb_refl.
        destruct (new_out_inv o' ps (outputs b es) text l Hl) as [Hn1 Hn2]. exists (snd (new_out o' text (collected_output o' (outputs b es), l))). split; [rewrite -Hn1; by destruct (new_out _ _ _)|done].
      * destruct (Nat.eqb_spec a b) as [->|Hne]; [|exists l; rewrite outputs_snoc; apply Nat.eqb_neq in Hne; rewrite Hne app_nil_r; done].
        exfalso. assert (In (HOutIO b (b, Some s) o) (rev hs)) as Hi. { apply in_hs. exists (AddOutput b pr s o ps). split; [done|]. cbn. by do 2 right; left. }
        pose proof (find_none _ _ Ef _ Hi) as HF. cbn in HF. rewrite Nat.eqb_refl bool_decide_true in HF; done.
    + intros x t Hx Htx. destruct (IHs x t Hx Htx) as (s & Hs & Hst). destruct (fold_stat e t (rev hs) (run_targets e) (after es)) as [F1 F2].
      assert ((forall s', ~ settles re x es e s') -> (forall h, In h (rev hs) -> target h e = Some t -> eff h e (fst (after es)) = None) ->
        exists s', dget t (lt_tests (fst (fold_left (step_h e) (rev hs) (after es)))) = Some s' /\ status_is re adds (es ++ [e]) x s') as HK.
      { intros Hno Hef. rewrite (F2 Hef) Hs. cbn [fmap option_fmap option_map]. destruct (status_keep adds es e x s Hst Hno) as [K1 K2]. pose proof (drops_iff es e _ IHo) as HD. destruct (existsb _ _).
        - exists (demote s). split; [done|]. by apply K1, HD.
        - exists s. split; [done|]. apply K2. intros y Hy Hf. enough (false = true) by done. apply HD. by exists y. }
      assert (forall h y, In y adds -> In h (hof y) -> target h e = Some t -> y = x) as Huniq.
      { intros h y Hy Hh Et. eapply (test_of_inj adds run_nodup); [done|done| |exact Htx]. by eapply target_test. }
      destruct (target_dec x e) as [(h & t' & Hh & Et)|Hn].
      * assert (t' = t) as ->. { pose proof (target_test _ _ _ _ Hh Et) as Ht'. congruence. }
        pose proof (eff_spec adds x h e (fst (after es)) es t IHo Hx Hh Et Htx) as HE. destruct (eff h e (fst (after es))) as [[s' d]|] eqn:Ee.
        -- exists s'. split; [|by apply status_settle; apply HE]. eapply F1; [apply in_hs; by exists x|exact Et|exact Ee].
        -- apply HK; [by apply HE|]. intros h' Hh' Et'. apply in_hs in Hh' as (y & Hy & Hh'). pose proof (Huniq h' y Hy Hh' Et') as ->.
           pose proof (eff_spec adds x h' e (fst (after es)) es t IHo Hx Hh' Et' Htx) as HE'. destruct (eff h' e (fst (after es))) as [[s' d]|]; [|done]. destruct HE as [HE _], HE' as [HE' _]. by destruct (HE s').
      * apply HK; [by apply (no_target x e es Hn)|]. intros h' Hh' Et'. apply in_hs in Hh' as (y & Hy & Hh'). pose proof (Huniq h' y Hy Hh' Et') as ->. rewrite Hn in Et'; done.
Qed.
(** The status is determined. *)
Lemma status_fun es x s s' : In x adds -> status_is re adds es x s -> status_is re adds es x s' -> s = s'.
Proof.
  assert (forall pre e s s', settles re x pre e s -> settles re x pre e s' -> s = s') as HF.
  { intros pre e u u'. destruct x as [|a pr|a pr sf o ps]; [by destruct e| |].
    - destruct pr, e; try done; cbn; by intros [_ ->] [_ ->].
    - destruct e; cbn; try done; try (by intros (_ & _ & ->) (_ & _ & ->)). by intros -> ->. }
  intros Hx [(pre & e & post & E & H1 & H2)|[H1 H2]] [(pre' & e' & post' & E' & H1' & H2')|[H1' H2']].
  - destruct (Nat.lt_trichotomy (length pre) (length pre')) as [Hl|[Hl|Hl]].
    + by destruct (H2 _ _ _ _ E' Hl H1').
    + rewrite E in E'. apply app_inj_1 in E' as [-> [= -> ->]]; [|done]. by eapply HF.
    + by destruct (H2' _ _ _ _ E Hl H1).
  - by destruct (H1' _ _ _ _ E H1).
  - by destruct (H1 _ _ _ _ E' H1').
  - destruct H2 as [[-> (y & pre & e & post & Hy & E & Hf)]|[-> H2]], H2' as [[-> (y' & pre' & e' & post' & Hy' & E' & Hf')]|[-> H2']]; try done.
    + by destruct (H2' _ _ _ _ Hy E Hf).
    + by destruct (H2 _ _ _ _ Hy' E' Hf').
Qed.
Lemma status_iff es x t s : In x adds -> test_of x = Some t -> (dget t (lt_tests (fst (after es))) = Some s <-> status_is re adds es x s).
Proof using HB.
  intros Hx Ht. destruct (run_inv es) as [_ HS]. destruct (HS x t Hx Ht) as (s' & E & HS'). rewrite E. split; [by intros [= <-]|]. intros HS''. f_equal. by eapply status_fun.
Qed.

(** ** The verdict *)
Definition rc_h (h : lhandler) (e : levent) : option (nat * Z) :=
  match h, e with
  | HFixture a allowed, EExit b code sd => if Nat.eqb a b && negb sd && negb (exit_ok allowed code) then Some (pname a, if Z.eqb code 0 then 1%Z else code) else None
  | HProc a, EExit b code sd => if Nat.eqb a b then if Z.eqb code 0 then None else Some (pname a, code) else None
  | _, _ => None
  end.
Lemma handle_rcs h e st : lt_rcs (fst (handle h e st)) = match rc_h h e with Some (p, c) => dset p c (lt_rcs st) | None => lt_rcs st end.
Proof.
  destruct h, e; try done; cbn [lt_handle rc_h].
  - by destruct (_ && _).
  - destruct (Nat.eqb a a0); [|done]. by destruct (Z.eqb code 0).
  - destruct (Nat.eqb a a0); [|done]. by destruct f.
  - by destruct (_ && _).
  - by destruct (unmatched t st).
  - destruct (Nat.eqb a a0); [|done]. destruct (dget t (lt_outs st)) as [[out ps]|]; [|done]. cbn. by destruct (existsb _ _).
Qed.
Lemma rc_h_fun e h h' r r' : rc_h h e = Some r -> rc_h h' e = Some r' -> r = r'.
Proof.
  assert (forall h r, rc_h h e = Some r -> match e with EExit b code _ => r = (pname b, if Z.eqb code 0 then 1%Z else code) | _ => False end) as HR.
  { clear. intros h r. destruct h, e; try done; cbn.
    - destruct (Nat.eqb_spec a a0) as [->|]; [|done]. destruct (_ && _); [|done]. by intros [= <-].
    - destruct (Nat.eqb_spec a a0) as [->|]; [|done]. destruct (Z.eqb_spec code 0); [done|]. by intros [= <-]. }
  intros H1%HR H2%HR. destruct e; try done. congruence.
Qed.
Definition rec_of (L : list lhandler) (e : levent) : option (nat * Z) := head (omap (fun h => rc_h h e) L).
Lemma fold_rcs e L : forall st, lt_rcs (fst (fold_left (step_h e) L st)) = match rec_of L e with Some (p, c) => dset p c (lt_rcs (fst st)) | None => lt_rcs (fst st) end.
Proof.
  induction L as [|h L IH]; intros st; [done|]. cbn [fold_left]. rewrite IH step_h_fst handle_rcs. rewrite {2}/rec_of. cbn [omap list_omap]. destruct (rc_h h e) as [[p c]|] eqn:E; [|done]. cbn [head].
  destruct (rec_of L e) as [[p' c']|] eqn:E'; [|done]. assert ((p', c') = (p, c)) as [= -> ->].
  { rewrite /rec_of in E'. apply head_Some_elem_of in E'. apply elem_of_list_omap in E' as (h' & _ & E'). by eapply rc_h_fun. }
  apply dset_twice.
Qed.
Lemma rec_leaves e p c : rec_of (rev hs) e = Some (p, c) <-> leaves pname adds e p c.
Proof using HB.
  assert (rec_of (rev hs) e = Some (p, c) <-> exists h, In h (rev hs) /\ rc_h h e = Some (p, c)) as ->.
  { rewrite /rec_of. split.
    - intros E%head_Some_elem_of. apply elem_of_list_omap in E as (h & Hh & E). exists h. split; [by apply elem_of_list_In|done].
    - intros (h & Hh & E). assert ((p, c) ∈ omap (fun h => rc_h h e) (rev hs)) as Hi. { apply elem_of_list_omap. exists h. split; [by apply elem_of_list_In|done]. }
      destruct (omap (fun h => rc_h h e) (rev hs)) as [|r l] eqn:El; [by apply not_elem_of_nil in Hi|]. cbn. f_equal.
      assert (r ∈ omap (fun h => rc_h h e) (rev hs)) as Hr. { rewrite El. by left. } apply elem_of_list_omap in Hr as (h' & _ & E'). by eapply rc_h_fun. }
  split.
  - intros (h & Hh & E). apply in_hs in Hh as (x & Hx & Hh). destruct x as [a pr al|a pr|a pr s o ps].
    + destruct pr; [|done]. destruct Hh as [<-|[]]. destruct e as [b code sd| | |]; try done. cbn in E. destruct (Nat.eqb_spec a b) as [->|]; [|done]. destruct sd, (exit_ok al code) eqn:Eok; try done. cbn in E. injection E as <- <-.
      split; [done|]. split; [done|]. right. exists al. split; [done|]. split; [done|]. by apply exit_bad.
    + destruct Hh as [<-|[]]. destruct pr, e as [b code sd| | |]; try done. cbn in E. destruct (Nat.eqb_spec a b) as [->|]; [|done]. destruct (Z.eqb code 0) eqn:Ez; [done|]. injection E as <- <-.
      split; [done|]. rewrite Ez. split; [done|]. left. split; [done|]. by apply Z.eqb_neq.
    + destruct Hh as [<-|[<-|[<-|[]]]]; by destruct e.
  - destruct e as [b code sd| | |]; try done. intros (-> & -> & [[Hin Hz]|(al & Hin & -> & Hok)]).
    + exists (HProc b). split; [apply in_hs; exists (AddTest b true); split; [done|by left]|]. cbn. rewrite Nat.eqb_refl. apply Z.eqb_neq in Hz. by rewrite Hz.
    + exists (HFixture b al). split; [apply in_hs; exists (AddFixture b true al); split; [done|by left]|]. cbn. apply exit_bad in Hok. by rewrite Nat.eqb_refl Hok.
Qed.
Definition recs (es : list levent) : list (nat * Z) := omap (rec_of (rev hs)) es.
Lemma run_rcs es : lt_rcs (fst (after es)) = fold_left (fun l r => dset (fst r) (snd r) l) (recs es) [].
Proof using HB.
  induction es as [|e es IH] using rev_ind; [destruct (build_inv _ _ _ _ _ HB) as (_ & _ & Hr & _); exact Hr|].
  rewrite after_snoc fold_rcs /recs omap_app fold_left_app -/(recs es) -IH. cbn [omap list_omap]. by destruct (rec_of (rev hs) e) as [[p c]|].
Qed.
Lemma recs_first es p c l : recs es = (p, c) :: l -> exists pre e post, es = pre ++ e :: post /\ rec_of (rev hs) e = Some (p, c) /\ recs pre = [] /\ recs post = l.
Proof.
  induction es as [|e es IH]; [done|]. rewrite /recs. cbn [omap list_omap]. destruct (rec_of (rev hs) e) as [r|] eqn:E.
  - intros [= -> <-]. by exists [], e, es.
  - intros H. destruct (IH H) as (pre & e' & post & -> & ? & ? & ?). exists (e :: pre), e', post. split_and!; try done. rewrite /recs. cbn [omap list_omap]. by rewrite E.
Qed.
(** The value of the first key. *)
Lemma fold_head (l : list (nat * Z)) : forall p c m, exists c' m', fold_left (fun l r => dset (fst r) (snd r) l) l ((p, c) :: m) = (p, c') :: m' /\
  ((c' = c /\ (forall c0, ~ In (p, c0) l)) \/ exists l1 l2, l = l1 ++ (p, c') :: l2 /\ forall c0, ~ In (p, c0) l2).
Proof.
  induction l as [|[q d] l IH]; intros p c m; [exists c, m; split; [done|]; left; split; [done|]; by intros ? []|]. cbn [fold_left fst snd dset]. destruct (bool_decide_reflect (q = p)) as [->|Hne].
  - destruct (IH p d m) as (c' & m' & -> & HC). exists c', m'. split; [done|]. right. destruct HC as [[-> HC]|(l1 & l2 & -> & HC)]; [by exists [], l|]. by exists ((p, d) :: l1), l2.
  - destruct (IH p c (dset q d m)) as (c' & m' & -> & HC). exists c', m'. split; [done|]. destruct HC as [[-> HC]|(l1 & l2 & -> & HC)].
    + left. split; [done|]. intros c0 [[= <- _]|Hin]; [done|by eapply HC].
    + right. by exists ((q, d) :: l1), l2.
Qed.
Lemma recs_in es p c : In (p, c) (recs es) <-> exists e, In e es /\ rec_of (rev hs) e = Some (p, c).
Proof. rewrite -elem_of_list_In /recs elem_of_list_omap. by setoid_rewrite elem_of_list_In. Qed.
Lemma recs_split es p c l1 l2 : recs es = l1 ++ (p, c) :: l2 -> exists pre e post, es = pre ++ e :: post /\ rec_of (rev hs) e = Some (p, c) /\ recs post = l2.
Proof.
  revert l1. induction es as [|e es IH]; intros l1; [by destruct l1|]. rewrite /recs. cbn [omap list_omap]. destruct (rec_of (rev hs) e) as [r|] eqn:E.
  - destruct l1 as [|r' l1]; [intros [= -> <-]; by exists [], e, es|]. intros [= <- H]. destruct (IH l1 H) as (pre & e' & post & -> & ? & ?). by exists (e :: pre), e', post.
  - intros H. destruct (IH l1 H) as (pre & e' & post & -> & ? & ?). by exists (e :: pre), e', post.
Qed.
Lemma leaves_nz e p c : leaves pname adds e p c -> c <> 0%Z.
Proof. destruct e as [b code sd| | |]; try done. intros (_ & -> & _). by destruct (Z.eqb_spec code 0). Qed.
Lemma verdict_left es : (exists e p c, In e es /\ leaves pname adds e p c) -> first_left pname adds es (lt_verdict 0 (fst (after es))).
Proof using HB.
  intros (e & p & c & Hin & HL). assert (In (p, c) (recs es)) as Hr. { apply recs_in. exists e. split; [done|]. by apply rec_leaves. }
  rewrite /lt_verdict run_rcs. cbn [Z.eqb]. destruct (recs es) as [|[q d] l] eqn:El; [done|]. destruct (recs_first es q d l El) as (pre & e0 & post & Ees & He0 & Hpre & Hpost).
  cbn [fold_left dset fst snd]. destruct (fold_head l q d []) as (c' & m' & -> & HC).
  assert (exists pre' e' post', es = pre' ++ e' :: post' /\ leaves pname adds e' q c' /\ forall e'' rc', In e'' post' -> ~ leaves pname adds e'' q rc') as HX.
  { assert (forall post' l', recs post' = l' -> (forall c0, ~ In (q, c0) l') -> forall e'' rc', In e'' post' -> ~ leaves pname adds e'' q rc') as HY.
    { intros post' l' Hp Hc e'' rc' Hi HL'. apply (Hc rc'). rewrite -Hp. apply recs_in. exists e''. split; [done|]. by apply rec_leaves. }
    destruct HC as [[-> HC]|(l1 & l2 & -> & HC)].
    - exists pre, e0, post. split; [done|]. split; [by apply rec_leaves|]. by eapply HY.
    - destruct (recs_split es q c' ((q, d) :: l1) l2 El) as (pre' & e' & post' & ? & ? & ?). exists pre', e', post'. split; [done|]. split; [by apply rec_leaves|]. by eapply HY. }
  assert (c' <> 0%Z) as Hnz. { destruct HX as (? & ? & ? & _ & HL' & _). by eapply leaves_nz. }
  cbn [List.find snd]. apply Z.eqb_neq in Hnz. rewrite Hnz. cbn [negb snd].
  exists q, pre, e0, post, d. split; [done|]. split; [by apply rec_leaves|]. split; [|done]. intros e' p' rc' Hi HL'. assert (In (p', rc') (recs pre)) as Hx; [|by rewrite Hpre in Hx]. apply recs_in. exists e'. split; [done|]. by apply rec_leaves.
Qed.
Lemma tests_keys_step h e st t : dget t (lt_tests st) <> None -> dget t (lt_tests (fst (handle h e st))) <> None.
Proof. intros H. rewrite handle_stat. destruct (target h e); [|done]. destruct (eff h e st) as [[s d]|]; [|done]. destruct (bool_decide _); [done|]. destruct d; [|done]. by destruct (dget t (lt_tests st)). Qed.
Lemma set_in t s st x : In x (lt_tests (set_stat t s st)) -> x = (t, s) \/ In x (lt_tests st).
Proof. cbn. apply dset_in. Qed.
Lemma drop_armed_keys st : map fst (lt_tests (drop_armed st)) = map fst (lt_tests st).
Proof. cbn. rewrite map_map. apply map_ext. intros [t s]. by destruct (armed _). Qed.
Lemma dset_keys t (s : tstat) (l : list (tname * tstat)) : In t (map fst l) -> map fst (dset t s l) = map fst l.
Proof.
  induction l as [|[a b] l IH]; [done|]. cbn. destruct (bool_decide_reflect (t = a)) as [->|Hne]; [done|]. intros [->|H]; [done|]. cbn. f_equal. by apply IH.
Qed.
Lemma handle_keys h e st : (forall t, target h e = Some t -> In t (map fst (lt_tests st))) -> map fst (lt_tests (fst (handle h e st))) = map fst (lt_tests st).
Proof.
  intros H. destruct h, e; try done; cbn [lt_handle].
  - by destruct (_ && _).
  - specialize (H _ eq_refl). destruct (Nat.eqb a a0); [|done]. destruct (Z.eqb code 0); [by apply dset_keys|]. rewrite /lt_fail /fst drop_armed_keys. by apply dset_keys.
  - specialize (H _ eq_refl). destruct (Nat.eqb a a0); [|done]. destruct f; rewrite /lt_fail /fst ?drop_armed_keys; by apply dset_keys.
  - specialize (H _ eq_refl). destruct (_ && _); [by apply dset_keys|done].
  - specialize (H _ eq_refl). cbn. destruct (unmatched t st); rewrite dset_keys; try done; rewrite /lt_fail /fst drop_armed_keys; rewrite dset_keys; done.
  - specialize (H _ eq_refl). destruct (Nat.eqb a a0); [|done]. destruct (dget t (lt_outs st)) as [[out ps]|]; [|done]. cbn. destruct (existsb _ _); [done|]. by apply dset_keys.
Qed.
Lemma run_keys es : map fst (lt_tests (fst (after es))) = omap test_of adds.
Proof using HB.
  induction es as [|e es IH] using rev_ind.
  - cbn. destruct (build_inv _ _ _ _ _ HB) as (_ & -> & _). cbn. rewrite map_map. apply map_id.
  - rewrite after_snoc -IH. assert (forall h, In h (rev hs) -> forall t, target h e = Some t -> In t (map fst (lt_tests (fst (after es))))) as HT.
    { intros h Hh t Ht. rewrite IH. apply in_hs in Hh as (x & Hx & Hh). eapply test_in; [done|]. by eapply target_test. }
    revert HT. generalize (rev hs) (after es). clear. induction l as [|h L IH]; intros st HT; [done|]. cbn [fold_left].
    assert (map fst (lt_tests (fst (step_h e st h))) = map fst (lt_tests (fst st))) as E. { rewrite step_h_fst. apply handle_keys. apply HT. by left. }
    rewrite IH; [|done]. intros h' Hh'. rewrite E. apply HT. by right.
Qed.
Lemma dget_nodup {K V} `{EqDecision K} (l : list (K * V)) k v : NoDup (map fst l) -> In (k, v) l -> dget k l = Some v.
Proof.
  induction l as [|[a b] l IH]; [done|]. cbn. intros HN. inversion HN as [|? ? Hni HN']; subst. intros [[= -> ->]|Hin]; [by rewrite bool_decide_true|]. rewrite bool_decide_false; [|by apply IH]. intros ->. apply Hni. apply elem_of_list_In, in_map_iff. by exists (a, v).
Qed.
Lemma tests_in es t s : In (t, s) (lt_tests (fst (after es))) <-> exists x, In x adds /\ test_of x = Some t /\ status_is re adds es x s.
Proof using HB.
  split.
  - intros Hin. assert (In t (omap test_of adds)) as Ht. { rewrite -(run_keys es). apply in_map_iff. by exists (t, s). }
    apply elem_of_list_In, elem_of_list_omap in Ht as (x & Hx%elem_of_list_In & Ht). exists x. split; [done|]. split; [done|]. eapply status_iff; [done|exact Ht|]. apply dget_nodup; [|done]. rewrite run_keys. apply run_nodup.
  - intros (x & Hx & Ht & Hs). apply (status_iff es x t s Hx Ht) in Hs. by apply dget_in.
Qed.
Lemma verdict_none es : (forall e p c, In e es -> ~ leaves pname adds e p c) ->
  lt_verdict 0 (fst (after es)) = 1%Z /\ (exists x, In x adds /\ test_of x <> None /\ status_is re adds es x SFailed) \/
  lt_verdict 0 (fst (after es)) = 0%Z /\ (forall x, In x adds -> test_of x <> None -> ~ status_is re adds es x SFailed).
Proof using HB.
  intros Hno. assert (recs es = []) as Hr. { destruct (recs es) as [|[p c] l] eqn:El; [done|]. exfalso. assert (In (p, c) (recs es)) as Hi by (rewrite El; by left). apply recs_in in Hi as (e & Hi & E). by eapply Hno, rec_leaves. }
  rewrite /lt_verdict run_rcs Hr. cbn [Z.eqb fold_left List.find]. destruct (existsb _ _) eqn:E.
  - left. split; [done|]. apply existsb_exists in E as ([t s] & Hin & Hs). cbn in Hs. rewrite bool_decide_eq_true in Hs. subst s. apply tests_in in Hin as (x & Hx & Ht & Hs). exists x. split; [done|]. split; [by rewrite Ht|done].
  - right. split; [done|]. intros x Hx Ht Hs. destruct (test_of x) as [t|] eqn:Et; [|done]. assert (In (t, SFailed) (lt_tests (fst (after es)))) as Hi by (apply tests_in; by exists x).
    assert (existsb (fun x => bool_decide (snd x = SFailed)) (lt_tests (fst (after es))) = true) as E'; [|congruence]. apply existsb_exists. exists (t, SFailed). split; [done|]. by rewrite bool_decide_true.
Qed.

(** ** Shutdown events *)
Lemma set_none t s st : s <> SArmed -> none_armed st = true -> none_armed (set_stat t s st) = true.
Proof.
  intros Hs H. rewrite /none_armed in H |- *. apply forallb_forall. intros x Hx. apply set_in in Hx as [->|Hx]; [cbn; rewrite /armed; by rewrite bool_decide_false|]. by apply (proj1 (forallb_forall _ _) H).
Qed.
Lemma drop_none st : none_armed (drop_armed st) = true.
Proof.
  rewrite /none_armed. apply forallb_forall. intros x Hx. cbn in Hx. apply in_map_iff in Hx as ([t s] & <- & _). rewrite /armed. cbn. by destruct (bool_decide_reflect (s = SArmed)); [|rewrite bool_decide_false].
Qed.
Lemma handle_none h e st : none_armed st = true -> none_armed (fst (handle h e st)) = true.
Proof.
  intros H. destruct h, e; try done; cbn [lt_handle].
  - by destruct (_ && _).
  - destruct (Nat.eqb a a0); [|done]. destruct (Z.eqb code 0); [by apply set_none|apply drop_none].
  - destruct (Nat.eqb a a0); [|done]. destruct f; (by apply set_none) || apply drop_none.
  - destruct (_ && _); [by apply set_none|done].
  - apply set_none; [done|]. destruct (unmatched t st); [apply drop_none|done].
  - destruct (Nat.eqb a a0); [|done]. destruct (dget t (lt_outs st)) as [[out ps]|]; [|done]. cbn zeta. destruct (existsb _ _); [done|]. by apply set_none.
Qed.
Lemma handle_all h e st : In AllFinished (snd (handle h e st)) -> none_armed (fst (handle h e st)) = true.
Proof.
  destruct h, e; try done; cbn [lt_handle].
  - destruct (_ && _); [by intros [|[]]|done].
  - destruct (Nat.eqb a a0); [|done]. destruct (Z.eqb code 0); [|by intros [|[]]]. rewrite /lt_succeed. cbn [fst snd]. by destruct (none_armed _).
  - destruct (Nat.eqb a a0); [|done]. destruct f; try (by intros [|[]]); rewrite /lt_succeed; cbn [fst snd]; by destruct (none_armed _).
  - destruct (_ && _); [|done]. rewrite /lt_finish. cbn [fst snd]. by destruct (none_armed _).
  - destruct (Nat.eqb a a0); [|done]. destruct (dget t (lt_outs st)) as [[out ps]|]; [|done]. cbn zeta. destruct (existsb _ _); [done|]. rewrite /lt_succeed. cbn [fst snd]. destruct (none_armed _); [done|]. destruct (ot_side o); [by intros [|[]]|by intros []].
Qed.
Lemma handle_quiet h e st : e <> EShut -> (forall a, e <> EDone a FCancelled) -> snd (handle h e st) = [] ->
  none_armed (fst (handle h e st)) = false \/ lt_tests (fst (handle h e st)) = lt_tests st.
Proof.
  intros H1 H2. destruct h, e; try (by right); try done; cbn [lt_handle].
  - destruct (_ && _); by right.
  - destruct (Nat.eqb a a0); [|by right]. destruct (Z.eqb code 0); [|done]. rewrite /lt_succeed. cbn [fst snd]. destruct (none_armed _); [done|by left].
  - destruct (Nat.eqb a a0); [|by right]. destruct f; try done; try (by destruct (H2 a0)); rewrite /lt_succeed; cbn [fst snd]; (destruct (none_armed _); [done|by left]).
  - destruct (_ && _); [|by right]. rewrite /lt_finish. cbn [fst snd]. destruct (none_armed _); [done|by left].
  - destruct (Nat.eqb a a0); [|by right]. destruct (dget t (lt_outs st)) as [[out ps]|]; [|by right]. cbn zeta. destruct (existsb _ _); [by right|]. rewrite /lt_succeed. cbn [fst snd]. destruct (none_armed _); [done|by left].
Qed.
Lemma step_h_snd e st h : snd (step_h e st h) = snd st ++ snd (handle h e (fst st)).
Proof. rewrite /step_h. by destruct (handle h e (fst st)). Qed.
Lemma fold_all e L : forall st, (In AllFinished (snd st) -> none_armed (fst st) = true) -> In AllFinished (snd (fold_left (step_h e) L st)) -> none_armed (fst (fold_left (step_h e) L st)) = true.
Proof.
  induction L as [|h L IH]; intros st H; [done|]. cbn [fold_left]. apply IH. rewrite step_h_snd step_h_fst in_app_iff. intros [Hi|Hi]; [by apply handle_none, H|by apply handle_all].
Qed.
Lemma fold_quiet e L : e <> EShut -> (forall a, e <> EDone a FCancelled) -> forall st, (snd st = [] -> none_armed (fst st) = false) ->
  snd (fold_left (step_h e) L st) = [] -> none_armed (fst (fold_left (step_h e) L st)) = false.
Proof.
  intros H1 H2. induction L as [|h L IH]; intros st H; [done|]. cbn [fold_left]. apply IH. rewrite step_h_snd step_h_fst. intros [E1 E2]%app_eq_nil.
  destruct (handle_quiet h e (fst st) H1 H2 E2) as [Hq|Hq]; [done|]. rewrite /none_armed Hq. by apply H.
Qed.
Lemma none_iff es : none_armed (fst (after es)) = true <-> forall x, In x adds -> test_of x <> None -> ~ status_is re adds es x SArmed.
Proof using HB.
  rewrite /none_armed forallb_forall. split.
  - intros H x Hx Ht Hs. destruct (test_of x) as [t|] eqn:Et; [|done]. assert (In (t, SArmed) (lt_tests (fst (after es)))) as Hi by (apply tests_in; by exists x). by specialize (H _ Hi).
  - intros H [t s] Hin. cbn. rewrite /armed. destruct (bool_decide_reflect (s = SArmed)) as [->|]; [|done]. apply tests_in in Hin as (x & Hx & Ht & Hs). destruct (H x Hx); [by rewrite Ht|done].
Qed.
Lemma run_all es : In AllFinished (snd (after es)) -> none_armed (fst (after es)) = true.
Proof. induction es as [|e es IH] using rev_ind; [done|]. rewrite after_snoc. by apply fold_all. Qed.
Lemma run_quiet es : omap test_of adds <> [] -> Forall (fun e => e <> EShut /\ forall a, e <> EDone a FCancelled) es -> snd (after es) = [] -> none_armed (fst (after es)) = false.
Proof using HB.
  intros Hne. induction es as [|e es IH] using rev_ind; intros HF.
  - intros _. cbn. destruct (build_inv _ _ _ _ _ HB) as (_ & Ht & _). rewrite /none_armed Ht. by destruct (omap test_of adds).
  - apply Forall_app in HF as [HF [[H1 H2] _]%List.Forall_cons_iff]. rewrite after_snoc. apply fold_quiet; [done|done|]. by apply IH.
Qed.
Lemma handle_failed h e st t : In (TestFailed t) (snd (handle h e st)) <-> e <> EShut /\ target h e = Some t /\ drops e st h = true.
Proof.
  rewrite /drops. destruct h, e; try (by split; [|intros (? & ? & ?)]); cbn [lt_handle target eff].
  - destruct (_ && _); cbn; (split; [|by intros (? & ? & ?)]); by intros [|[]] || done.
  - destruct (Nat.eqb a a0); [|by split; [|intros (? & ? & ?)]]. destruct (Z.eqb code 0).
    + rewrite /lt_succeed. cbn [fst snd]. destruct (none_armed _); (split; [|by intros (? & ? & ?)]); by intros [|[]] || done.
    + cbn. split; [intros [[= <-]|[]]; done|]. intros (_ & [= <-] & _). by left.
  - destruct (Nat.eqb a a0); [|by split; [|intros (? & ? & ?)]]. destruct f; rewrite /lt_succeed; cbn [lt_drop lt_fail fst snd];
      try (destruct (none_armed _); (split; [|by intros (? & ? & ?)]); by intros [|[]] || done); try (by split; [|intros (? & ? & ?)]).
    split; [intros [[= <-]|[]]; done|]. intros (_ & [= <-] & _). by left.
  - destruct (_ && _); [|by split; [|intros (? & ? & ?)]]. rewrite /lt_finish. cbn [fst snd]. destruct (none_armed _); (split; [|by intros (? & ? & ?)]); by intros [|[]] || done.
  - destruct (Nat.eqb a a0); [|by split; [|intros (? & ? & ?)]]. destruct (dget t0 (lt_outs st)) as [[out ps]|]; [|by split; [|intros (? & ? & ?)]]. rewrite /new_out. cbn [fst snd]. destruct (existsb _ _); [by split; [|intros (? & ? & ?)]|]. rewrite /lt_succeed. cbn [fst snd].
    destruct (none_armed _); [|destruct (ot_side o)]; (split; [|by intros (? & ? & ?)]); by intros [|[]] || done.
Qed.
Lemma fold_failed e t L : NoDup (targets e L) -> forall st,
  In (TestFailed t) (snd (fold_left (step_h e) L st)) <-> In (TestFailed t) (snd st) \/ (e <> EShut /\ exists h, In h L /\ target h e = Some t /\ drops e (fst st) h = true).
Proof.
  induction L as [|h L IH]; intros HN st; [cbn; split; [by left|]; by intros [|(_ & ? & [] & _)]|]. cbn [fold_left].
  assert (NoDup (targets e L)) as HN'. { cbn in HN. destruct (target h e); [by inversion HN|done]. }
  rewrite (IH HN') step_h_snd step_h_fst in_app_iff handle_failed. pose proof (eff_after e L h (fst st) HN) as HE. split.
  - intros [[?|(? & ? & ?)]|(? & h' & Hin & ? & Hd)]; [by left| |]; right; (split; [done|]); [exists h; split; [by left|done]|]. exists h'. split; [by right|]. split; [done|]. rewrite /drops HE // in Hd.
  - intros [?|(? & h' & [<-|Hin] & ? & Hd)]; [by left; left|by left; right|]. right. split; [done|]. exists h'. split; [done|]. split; [done|]. by rewrite /drops HE.
Qed.
Lemma run_failed es t : In (TestFailed t) (snd (after es)) <-> exists x pre e post, In x adds /\ test_of x = Some t /\ es = pre ++ e :: post /\ e <> EShut /\ fails re x pre e.
Proof using HB.
  induction es as [|e es IH] using rev_ind; [split; [done|]; by intros (? & [|] & ? & ? & _ & _ & ? & _)|]. rewrite after_snoc (fold_failed _ _ _ (run_targets e)) IH. destruct (run_inv es) as [HI _]. split.
  - intros [(x & pre & e' & post & ? & ? & -> & ? & ?)|(He & h & Hh & Ht & Hd)].
    + exists x, pre, e', (post ++ [e]). split_and!; try done. by rewrite -app_assoc.
    + apply in_hs in Hh as (x & Hx & Hh). exists x, es, e, []. split; [done|]. pose proof (target_test _ _ _ _ Hh Ht) as Htx. split_and!; try done. pose proof (eff_spec adds x h e _ es t HI Hx Hh Ht Htx) as HE. rewrite /drops in Hd. destruct (eff h e _) as [[s d]|]; [|done]. by apply HE.
  - intros (x & pre & e' & post & Hx & Ht & E & He & Hf). apply snoc_split in E as [(-> & -> & ->)|(post' & -> & ->)]; [|by left; exists x, pre, e', post'].
    right. split; [done|]. destruct (target_dec x e) as [(h & t' & Hh & Et)|Hn]; [|by destruct (no_target x e es Hn)]. exists h. split; [apply in_hs; by exists x|]. pose proof (target_test _ _ _ _ Hh Et) as Htx. assert (t' = t) as -> by congruence. split; [done|].
    pose proof (eff_spec adds x h e _ es t HI Hx Hh Et Htx) as HE. rewrite /drops. destruct (eff h e _) as [[s d]|]; [by apply HE|by destruct HE].
Qed.
Definition dies (h : lhandler) (e : levent) : option nat := match h, e with HFixture a al, EExit b code sd => if Nat.eqb a b && negb sd && negb (exit_ok al code) then Some (pname a) else None | _, _ => None end.
Lemma handle_died h e st p : In (FixtureDied p) (snd (handle h e st)) <-> dies h e = Some p.
Proof.
  destruct h, e; try done; cbn [lt_handle dies].
  - destruct (_ && _); cbn; [|done]. split; [by intros [[= <-]|[]]|]. intros [= <-]. by left.
  - split; [|done]. destruct (Nat.eqb a a0); [|done]. destruct (Z.eqb code 0); [|by intros [|[]]]. rewrite /lt_succeed. cbn [fst snd]. destruct (none_armed _); [by intros [|[]]|done].
  - split; [|done]. destruct (Nat.eqb a a0); [|done]. destruct f; try (by intros [|[]]); try (by intros []); rewrite /lt_succeed; cbn [fst snd]; destruct (none_armed _); [by intros [|[]]|done|by intros [|[]]|done].
  - split; [|done]. destruct (_ && _); [|done]. rewrite /lt_finish. cbn [fst snd]. destruct (none_armed _); [by intros [|[]]|done].
  - split; [|done]. destruct (Nat.eqb a a0); [|done]. destruct (dget t (lt_outs st)) as [[out ps]|]; [|done]. cbn zeta. destruct (existsb _ _); [done|]. rewrite /lt_succeed. cbn [fst snd]. destruct (none_armed _); [by intros [|[]]|]. destruct (ot_side o); [by intros [|[]]|done].
Qed.
Lemma run_died es p : In (FixtureDied p) (snd (after es)) <-> exists a allowed code, In (AddFixture a true allowed) adds /\ In (EExit a code false) es /\ exit_ok allowed code = false /\ p = pname a.
Proof using HB.
  assert (forall e L st, In (FixtureDied p) (snd (fold_left (step_h e) L st)) <-> In (FixtureDied p) (snd st) \/ exists h, In h L /\ dies h e = Some p) as HF.
  { clear. intros e. induction L as [|h L IH]; intros st; [cbn; split; [by left|]; by intros [|(? & [] & _)]|]. cbn [fold_left]. rewrite IH step_h_snd in_app_iff handle_died. split.
    - intros [[?|?]|(h' & ? & ?)]; [by left| |]; right; [exists h; split; [by left|done]|exists h'; split; [by right|done]].
    - intros [?|(h' & [<-|?] & ?)]; [by left; left|by left; right|]. right. by exists h'. }
  induction es as [|e es IH] using rev_ind; [split; [done|]; by intros (? & ? & ? & _ & [] & _)|]. rewrite after_snoc HF IH. split.
  - intros [(a & al & code & ? & ? & ? & ->)|(h & Hh & Hd)].
    + exists a, al, code. split; [done|]. split; [|done]. apply in_or_app. by left.
    + apply in_hs in Hh as (x & Hx & Hh). destruct h as [a al| | | | |]; try done. destruct e as [b code sd| | |]; try done. cbn in Hd. destruct (Nat.eqb_spec a b) as [<-|]; [|done]. destruct sd, (exit_ok al code) eqn:Eok; try done. injection Hd as <-.
      exists a, al, code. split; [|split; [apply in_or_app; right; by left|done]]. destruct x as [a' pr al'|a' pr|a' pr s o ps]; cbn in Hh.
      * destruct pr; [|done]. by destruct Hh as [[= -> ->]|[]].
      * by destruct Hh as [Hh|[]], pr.
      * by destruct Hh as [?|[?|[?|[]]]].
  - intros (a & al & code & Hx & Hin & Hok & ->). apply in_app_iff in Hin as [Hin|[->|[]]]; [left; by exists a, al, code|]. right. exists (HFixture a al). split; [apply in_hs; exists (AddFixture a true al); split; [done|by left]|]. cbn. by rewrite Nat.eqb_refl Hok.
Qed.
Lemma run_side es a pr s o pre text post : forall ps, In (AddOutput a pr s o ps) adds -> ot_side o = true -> es = pre ++ EOut a text :: post -> ~ missing re o ps (outputs a (pre ++ [EOut a text])) ->
  In AfterTest (snd (after es)) \/ In AllFinished (snd (after es)).
Proof using HB.
  assert (forall e L st z, In z (snd st) -> In z (snd (fold_left (step_h e) L st))) as HM.
  { clear. intros e. induction L as [|h L IH]; intros st z Hz; [done|]. cbn [fold_left]. apply IH. rewrite step_h_snd in_app_iff. by left. }
  intros ps Hx Hside -> Hm. induction post as [|e post IH] using rev_ind.
  - rewrite after_snoc. destruct (run_inv pre) as [HI _]. pose proof (run_targets (EOut a text)) as HN. assert (In (HOutIO a (a, Some s) o) (rev hs)) as Hi. { apply in_hs. exists (AddOutput a pr s o ps). split; [done|]. cbn. by do 2 right; left. }
    pose proof (eff_spec adds (AddOutput a pr s o ps) (HOutIO a (a, Some s) o) (EOut a text) _ pre (a, Some s) HI Hx ltac:(cbn; by do 2 right; left) eq_refl eq_refl) as HE.
    assert (eff (HOutIO a (a, Some s) o) (EOut a text) (fst (after pre)) = Some (SSucceeded, false)) as Hef.
    { destruct (eff _ _ _) as [[s' d]|]; [|exfalso; destruct HE as [HE _]; apply (HE SSucceeded); done]. destruct HE as (_ & HE & Hd). rewrite (HE SSucceeded); [done|]. destruct d; [|done]. by destruct (proj1 Hd eq_refl). }
    revert HN Hi Hef. generalize (rev hs) (after pre). clear -Hside HM. induction l as [|h L IH]; intros st HN Hi Hef; [done|]. cbn [fold_left]. destruct Hi as [->|Hi].
    + assert (In AfterTest (snd (step_h (EOut a text) st (HOutIO a (a, Some s) o))) \/ In AllFinished (snd (step_h (EOut a text) st (HOutIO a (a, Some s) o)))) as [H|H]; [|by left; apply HM|by right; apply HM].
      rewrite step_h_snd !in_app_iff. cbn [eff lt_handle] in Hef |- *. rewrite Nat.eqb_refl in Hef |- *. destruct (dget _ _) as [[out ps]|]; [|done]. rewrite /new_out in Hef. cbn [fst snd] in Hef. cbn zeta. destruct (existsb _ _); [done|]. rewrite /lt_succeed. cbn [fst snd]. destruct (none_armed _); [right; right; by left|]. rewrite Hside. left. right. by left.
    + apply IH; [|done|]. * cbn in HN. destruct (target h (EOut a text)); [by inversion HN|done]. * rewrite step_h_fst. rewrite (eff_after (EOut a text) L h (fst st) HN); done.
  - rewrite app_comm_cons app_assoc after_snoc. destruct IH; [left|right]; by apply HM.
Qed.
Lemma handle_side h e st : In AfterTest (snd (handle h e st)) -> exists a t o text, h = HOutIO a t o /\ e = EOut a text /\ ot_side o = true /\ eff h e st = Some (SSucceeded, false).
Proof.
  destruct h, e; try done; cbn [lt_handle].
  - destruct (_ && _); [by intros [|[]]|done].
  - destruct (Nat.eqb a a0); [|done]. destruct (Z.eqb code 0); [|by intros [|[]]]. rewrite /lt_succeed. cbn [fst snd]. destruct (none_armed _); [by intros [|[]]|done].
  - destruct (Nat.eqb a a0); [|done]. destruct f; try (by intros [|[]]); try (by intros []); rewrite /lt_succeed; cbn [fst snd]; destruct (none_armed _); [by intros [|[]]|done|by intros [|[]]|done].
  - destruct (_ && _); [|done]. rewrite /lt_finish. cbn [fst snd]. destruct (none_armed _); [by intros [|[]]|done].
  - destruct (Nat.eqb_spec a a0) as [->|]; [|done]. destruct (dget t (lt_outs st)) as [[out ps]|] eqn:E; [|done]. cbn zeta. destruct (existsb _ _) eqn:Eb; [done|]. rewrite /lt_succeed. cbn [fst snd]. destruct (none_armed _); [by intros [|[]]|]. destruct (ot_side o) eqn:Es; [|done]. intros _. exists a0, t, o, text. split_and!; try done. cbn. rewrite Nat.eqb_refl E /new_out. cbn [fst snd]. by rewrite Eb.
Qed.
Lemma run_side_only es : In AfterTest (snd (after es)) -> exists a pr s o ps pre text post, In (AddOutput a pr s o ps) adds /\ ot_side o = true /\ es = pre ++ EOut a text :: post /\ ~ missing re o ps (outputs a (pre ++ [EOut a text])).
Proof using HB.
  induction es as [|e es IH] using rev_ind; [done|]. rewrite after_snoc. destruct (run_inv es) as [HI _]. intros Hin.
  assert (In AfterTest (snd (after es)) \/ exists h, In h (rev hs) /\ exists a t o text, h = HOutIO a t o /\ e = EOut a text /\ ot_side o = true /\ eff h e (fst (after es)) = Some (SSucceeded, false)) as [H|(h & Hh & a & t & o & text & -> & -> & Hs & Hef)].
  { revert Hin. pose proof (run_targets e) as HN. revert HN. generalize (rev hs) (after es). clear. induction l as [|h L IH]; intros st HN Hin; [by left|]. cbn [fold_left] in Hin.
    assert (NoDup (targets e L)) as HN'. { cbn in HN. destruct (target h e); [by inversion HN|done]. }
    pose proof (eff_after e L h (fst st) HN) as HE. destruct (IH _ HN' Hin) as [H|(h' & Hi & a & t & o & text & ? & ? & ? & Hef)].
    - rewrite step_h_snd in_app_iff in H. destruct H as [H|H]; [by left|]. right. exists h. split; [by left|]. by apply handle_side.
    - right. exists h'. split; [by right|]. exists a, t, o, text. split_and!; try done. rewrite step_h_fst HE // in Hef. }
  - destruct (IH H) as (a & pr & s & o & ps & pre & text & post & Hx & Hs & -> & Hm). exists a, pr, s, o, ps, pre, text, (post ++ [e]). split; [done|]. split; [done|]. split; [by rewrite -app_assoc|done].
  - apply in_hs in Hh as (x & Hx & Hh). pose proof (target_test _ _ (EOut a text) _ Hh eq_refl) as Htx. pose proof (eff_spec adds x _ (EOut a text) _ es t HI Hx Hh eq_refl Htx) as HE. rewrite Hef in HE. destruct x as [|a' pr|a' pr s o' ps]; [done|by destruct Hh as [Hh|[]], pr|].
    destruct Hh as [?|[?|[Heq|[]]]]; try done. injection Heq as -> <- ->. exists a, pr, s, o, ps, es, text, []. split; [done|]. split; [done|]. split; [done|]. apply HE.
Qed.
End run.
End service.

(** ** Lines *)
Lemma no_end_cons c s : no_end (String c s) <-> (c <> nl /\ c <> crc) /\ no_end s.
Proof.
  split.
  - intros H. split; [by apply (H "" s c)|]. intros a b d ->. by apply (H (String c a) b d).
  - intros [H1 H2] [|x a] b d; cbn; intros [= ? ?]; subst; [done|by eapply H2].
Qed.
Lemma no_end_nil : no_end "".
Proof. intros [|] ? ?; done. Qed.
Lemma no_end_app a b : no_end (a ++ b) <-> no_end a /\ no_end b.
Proof.
  induction a as [|c a IH]; [split; [intros H; split; [apply no_end_nil|done]|by intros []]|]. cbn [String.append]. rewrite !no_end_cons IH. tauto.
Qed.
Lemma occurs_cons s c t : occurs s (String c t) <-> (exists b, String c t = (s ++ b)%string) \/ occurs s t.
Proof.
  split.
  - intros ([|x a] & b & E); [left; by exists b|]. injection E as -> ->. right. by exists a, b.
  - intros [[b E]|(a & b & ->)]; [by exists "", b|by exists (String c a), b].
Qed.
Lemma occurs_pre s a t : occurs s t -> occurs s (a ++ t).
Proof. intros (x & y & ->). exists (a ++ x)%string, y. by rewrite StrFacts.str_app_assoc. Qed.
Lemma occurs_post s a t : occurs s t -> occurs s (t ++ a).
Proof. intros (x & y & ->). exists x, (y ++ a)%string. by rewrite !StrFacts.str_app_assoc. Qed.
Definition is_end (c : ascii) : Prop := c = nl \/ c = crc.
Lemma prefix_mid c y : is_end c -> forall p x b, no_end p -> (x ++ String c y)%string = (p ++ b)%string -> exists b', x = (p ++ b')%string.
Proof.
  intros Hc. induction p as [|d p IH]; intros x b Hp E; [by exists x|]. apply no_end_cons in Hp as [Hd Hp]. destruct x as [|e x]; cbn in E; injection E as -> E.
  - exfalso. destruct Hc as [->| ->]; by destruct Hd.
  - destruct (IH x b Hp E) as (b' & ->). by exists b'.
Qed.
Lemma occurs_mid c y p : is_end c -> no_end p -> p <> "" -> forall x, occurs p (x ++ String c y) <-> occurs p x \/ occurs p y.
Proof.
  intros Hc Hp Hne. induction x as [|d x IH]; cbn [String.append].
  - rewrite occurs_cons. split; [|intros [(a & b & E)|]; [|by right]; destruct a, p; done]. intros [[b E]|H]; [|by right]. destruct p as [|e p]; [done|]. injection E as -> _. exfalso. apply no_end_cons in Hp as [[? ?] _]. by destruct Hc.
  - rewrite !occurs_cons IH. split.
    + intros [[b E]|[?|?]]; [|by left; right|by right]. left. left. apply (prefix_mid c y Hc p (String d x) b Hp E).
    + intros [[[b E]|?]|?]; [|by right; left|by right; right]. left. exists (b ++ String c y)%string. cbn [String.append] in E. rewrite -StrFacts.str_app_assoc -E. done.
Qed.
Lemma contains_occurs s t : contains s t = true <-> occurs s t.
Proof. apply TestingFacts.contains_iff. Qed.
Lemma occurs_no_end s t : occurs s t -> no_end t -> no_end s.
Proof. intros (a & b & ->). by rewrite !no_end_app; intros (_ & ? & _). Qed.
Lemma lines_law p : p <> "" -> forall n s cur, String.length s <= n -> no_end cur ->
  existsb (contains p) (split_lines cur s) = true <-> no_end p /\ occurs p (cur ++ s).
Proof.
  intros Hne. induction n as [|n IH]; intros s cur Hn Hc.
  all: destruct s as [|c r]; cbn in Hn; try lia; cbn [split_lines].
  1, 2: rewrite StrFacts.str_app_nil; destruct cur as [|d cur]; [split; [done|]; intros (_ & a & b & E); by destruct a, p|]; cbn [existsb]; rewrite orb_false_r contains_occurs; split; [|by intros []]; intros H; split; [by eapply occurs_no_end|done].
  assert (forall c y l, is_end c -> existsb (contains p) l = true <-> no_end p /\ occurs p y ->
     existsb (contains p) (cur :: l) = true <-> no_end p /\ occurs p (cur ++ String c y)) as HK.
  { intros c' y l Hc' Hl. cbn [existsb]. rewrite orb_true_iff Hl contains_occurs. split.
    - intros [H|[Hp H]]; [assert (no_end p) by (by eapply occurs_no_end)|]; (split; [done|]); apply occurs_mid; try done; [by left|by right].
    - intros [Hp H]. apply occurs_mid in H as [H|H]; try done; [by left|by right]. }
  destruct (Ascii.eqb_spec c nl) as [->|Hnl]; [apply HK; [by left|]; apply (IH r ""); [lia|apply no_end_nil]|].
  destruct (Ascii.eqb_spec c crc) as [->|Hcr].
  - destruct r as [|d r]; [apply (HK crc "" []); [by right|]; split; [done|]; intros (_ & a & b & E); by destruct a, p|]. destruct (Ascii.eqb_spec d nl) as [->|Hd].
    + apply HK; [by right|]. rewrite occurs_cons. rewrite (IH r "" ltac:(cbn in Hn; lia) no_end_nil). cbn [String.append]. split; [intros [? ?]; split; [done|by right]|]. intros [Hp [[b E]|?]]; [|done]. destruct p as [|e p]; [done|]. injection E as <- _. apply no_end_cons in Hp as [[? _] _]. done.
    + apply HK; [by right|]. apply (IH (String d r) ""); [cbn in Hn |- *; lia|apply no_end_nil].
  - rewrite (IH r (cur ++ String c "")%string ltac:(lia)); [|by rewrite StrFacts.str_app_assoc]. apply no_end_app. split; [done|]. apply no_end_cons. split; [done|apply no_end_nil].
Qed.
Lemma splitlines_law p s : p <> "" -> existsb (contains p) (splitlines s) = true <-> no_end p /\ occurs p s.
Proof. intros Hp. apply (lines_law p Hp (String.length s) s ""); [done|apply no_end_nil]. Qed.
Lemma collected_lines o texts : ot_lines o = true -> collected_output o texts = in_a_row (map (ot_filter o) texts).
Proof.
  intros Ho. rewrite /collected_output. assert (forall out, fold_left (fun out text => collate o out (ot_filter o text)) texts out = (out ++ in_a_row (map (ot_filter o) texts))%string) as H; [|apply H].
  induction texts as [|t texts IH]; intros out; cbn [fold_left map in_a_row fold_right]; [by rewrite StrFacts.str_app_nil|]. rewrite IH /collate Ho StrFacts.str_app_assoc. done.
Qed.
Lemma in_a_row_take (f : string -> string) (texts : list string) (n : nat) : exists b, in_a_row (map f texts) = (in_a_row (map f (take n texts)) ++ b)%string.
Proof.
  revert n. induction texts as [|t texts IH]; intros [|n]; cbn; try (by eexists). destruct (IH n) as (b & E). exists b. rewrite /in_a_row in E. rewrite E. by rewrite StrFacts.str_app_assoc.
Qed.
Lemma missing_lines re o ps texts : ot_lines o = true -> Forall (fun p => exists s, p = PText s) ps ->
  missing re o ps texts <-> exists s, In (PText s) ps /\ s <> "" /\ ~ (no_end s /\ occurs s (in_a_row (map (ot_filter o) texts))).
Proof.
  intros Ho HF. split.
  - intros (p & [Hin Hn] & Ht). destruct (proj1 (List.Forall_forall _ _) HF p Hin) as (s & ->). exists s. split; [done|]. assert (s <> "") as Hs by (by intros ->). split; [done|]. intros HX.
    destruct texts as [|t texts]; [destruct HX as (_ & a & b & E); by destruct a, s|]. specialize (Hn (length (t :: texts)) ltac:(cbn; lia)). rewrite firstn_all collected_lines // in Hn. cbn [matched] in Hn. apply (splitlines_law s _ Hs) in HX. congruence.
  - intros (s & Hin & Hs & HX). exists (PText s). split; [|by destruct s]. split; [done|]. intros n Hn. rewrite collected_lines //. cbn [matched]. apply not_true_iff_false. rewrite (splitlines_law s _ Hs). intros [H1 H2]. apply HX. split; [done|]. destruct (in_a_row_take (ot_filter o) texts n) as (b & ->). by apply occurs_post.
Qed.

(** ** The filter *)
Section filter.
Context (lm : nat -> string -> bool) (prefixes : list string).
Notation pre line := (existsb (fun p => starts_with p line) prefixes).
Lemma filter_nil lines : filter_lines lm prefixes lines [] = (List.filter (fun l => negb (pre l)) lines, []).
Proof. induction lines as [|l lines IH]; [done|]. cbn. destruct (pre l); cbn; by rewrite IH. Qed.
Lemma any_pat_none line pats : (forall r, In r pats -> lm r line = false) -> any_pat lm line pats = (false, []).
Proof. induction pats as [|r pats IH]; intros H; [done|]. cbn. rewrite H; [by left|]. apply IH. intros r' Hr. apply H. by right. Qed.
Lemma filter_spent line lines pats : pre line = false -> (forall r, In r pats -> lm r line = false) ->
  filter_lines lm prefixes (line :: lines) pats = filter_lines lm prefixes (line :: lines) [].
Proof. intros H1 H2. cbn. by rewrite H1 any_pat_none. Qed.
Lemma split_no_end : forall n s cur, String.length s <= n -> no_end cur -> Forall no_end (split_lines cur s).
Proof.
  induction n as [|n IH]; intros s cur Hn Hc.
  all: destruct s as [|c r]; cbn in Hn; try lia; cbn [split_lines].
  1, 2: destruct cur; [apply List.Forall_nil|apply List.Forall_cons; [done|apply List.Forall_nil]].
  destruct (Ascii.eqb_spec c nl) as [->|Hnl]; [apply List.Forall_cons; [done|]; apply IH; [lia|apply no_end_nil]|].
  destruct (Ascii.eqb_spec c crc) as [->|Hcr].
  - destruct r as [|d r]; [apply List.Forall_cons; [done|apply List.Forall_nil]|]. destruct (Ascii.eqb d nl); (apply List.Forall_cons; [done|]; apply IH; [cbn in Hn |- *; lia|apply no_end_nil]).
  - apply IH; [lia|]. apply no_end_app. split; [done|]. apply no_end_cons. split; [done|apply no_end_nil].
Qed.
Lemma split_line cur l r : no_end l -> split_lines cur (l ++ String nl r) = (cur ++ l)%string :: split_lines "" r.
Proof.
  revert cur. induction l as [|c l IH]; intros cur Hl; [cbn; by rewrite StrFacts.str_app_nil|]. apply no_end_cons in Hl as [[H1 H2] Hl]. change (String c l ++ String nl r)%string with (String c (l ++ String nl r)). cbn [split_lines].
  destruct (Ascii.eqb_spec c nl); [done|]. destruct (Ascii.eqb_spec c crc); [done|]. rewrite IH //. f_equal. by rewrite StrFacts.str_app_assoc.
Qed.
Lemma split_last cur l : no_end l -> split_lines cur l = split_lines (cur ++ l) "".
Proof.
  revert cur. induction l as [|c l IH]; intros cur Hl; [by rewrite StrFacts.str_app_nil|]. apply no_end_cons in Hl as [[H1 H2] Hl]. cbn [split_lines].
  destruct (Ascii.eqb_spec c nl); [done|]. destruct (Ascii.eqb_spec c crc); [done|]. rewrite IH //. by rewrite StrFacts.str_app_assoc.
Qed.
Lemma join_lines (tl : list string) x ls : tl = [] \/ tl = [String nl ""] -> Forall no_end ls -> x <> "" -> In x (splitlines (join (String nl "") (ls ++ tl))) <-> In x ls.
Proof.
  intros Htl HF Hx. rewrite /splitlines. induction ls as [|l ls IH].
  - destruct Htl as [->| ->]; cbn; [done|]. split; [|done]. intros [?|[]]. congruence.
  - apply List.Forall_cons_iff in HF as [Hl HF]. cbn [List.app]. destruct (ls ++ tl) as [|y m] eqn:E.
    + apply app_eq_nil in E as [-> ->]. cbn [join]. rewrite split_last //. cbn [String.append split_lines]. destruct l; cbn; [|done]. split; [done|]. intros [?|[]]. congruence.
    + cbn [join]. cbn [String.append]. rewrite split_line //. cbn [String.append In]. rewrite -(IH HF). done.
Qed.
Lemma filter_law out x : x <> "" -> In x (splitlines (fst (lines_filter lm prefixes out []))) <-> In x (splitlines out) /\ pre x = false.
Proof.
  intros Hx. rewrite /lines_filter filter_nil. cbn [fst]. set (F := List.filter _ _). assert (Forall no_end F) as HF.
  { apply List.Forall_forall. intros l Hl. apply filter_In in Hl as [Hl _]. pose proof (split_no_end _ out "" (le_n _) no_end_nil) as HS. by apply (proj1 (List.Forall_forall _ _) HS). }
  assert (In x F <-> In x (splitlines out) /\ pre x = false) as <-. { rewrite /F filter_In negb_true_iff. done. }
  destruct (ends_nl out); [apply (join_lines [String nl ""]); [by right|done|done]|]. rewrite -{1}(app_nil_r F). apply (join_lines []); [by left|done|done].
Qed.
End filter.

(** ** When building succeeds *)
Lemma build_ok adds : forall hs0 st0, NoDup (omap test_of adds) -> (forall t, In t (omap test_of adds) -> dget t (lt_tests st0) = None) ->
  (forall a pr s o ps, In (AddOutput a pr s o ps) adds -> pr = true /\ existsb truthy ps = true) -> lt_build adds (hs0, st0) <> None.
Proof.
  induction adds as [|x adds IH]; intros hs0 st0 HN Hnew Hout; [done|]. cbn [lt_build].
  assert (forall a pr s o ps, In (AddOutput a pr s o ps) adds -> pr = true /\ existsb truthy ps = true) as Hout'. { intros. eapply Hout. right. done. }
  assert (forall t st1, test_of x = Some t -> lt_tests st1 = lt_tests st0 ++ [(t, SArmed)] -> forall hs1, lt_build adds (hs1, st1) <> None) as HT.
  { intros t st1 Ht E hs1. cbn in HN, Hnew. rewrite Ht in HN, Hnew. inversion HN as [|? ? Hni HN']; subst. apply IH; [done| |done]. intros t' Ht'. rewrite E dget_app Hnew; [by right|]. cbn. rewrite bool_decide_false; [|done]. intros ->. apply Hni. by apply elem_of_list_In. }
  destruct x as [a pr al|a pr|a pr s o ps]; cbn [lt_add].
  - by apply IH.
  - rewrite /lt_arm. cbn in Hnew. rewrite Hnew; [by left|]. by eapply HT.
  - destruct (Hout a pr s o ps (or_introl eq_refl)) as [-> ->]. cbn [andb]. rewrite /lt_arm. cbn [set_out lt_tests lt_rcs lt_outs]. cbn in Hnew. rewrite Hnew; [by left|]. by eapply HT.
Qed.
Lemma build_iff adds : (exists hs st, lt_build adds ([], lt_init) = Some (hs, st)) <->
  NoDup (omap test_of adds) /\ forall a pr s o ps, In (AddOutput a pr s o ps) adds -> pr = true /\ existsb truthy ps = true.
Proof.
  split.
  - intros (hs & st & HB). destruct (build_inv _ _ _ _ _ HB) as (_ & _ & _ & HN & _ & _ & HO). split; [done|]. intros a pr s o ps Hin. destruct (HO _ _ _ _ _ Hin) as (? & ? & _). done.
  - intros [HN HO]. pose proof (build_ok adds [] lt_init HN) as H. destruct (lt_build adds ([], lt_init)) as [[hs st]|]; [by exists hs, st|]. destruct H; done.
Qed.
(** Output tests never fail. *)
Lemma output_never re adds es a pr s o ps : ~ status_is re adds es (AddOutput a pr s o ps) SFailed.
Proof.
  intros [(pre & e & post & _ & H & _)|[_ [[? _]|[? _]]]]; [|done|done]. destruct e; cbn in H; try done; by destruct H as (_ & _ & ?).
Qed.

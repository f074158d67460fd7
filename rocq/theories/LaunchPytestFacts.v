(** Lemmas about launch_pytest. *)
From Coq Require Import ssreflect.
From Coq Require Import Sorting.Sorted Arith.
From Verif Require Import SpecLaunchPytest.

Lemma needs_iff k : needs_shutdown k = is_generator k.
Proof. by destruct k. Qed.
Lemma items_law f m fx l : tf_mark f = Some m -> mk_fixture m = Some fx -> collect f = Some l ->
  map item_facts l = map (fun p => (fst p, snd p, mk_shutdown m, false)) (tf_params f) ++
    (if is_generator (tf_kind f) && negb (fx_fscope fx) then map (fun p => (fst p, snd p, true, true)) (tf_params f) else []) /\
  forall x, In x l -> it_fun x = f.
Proof.
  intros Em Ef. rewrite /collect Em Ef needs_iff. intros [= <-]. split.
  - destruct (_ && _); rewrite ?map_app /generate !map_map ?app_nil_r; done.
  - intros x Hx. destruct (_ && _); [apply in_app_or in Hx as [Hx|Hx]|]; rewrite /generate in Hx; by apply in_map_iff in Hx as (p & <- & _).
Qed.

(** ** The order of items *)
Section npos.
Context {A : Type} (f : A -> bool).
Fixpoint npos (pos : nat) (l : list A) : option nat :=
  match l with
  | [] => None
  | o :: l => match npos (S pos) l with Some p => Some p | None => if f o then Some pos else None end
  end.
Lemma npos_none pos l : npos pos l = None <-> forall o, In o l -> f o = false.
Proof.
  revert pos. induction l as [|o l IH]; intros pos; cbn; [by split|]. destruct (npos (S pos) l) as [p|] eqn:E.
  - split; [done|]. intros H. assert (npos (S pos) l = None) as H'; [|congruence]. apply IH. intros x Hx. apply H. by right.
  - destruct (f o) eqn:Eo; [split; [done|]; intros H; rewrite (H o) in Eo; [by left|done]|]. split; [|done]. intros _ x [<-|Hx]; [done|]. by apply (IH (S pos)).
Qed.
Lemma npos_some pos l p : npos pos l = Some p -> exists l1 y l2, l = l1 ++ y :: l2 /\ p = pos + length l1 /\ f y = true /\ forall o, In o l2 -> f o = false.
Proof.
  revert pos. induction l as [|o l IH]; intros pos; cbn; [done|]. destruct (npos (S pos) l) as [q|] eqn:E.
  - intros [= ->]. destruct (IH _ E) as (l1 & y & l2 & -> & -> & Hy & Hl). exists (o :: l1), y, l2. cbn. repeat split; [lia|done|done].
  - destruct (f o) eqn:Eo; [|done]. intros [= <-]. exists [], o, l. cbn. repeat split; [lia|done|]. exact (proj1 (npos_none _ _) E).
Qed.
(** The item after the last one it has to follow. *)
Definition place (x : A) (l : list A) : list A :=
  match npos 0 l with Some j => take (S j) l ++ x :: drop (S j) l | None => x :: l end.
Lemma place_cases x l : (place x l = x :: l /\ forall o, In o l -> f o = false) \/
  exists l1 y l2, l = l1 ++ y :: l2 /\ place x l = l1 ++ y :: x :: l2 /\ f y = true /\ forall o, In o l2 -> f o = false.
Proof.
  rewrite /place. destruct (npos 0 l) as [j|] eqn:E; [right|left; split; [done|]; exact (proj1 (npos_none _ _) E)].
  destruct (npos_some _ _ _ E) as (l1 & y & l2 & -> & -> & Hy & Hl). exists l1, y, l2. split; [done|]. split; [|done].
  replace (S (0 + length l1)) with (length (l1 ++ [y])) by (rewrite app_length /=; lia).
  change (l1 ++ y :: l2) with (l1 ++ [y] ++ l2). rewrite !app_assoc take_app drop_app. by rewrite -!app_assoc.
Qed.
End npos.
Definition mv (x o : item) : bool := same_fixture x o && is_shutdown x && negb (is_shutdown o).
Lemma new_position_eq x pos l : new_position x pos l = npos (mv x) pos l.
Proof. revert pos. induction l as [|o l IH]; intros pos; [done|]. cbn. rewrite IH. done. Qed.
Lemma npos_add {A} (f : A -> bool) pos l : npos f pos l = option_map (Nat.add pos) (npos f 0 l).
Proof.
  destruct (npos f 0 l) as [j|] eqn:E.
  - destruct (npos f pos l) as [p|] eqn:E'.
    + destruct (npos_some _ _ _ _ E) as (l1 & y & l2 & El & -> & Hy & Hl). destruct (npos_some _ _ _ _ E') as (l1' & y' & l2' & El' & -> & Hy' & Hl'). cbn. do 2 f_equal.
      rewrite El in El'. clear E E' El. revert l1' El'. induction l1 as [|a l1 IH]; intros [|a' l1'] E; [done| | |].
      * injection E as -> ->. assert (f y' = false); [apply Hl; apply in_or_app; right; by left|congruence].
      * injection E as -> <-. assert (f y = false); [apply Hl'; apply in_or_app; right; by left|congruence].
      * injection E as -> E. cbn. f_equal. by apply IH.
    + assert (npos f 0 l = None) as E0; [|congruence]. apply npos_none. exact (proj1 (npos_none _ _ _) E').
  - cbn. apply npos_none. exact (proj1 (npos_none _ _ _) E).
Qed.
Lemma not_launch x o : is_launch x = false -> mv x o = false.
Proof. rewrite /is_launch /mv /same_fixture /it_fixture. by destruct (it_mark x). Qed.
Lemma move_law pre x suf : move_item (pre ++ x :: suf) (length pre, x) = pre ++ place (mv x) x suf.
Proof.
  rewrite /move_item. replace (length pre + 1) with (length (pre ++ [x])) by (rewrite app_length /=; lia).
  assert (drop (length (pre ++ [x])) (pre ++ x :: suf) = suf) as ->. { change (pre ++ x :: suf) with (pre ++ [x] ++ suf). by rewrite app_assoc drop_app. }
  rewrite new_position_eq npos_add. destruct (is_launch x) eqn:El.
  - rewrite lookup_app_r // Nat.sub_diag /=. rewrite /place. destruct (npos (mv x) 0 suf) as [j|] eqn:E; [|done]. cbn [option_map].
    rewrite /list_insert /list_pop take_app. assert (drop (S (length pre)) (pre ++ x :: suf) = suf) as ->.
    { replace (S (length pre)) with (length (pre ++ [x])) by (rewrite app_length /=; lia). change (pre ++ x :: suf) with (pre ++ [x] ++ suf). by rewrite app_assoc drop_app. }
    rewrite app_length /=. replace (length pre + 1 + j) with (length pre + S j) by lia. by rewrite take_add_app // drop_add_app // -app_assoc.
  - rewrite /place. assert (npos (mv x) 0 suf = None) as ->; [|done]. apply npos_none. intros o _. by apply not_launch.
Qed.
Lemma modify_eq items : modify_items items = foldr (fun x l => place (mv x) x l) [] items.
Proof.
  rewrite /modify_items. assert (forall suf pre, fold_left move_item (rev (combine (seq (length pre) (length suf)) suf)) (pre ++ suf) = pre ++ foldr (fun x l => place (mv x) x l) [] suf) as H; [|by apply (H items [])].
  induction suf as [|x suf IH]; intros pre; [done|]. cbn [length seq combine rev]. rewrite fold_left_app.
  specialize (IH (pre ++ [x])). rewrite app_length /= Nat.add_1_r in IH. rewrite -app_assoc /= in IH. rewrite IH. cbn. rewrite -app_assoc. apply move_law.
Qed.
Lemma place_perm {A} (f : A -> bool) x l : Permutation (place f x l) (x :: l).
Proof. destruct (place_cases f x l) as [[-> _]|(l1 & y & l2 & -> & -> & _)]; [done|]. change (l1 ++ y :: x :: l2) with (l1 ++ [y] ++ x :: l2). change (l1 ++ y :: l2) with (l1 ++ [y] ++ l2). rewrite !app_assoc. symmetry. apply Permutation_middle. Qed.
Lemma modify_perm items : Permutation (modify_items items) items.
Proof. rewrite modify_eq. induction items as [|x items IH]; [done|]. cbn. by rewrite place_perm IH. Qed.
Lemma same_iff x y : same_fixture x y = true <-> shares x y.
Proof.
  rewrite /same_fixture /shares. destruct (it_fixture x) as [f|]; [|split; [done|]; by intros (? & ? & _)]. destruct (it_fixture y) as [g|]; [|split; [done|]; by intros (? & _ & ? & _)].
  rewrite !andb_true_iff bool_decide_eq_true negb_true_iff. split.
  - intros [[-> H2] H3]. exists g. repeat split; try done. destruct (it_param x), (it_param y); try done. apply Nat.eqb_eq in H3. congruence.
  - intros (? & [= <-] & [= <-] & H2 & ->). repeat split; try done. destruct (it_param y); [apply Nat.eqb_refl|done].
Qed.
Lemma mv_iff x y : mv x y = true <-> shares x y /\ it_shutdown x = true /\ normal y.
Proof. rewrite /mv !andb_true_iff negb_true_iff same_iff. rewrite /is_shutdown /normal. tauto. Qed.
Lemma shares_sym x y : shares x y -> shares y x.
Proof. intros (f & H1 & H2 & H3 & H4). by exists f. Qed.
Lemma shares_trans x y z : shares x y -> shares y z -> shares x z.
Proof. intros (f & H1 & H2 & H3 & H4) (g & H5 & H6 & H7 & H8). exists f. repeat split; congruence. Qed.

(** What comes after a shutdown test and shares its fixture is a shutdown test. *)
Definition good_order (l : list item) : Prop := forall l1 x l2 y, l = l1 ++ x :: l2 -> In y l2 -> it_shutdown x = true -> shares x y -> it_shutdown y = true.
Lemma good_tail x l : good_order (x :: l) -> good_order l.
Proof. intros H l1 z l2 y -> Hy. by apply (H (x :: l1) z l2). Qed.
Lemma app_cons_inv {A} (l1 : list A) y l2 m1 x m2 : l1 ++ y :: l2 = m1 ++ x :: m2 ->
  (exists k, m1 = l1 ++ y :: k /\ l2 = k ++ x :: m2) \/ (m1 = l1 /\ y = x /\ l2 = m2) \/ (exists k, l1 = m1 ++ x :: k /\ m2 = k ++ y :: l2).
Proof.
  revert m1. induction l1 as [|a l1 IH]; intros [|b m1]; cbn; intros [= -> E]; [auto|left; by exists m1|right; right; by exists l1|].
  destruct (IH _ E) as [(k & -> & ->)|[(-> & -> & ->)|(k & -> & ->)]]; [left; by exists k|auto|right; right; by exists k].
Qed.
Lemma good_place x l : good_order l -> good_order (place (mv x) x l).
Proof.
  intros HG. destruct (place_cases (mv x) x l) as [[-> Hn]|(l1 & y & l2 & -> & -> & Hy & Hn)].
  - intros [|a m1] z m2 w E Hw Hz Hs; injection E as -> ->; [|by apply (HG m1 z m2)].
    destruct (it_shutdown w) eqn:Ew; [done|]. assert (mv z w = true) as Hm; [by apply mv_iff|]. by rewrite Hn in Hm.
  - apply mv_iff in Hy as (Hy1 & Hy2 & Hy3). intros m1 z m2 w E Hw Hz Hs. apply app_cons_inv in E as [(k & -> & E)|[(-> & -> & <-)|(k & -> & ->)]].
    + destruct k as [|b k]; injection E as -> E; [subst m2|subst l2].
      * destruct (it_shutdown w) eqn:Ew; [done|]. assert (mv z w = true) as Hm; [by apply mv_iff|]. by rewrite Hn in Hm.
      * apply (HG (l1 ++ y :: k) z m2); [by rewrite -app_assoc|done..].
    + by rewrite /normal Hz in Hy3.
    + apply in_app_or in Hw as [Hw|[<-|[<-|Hw]]].
      * apply (HG m1 z (k ++ y :: l2)); [by rewrite -app_assoc|apply in_or_app; by left|done..].
      * apply (HG m1 z (k ++ y :: l2)); [by rewrite -app_assoc|apply in_or_app; right; by left|done..].
      * done.
      * apply (HG m1 z (k ++ y :: l2)); [by rewrite -app_assoc|apply in_or_app; right; by right|done..].
Qed.
Lemma modify_good items : good_order (modify_items items).
Proof. rewrite modify_eq. induction items as [|x items IH]; [by intros []|]. cbn. by apply good_place. Qed.
Lemma modify_normal items : List.filter (fun x => negb (it_shutdown x)) (modify_items items) = List.filter (fun x => negb (it_shutdown x)) items.
Proof.
  rewrite modify_eq. induction items as [|x items IH]; [done|]. cbn. rewrite -IH. destruct (place_cases (mv x) x (foldr (fun x l => place (mv x) x l) [] items)) as [[-> _]|(l1 & y & l2 & -> & -> & Hy & _)]; [done|].
  apply mv_iff in Hy as (_ & Hx & _). rewrite Hx /= !List.filter_app /= Hx /=. done.
Qed.
Lemma modify_group items g : let sel := fun x => it_shutdown x && same_fixture g x in List.filter sel (modify_items items) = List.filter sel items.
Proof.
  intros sel. pose proof (modify_good items) as HG. revert HG. rewrite modify_eq. induction items as [|x items IH]; [done|]. cbn. set (R := foldr _ [] items) in *. intros _.
  assert (good_order R) as HR by (rewrite /R -modify_eq; apply modify_good). rewrite -(IH HR).
  destruct (place_cases (mv x) x R) as [[-> _]|(l1 & y & l2 & HE & -> & Hy & _)]; [done|]. rewrite HE. rewrite !List.filter_app. cbn [List.filter].
  apply mv_iff in Hy as (Hs & Hx & Hn). assert (sel y = false) as ->; [rewrite /sel; by rewrite Hn|].
  destruct (sel x) eqn:Esx; [|done]. assert (List.filter sel l1 = []) as ->; [|done].
  destruct (List.filter sel l1) as [|z zs] eqn:Ez; [done|]. exfalso. assert (In z (List.filter sel l1)) as Hz by (rewrite Ez; by left). apply filter_In in Hz as [Hz Hsz].
  apply in_split in Hz as (k1 & k2 & ->). rewrite /sel in Hsz, Esx. apply andb_true_iff in Hsz as [Hz1 Hz2]. apply andb_true_iff in Esx as [_ Hx2]. apply same_iff in Hz2, Hx2.
  assert (it_shutdown y = true) as Ht; [|by rewrite /normal Ht in Hn]. apply (HR k1 z (k2 ++ y :: l2)); [by rewrite HE -app_assoc|apply in_or_app; right; by left|done|].
  eapply shares_trans; [by apply shares_sym|]. by eapply shares_trans.
Qed.

(** ** The exact order *)
Lemma StronglySorted_app_inv_r {A} (R : A -> A -> Prop) l1 l2 : StronglySorted R (l1 ++ l2) -> StronglySorted R l2.
Proof. induction l1 as [|x l1 IH]; [done|]. intros H. apply IH. by inversion H. Qed.
Section exact.
Context (items : list item).
Definition mvi (p q : nat) : bool := match items !! p, items !! q with Some x, Some y => mv x y | _, _ => false end.
(** [waits_for], by number. *)
Lemma waits_mvi p z : waits_for items p z <-> p < z /\ mvi p z = true /\ forall z', z < z' -> mvi p z' = false.
Proof.
  rewrite /waits_for /mvi. split.
  - intros (x & y & Hx & Hy & Hs & Hn & Hsh & Hlt & Hl). rewrite Hx Hy. split; [done|]. split; [by apply mv_iff|]. intros z' Hz. destruct (items !! z') as [y'|] eqn:Ey; [|done].
    destruct (mv x y') eqn:Em; [|done]. apply mv_iff in Em as (? & _ & ?). by destruct (Hl z' y').
  - intros (Hlt & Hm & Hl). destruct (items !! p) as [x|] eqn:Ex; [|done]. destruct (items !! z) as [y|] eqn:Ey; [|done]. apply mv_iff in Hm as (H1 & H2 & H3). exists x, y. repeat split; try done.
    intros z' y' Hz Ey' Hs Hn. specialize (Hl z' Hz). rewrite Ey' in Hl. assert (mv x y' = true); [by apply mv_iff|congruence].
Qed.
Lemma waits_unique p z z' : waits_for items p z -> waits_for items p z' -> z = z'.
Proof. rewrite !waits_mvi. intros (_ & H1 & H2) (_ & H3 & H4). destruct (lt_eq_lt_dec z z') as [[H|H]|H]; [|done|]; [specialize (H2 _ H)|specialize (H4 _ H)]; congruence. Qed.
Lemma mvi_no_wait p z w : mvi p z = true -> ~ waits_for items z w.
Proof.
  intros Hm Hw. apply waits_mvi in Hw as (_ & Hw & _). rewrite /mvi in Hm, Hw. destruct (items !! p), (items !! z), (items !! w); try done. apply mv_iff in Hm as (_ & _ & Hm). apply mv_iff in Hw as (_ & Hw & _). by rewrite /normal Hw in Hm.
Qed.
Definition placei (p : nat) (l : list nat) : list nat := place (mvi p) p l.
Lemma stands_total p : exists k m, stands_at items p k m /\ p <= k.
Proof.
  assert (forall n, (exists z, p < z /\ z < n /\ mvi p z = true /\ forall z', z < z' -> z' < n -> mvi p z' = false) \/ (forall z, p < z -> z < n -> mvi p z = false)) as H.
  { induction n as [|n IH]; [right; lia|]. destruct (decide (p < n)) as [Hp|Hp]; [|right; intros z; lia]. destruct (mvi p n) eqn:E.
    - left. exists n. repeat split; [done|lia|done|lia].
    - destruct IH as [(z & H1 & H2 & H3 & H4)|H]; [left|right].
      + exists z. repeat split; [done|lia|done|]. intros z' Hz Hz'. destruct (decide (z' = n)) as [->|]; [done|]. apply H4; lia.
      + intros z Hz Hz'. destruct (decide (z = n)) as [->|]; [done|]. apply H; lia. }
  assert (forall z, length items <= z -> mvi p z = false) as Hout. { intros z Hz. rewrite /mvi. rewrite (proj2 (lookup_ge_None items z)) //. by destruct (items !! p). }
  destruct (H (length items)) as [(z & H1 & H2 & H3 & H4)|Hn].
  - exists z, true. split; [|lia]. apply waits_mvi. repeat split; try done. intros z' Hz. destruct (decide (z' < length items)); [by apply H4|apply Hout; lia].
  - exists p, false. split; [|done]. split; [done|]. intros z (Hz & Hm & _)%waits_mvi. destruct (decide (z < length items)); [rewrite Hn // in Hm|rewrite Hout // in Hm; lia].
Qed.
Lemma sorted_place p l : (forall q, In q l -> p < q) -> (forall q, p < q -> q < length items -> In q l) -> StronglySorted (comes items) l -> StronglySorted (comes items) (placei p l).
Proof.
  intros Hlt Hall HS. rewrite /placei. destruct (place_cases (mvi p) p l) as [[-> Hn]|(l1 & y & l2 & -> & -> & Hy & Hn)].
  - constructor; [done|]. apply Forall_forall. intros q Hq. apply elem_of_list_In in Hq. destruct (stands_total q) as (k & m & Hk & Hle). specialize (Hlt q Hq). exists p, false, k, m. split; [|split; [done|left; lia]].
    split; [done|]. intros z Hz. pose proof Hz as (x & w & _ & Ew & _)%id. apply waits_mvi in Hz as (H1 & H2 & _). apply lookup_lt_Some in Ew. rewrite Hn in H2; [by apply Hall|done].
  - assert (forall q, In q (l1 ++ y :: l2) -> q < length items -> True) as _ by done.
    assert (p < y) as Hpy. { apply Hlt. apply in_or_app. right. by left. }
    (* [y] is what [p] waits for *)
    assert (waits_for items p y) as Hw.
    { apply waits_mvi. split; [done|]. split; [done|]. intros z Hz. destruct (mvi p z) eqn:Em; [|done]. exfalso.
      assert (z < length items) as Hzl. { rewrite /mvi in Em. destruct (items !! p); [|done]. destruct (items !! z) eqn:E; [|done]. by apply lookup_lt_Some in E. }
      assert (In z (l1 ++ y :: l2)) as Hin by (apply Hall; lia). apply in_app_or in Hin as [Hin|[->|Hin]]; [|lia|by rewrite Hn in Em].
      apply in_split in Hin as (k1 & k2 & ->). rewrite -app_assoc in HS. apply StronglySorted_app_inv_r in HS. inversion HS as [|? ? _ HF]; subst.
      assert (comes items z y) as (k & m & k' & m' & H1 & H2 & H3). { rewrite Forall_forall in HF. apply HF. apply elem_of_list_In, in_or_app. right. by left. }
      assert (forall w, ~ waits_for items z w) as Nz by (intros w; by apply (mvi_no_wait p)). assert (forall w, ~ waits_for items y w) as Ny by (intros w; by apply (mvi_no_wait p)).
      destruct m; [by apply Nz in H1|]. destruct m'; [by apply Ny in H2|]. destruct H1 as [-> _], H2 as [-> _]. destruct H3 as [?|[? [[_ ?]|[_ ?]]]]; [lia|done|lia]. }
    assert (forall q, In q l1 \/ q = y -> comes items q p) as H1.
    { intros q Hq. destruct (stands_total q) as (k & m & Hk & _). exists k, m, y, true. split; [done|]. split; [done|]. destruct Hq as [Hq| ->].
      - apply in_split in Hq as (k1 & k2 & ->). rewrite -app_assoc in HS. apply StronglySorted_app_inv_r in HS. inversion HS as [|? ? _ HF]; subst.
        assert (comes items q y) as (k0 & m0 & k' & m' & E1 & E2 & E3). { rewrite Forall_forall in HF. apply HF. apply elem_of_list_In, in_or_app. right. by left. }
        destruct m'; [by apply (mvi_no_wait p y k') in E2|]. destruct E2 as [-> _].
        assert (k0 = k) as ->. { destruct m0, m; [by eapply waits_unique|by destruct Hk as [_ Hk]; apply Hk in E1|by destruct E1 as [_ E1]; apply E1 in Hk|by destruct E1 as [-> _], Hk as [-> _]]. }
        destruct E3 as [?|[-> [[_ ?]|[-> ?]]]]; [by left|done|]. destruct E1 as [-> _]. lia.
      - destruct m; [by apply (mvi_no_wait p y k) in Hk|]. destruct Hk as [-> _]. right. split; [done|]. by left. }
    assert (forall q, In q l2 -> comes items p q) as H2.
    { intros q Hq. apply StronglySorted_app_inv_r in HS. inversion HS as [|? ? _ HF]; subst. rewrite Forall_forall in HF. destruct (HF q ltac:(by apply elem_of_list_In)) as (k0 & m0 & k' & m' & E1 & E2 & E3).
      destruct m0; [by apply (mvi_no_wait p y k0) in E1|]. destruct E1 as [-> _]. exists y, true, k', m'. split; [done|]. split; [done|].
      destruct E3 as [?|[-> [[_ ->]|[<- ?]]]]; [by left|right|]. { split; [done|]. right. split; [done|]. apply Hlt. apply in_or_app. right. by right. }
      destruct E2 as [-> _]. lia. }
    clear -HS H1 H2. induction l1 as [|a l1 IH]; cbn in *.
    + inversion HS as [|? ? HS' HF]; subst. constructor; [|constructor; [by apply H1; right|done]]. constructor; [done|]. apply Forall_forall. intros q Hq. apply H2. by apply elem_of_list_In.
    + inversion HS as [|? ? HS' HF]; subst. constructor; [apply IH; [done|naive_solver]|]. rewrite Forall_app in HF. destruct HF as [HF1 HF2]. inversion HF2; subst. rewrite Forall_app. split; [done|]. constructor; [done|]. constructor; [apply H1; left; by left|done].
Qed.
End exact.
Lemma npos_map {A B} (f : A -> bool) (g : B -> A) pos l : npos f pos (map g l) = npos (fun x => f (g x)) pos l.
Proof. revert pos. induction l as [|x l IH]; intros pos; [done|]. cbn. by rewrite IH. Qed.
Lemma place_map {A B} (f : A -> bool) (g : B -> A) x l : place f (g x) (map g l) = map g (place (fun y => f (g y)) x l).
Proof. rewrite /place npos_map. destruct (npos _ 0 l) as [j|]; [|done]. by rewrite map_app /= -firstn_map -skipn_map. Qed.
Lemma npos_ext {A} (f f' : A -> bool) pos l : (forall x, In x l -> f x = f' x) -> npos f pos l = npos f' pos l.
Proof. revert pos. induction l as [|x l IH]; intros pos H; [done|]. cbn. rewrite IH; [intros; apply H; by right|]. rewrite H; [by left|done]. Qed.
Lemma order_law items : exists order, Permutation order (seq 0 (length items)) /\ map Some (modify_items items) = map (fun p => items !! p) order /\ StronglySorted (comes items) order.
Proof.
  (* from the end *)
  assert (forall suf pre, items = pre ++ suf -> exists order, Permutation order (seq (length pre) (length suf)) /\
    map Some (foldr (fun x l => place (mv x) x l) [] suf) = map (fun p => items !! p) order /\ StronglySorted (comes items) order) as H.
  { induction suf as [|x suf IH]; intros pre E; [exists []; repeat constructor|]. destruct (IH (pre ++ [x])) as (order & HP & HM & HS); [by rewrite -app_assoc|].
    rewrite app_length /= Nat.add_1_r in HP. exists (placei items (length pre) order). split; [|split].
    - by rewrite /placei place_perm HP.
    - cbn [foldr]. set (R := foldr _ [] suf) in *. assert (items !! length pre = Some x) as Hx by (rewrite E; by apply list_lookup_middle).
      rewrite /placei /place. assert (npos (mvi items (length pre)) 0 order = npos (mv x) 0 R) as ->.
      { transitivity (npos (fun o => match o with Some y => mv x y | None => false end) 0 (map (fun p => items !! p) order)).
        - rewrite npos_map. apply npos_ext. intros q _. by rewrite /mvi Hx.
        - rewrite -HM npos_map. done. }
      destruct (npos (mv x) 0 R) as [j|]; [|cbn; by rewrite HM Hx].
      rewrite !map_app !map_cons -!firstn_map -!skipn_map HM Hx. done.
    - apply sorted_place; [| |done].
      + intros q Hq. apply (Permutation_in _ HP), in_seq in Hq. lia.
      + intros q H1 H2. apply (Permutation_in _ (Permutation_sym HP)), in_seq. rewrite E app_length /= in H2. lia. }
  destruct (H items []) as (order & ?); [done|]. exists order. by rewrite modify_eq.
Qed.
(** ** Runs *)
Lemma comes_asym items p q : comes items p q -> comes items q p -> p = q.
Proof.
  intros (k & m & k' & m' & H1 & H2 & H3) (l & o & l' & o' & H4 & H5 & H6).
  assert (forall p k m k' m', stands_at items p k m -> stands_at items p k' m' -> k = k' /\ m = m') as HU.
  { intros a b [] c [] Ha Hb; cbn in *; [split; [by eapply waits_unique|done]|by destruct Hb as [_ Hb]; apply Hb in Ha|by destruct Ha as [_ Ha]; apply Ha in Hb|by destruct Ha as [-> _], Hb as [-> _]]. }
  destruct (HU _ _ _ _ _ H1 H5) as [<- <-], (HU _ _ _ _ _ H2 H4) as [<- <-].
  destruct H3 as [H3|[E3 [[? ?]|[? H3]]]], H6 as [H6|[E6 [[? ?]|[? H6]]]]; first [lia|congruence].
Qed.
Lemma order_unique items o1 o2 : Permutation o1 o2 -> StronglySorted (comes items) o1 -> StronglySorted (comes items) o2 -> o1 = o2.
Proof.
  revert o2. induction o1 as [|x o1 IH]; intros o2 HP H1 H2; [by apply Permutation_nil in HP|]. destruct o2 as [|y o2]; [by apply Permutation_sym, Permutation_nil in HP|].
  inversion H1 as [|? ? S1 F1]; inversion H2 as [|? ? S2 F2]; subst. assert (x = y) as ->.
  { destruct (decide (x = y)) as [|Hne]; [done|]. apply (comes_asym items).
    - rewrite Forall_forall in F1. apply F1. apply elem_of_list_In. assert (In y (x :: o1)) as [|] by (apply (Permutation_in _ (Permutation_sym HP)); by left); done.
    - rewrite Forall_forall in F2. apply F2. apply elem_of_list_In. assert (In x (y :: o2)) as [|] by (apply (Permutation_in _ HP); by left); done. }
  f_equal. apply IH; [by apply Permutation_cons_inv in HP|done..].
Qed.

Section runs.
Context (fx : fixt) (first second : nat -> part) (rc : option nat).
Notation run := (run_items fx first second rc).
Notation step := (run_item fx first second rc).
Lemma run_snoc items x : run (items ++ [x]) = step (length items) x (run items).
Proof.
  rewrite /run_items app_length /= Nat.add_1_r seq_S /=.
  assert (forall a (l1 : list nat) (l2 : list item) b, length l1 = length l2 -> combine (l1 ++ [a]) (l2 ++ [b]) = combine l1 l2 ++ [(a, b)]) as H.
  { intros a l1. induction l1 as [|c l1 IH]; intros [|d l2] b E; try done. cbn. f_equal. apply IH. by injection E. }
  rewrite H; [by rewrite seq_length|]. by rewrite fold_left_app.
Qed.
(** The cases of a step. *)
Definition fin_log : list pact := (if fx_auto fx then [AShutdown] else []) ++ match rc with Some r => [AEnded r] | None => [] end.
Definition wk (x : item) (st : pst) : bool := existsb (key_eqb (gen_key x)) (ps_wrapped st).
Definition gk (x : item) (st : pst) : bool := existsb (key_eqb (gen_key x)) (ps_gens st).
(** Finalization, then a body: hung, failed or done. *)
Inductive find : pst -> pst -> nat -> part -> pact -> list pact -> bool -> Prop :=
| f_hung st i p a l : rc = None -> find {| ps_gens := ps_gens st; ps_wrapped := ps_wrapped st; ps_log := ps_log st ++ l ++ fin_log; ps_res := ps_res st; ps_hung := true |} st i p a l true
| f_bad st i p a l r : rc = Some r -> r <> 0 ->
    find {| ps_gens := ps_gens st; ps_wrapped := ps_wrapped st; ps_log := ps_log st ++ l ++ fin_log; ps_res := ps_res st ++ [(i, RFail)]; ps_hung := false |} st i p a l false
| f_good st i p a l : rc = Some 0 ->
    find {| ps_gens := ps_gens st; ps_wrapped := ps_wrapped st; ps_log := ps_log st ++ l ++ fin_log ++ [a]; ps_res := ps_res st ++ [(i, match p with PEnds => RPass | _ => RFail end)]; ps_hung := false |} st i p a l false.
Inductive stepd (i : nat) (x : item) (st : pst) : pst -> Prop :=
| d_hung : ps_hung st = true -> stepd i x st st
| d_skip : ps_hung st = false -> it_second x = true -> wk x st = true -> gk x st = false ->
    stepd i x st {| ps_gens := ps_gens st; ps_wrapped := ps_wrapped st; ps_log := ps_log st; ps_res := ps_res st ++ [(i, RSkip)]; ps_hung := false |}
| d_fin2 st' b : ps_hung st = false -> it_second x = true -> wk x st = true -> gk x st = true ->
    find st' st i (second i) (ASecond i) [] b -> stepd i x st st'
| d_kw : ps_hung st = false -> it_second x && wk x st = false -> kw_shutdown x = true -> is_generator (tf_kind (it_fun x)) = true ->
    stepd i x st {| ps_gens := ps_gens st; ps_wrapped := ps_wrapped st; ps_log := ps_log st; ps_res := ps_res st ++ [(i, RFail)]; ps_hung := false |}
| d_fs_fail : ps_hung st = false -> it_second x && wk x st = false -> kw_shutdown x = false -> is_generator (tf_kind (it_fun x)) = true -> fx_fscope fx = true -> first i <> PYields ->
    stepd i x st {| ps_gens := ps_gens st; ps_wrapped := ps_wrapped st; ps_log := ps_log st ++ [AFirst i]; ps_res := ps_res st ++ [(i, RFail)]; ps_hung := false |}
| d_fs st' b : ps_hung st = false -> it_second x && wk x st = false -> kw_shutdown x = false -> is_generator (tf_kind (it_fun x)) = true -> fx_fscope fx = true -> first i = PYields ->
    find st' st i (second i) (ASecond i) [AFirst i] b -> stepd i x st st'
| d_err : ps_hung st = false -> it_second x = true -> wk x st = false -> kw_shutdown x = false -> is_generator (tf_kind (it_fun x)) = true -> fx_fscope fx = false ->
    stepd i x st {| ps_gens := ps_gens st; ps_wrapped := ps_wrapped st; ps_log := ps_log st; ps_res := ps_res st ++ [(i, RError)]; ps_hung := false |}
| d_first : ps_hung st = false -> it_second x = false -> kw_shutdown x = false -> is_generator (tf_kind (it_fun x)) = true -> fx_fscope fx = false -> first i = PYields ->
    stepd i x st {| ps_gens := gen_key x :: ps_gens st; ps_wrapped := gen_key x :: ps_wrapped st; ps_log := ps_log st ++ [AFirst i]; ps_res := ps_res st ++ [(i, RPass)]; ps_hung := false |}
| d_first_fail : ps_hung st = false -> it_second x = false -> kw_shutdown x = false -> is_generator (tf_kind (it_fun x)) = true -> fx_fscope fx = false -> first i <> PYields ->
    stepd i x st {| ps_gens := ps_gens st; ps_wrapped := gen_key x :: ps_wrapped st; ps_log := ps_log st ++ [AFirst i]; ps_res := ps_res st ++ [(i, RFail)]; ps_hung := false |}
| d_down st' b : ps_hung st = false -> it_second x && wk x st = false -> is_generator (tf_kind (it_fun x)) = false -> it_shutdown x = true ->
    find st' st i (match first i with PRaises => PRaises | _ => PEnds end) (ABody i) [] b -> stepd i x st st'
| d_body : ps_hung st = false -> it_second x && wk x st = false -> is_generator (tf_kind (it_fun x)) = false -> it_shutdown x = false ->
    stepd i x st {| ps_gens := ps_gens st; ps_wrapped := ps_wrapped st; ps_log := ps_log st ++ [ABody i]; ps_res := ps_res st ++ [(i, match first i with PRaises => RFail | _ => RPass end)]; ps_hung := false |}.
Lemma finalize_find i p a l st go : ps_hung st = false ->
  (forall st', go st' = ps_report i (match p with PEnds => RPass | _ => RFail end) (ps_see a st')) ->
  exists b, find (finalize fx rc i go {| ps_gens := ps_gens st; ps_wrapped := ps_wrapped st; ps_log := ps_log st ++ l; ps_res := ps_res st; ps_hung := ps_hung st |}) st i p a l b.
Proof.
  intros Hh Hg. rewrite /finalize. destruct (rc) as [[|r]|] eqn:E.
  - exists false. rewrite Hg. cbn. pose proof (f_good st i p a l E) as H. rewrite /fin_log E in H. destruct (fx_auto fx); rewrite /ps_report /ps_see /= Hh -?app_assoc; cbn [app] in *; exact H.
  - exists false. pose proof (f_bad st i p a l (S r) E ltac:(done)) as H. rewrite /fin_log E in H. cbn. destruct (fx_auto fx); rewrite /ps_report /ps_see /= Hh -?app_assoc; cbn [app] in *; exact H.
  - exists true. pose proof (f_hung st i p a l E) as H. rewrite /fin_log E in H. destruct (fx_auto fx); rewrite /ps_hang /ps_see /= -?app_assoc; cbn [app] in *; rewrite ?app_nil_r in H |- *; exact H.
Qed.
Lemma step_d i x st : stepd i x st (step i x st).
Proof.
  rewrite /run_item !needs_iff. fold (wk x st). fold (gk x st). fold (kw_shutdown x). destruct (ps_hung st) eqn:Hh; [by constructor|].
  assert (st = {| ps_gens := ps_gens st; ps_wrapped := ps_wrapped st; ps_log := ps_log st ++ []; ps_res := ps_res st; ps_hung := ps_hung st |}) as Est by (rewrite app_nil_r; by destruct st).
  destruct (it_second x && wk x st) eqn:E1.
  { apply andb_true_iff in E1 as [E1 E2]. destruct (gk x st) eqn:E3.
    - rewrite {2}Est. edestruct (finalize_find i (second i) (ASecond i) [] st) as [b Hb]; [done| |by eapply d_fin2]. done.
    - rewrite /ps_report Hh. by apply d_skip. }
  destruct (is_generator _) eqn:E2.
  - destruct (kw_shutdown x) eqn:E3; cbn [andb]; [rewrite /ps_report Hh; by apply d_kw|].
    destruct (fx_fscope fx) eqn:E4.
    + destruct (first i) eqn:Ef.
      * rewrite /ps_report /ps_see /= ?Hh. apply d_fs_fail; try done; congruence.
      * edestruct (finalize_find i (second i) (ASecond i) [AFirst i] st) as [b Hb]; [done| |eapply d_fs; try done; exact Hb]. done.
      * rewrite /ps_report /ps_see /= ?Hh. apply d_fs_fail; try done; congruence.
    + destruct (it_second x) eqn:E5; [rewrite /ps_report Hh; by apply d_err|].
      destruct (first i) eqn:Ef; rewrite /ps_report /ps_see /= ?Hh; (apply d_first || apply d_first_fail); try done; congruence.
  - rewrite andb_false_r. rewrite /is_shutdown. destruct (it_shutdown x) eqn:E3.
    + rewrite {2}Est. edestruct (finalize_find i (match first i with PRaises => PRaises | _ => PEnds end) (ABody i) [] st) as [b Hb]; [done| |by eapply d_down]. intros st'. rewrite /run_body. by destruct (first i).
    + rewrite /run_body /ps_report /ps_see /= ?Hh. by apply d_body.
Qed.
(** *** What is seen *)
Definition all_pre {A} (Q : list A -> A -> Prop) (l : list A) : Prop := forall l1 a l2, l = l1 ++ a :: l2 -> Q l1 a.
Lemma all_pre_nil {A} (Q : list A -> A -> Prop) : all_pre Q [].
Proof. by intros [] ? ?. Qed.
Lemma all_pre_snoc {A} (Q : list A -> A -> Prop) l b : all_pre Q l -> Q l b -> all_pre Q (l ++ [b]).
Proof.
  intros H1 H2 l1 a l2 E. destruct l2 as [|c l2 _] using rev_ind.
  - apply app_inj_tail in E as [-> ->]. done.
  - rewrite app_comm_cons app_assoc in E. apply app_inj_tail in E as [-> _]. by apply (H1 _ _ l2).
Qed.
Lemma all_pre_mono {A} (Q Q' : list A -> A -> Prop) l : (forall l1 a, Q l1 a -> Q' l1 a) -> all_pre Q l -> all_pre Q' l.
Proof. intros H H1 l1 a l2 E. apply H. by apply (H1 _ _ l2). Qed.
Definition seenQ (items : list item) (l1 : list pact) (a : pact) : Prop :=
  match a with
  | AShutdown => fx_auto fx = true
  | AEnded r => rc = Some r /\ (fx_auto fx = true -> In AShutdown l1)
  | ABody i => exists x, items !! i = Some x /\ is_generator (tf_kind (it_fun x)) = false /\ (it_shutdown x = true -> In (AEnded 0) l1)
  | AFirst i => exists x, items !! i = Some x /\ is_generator (tf_kind (it_fun x)) = true /\ kw_shutdown x = false
  | ASecond i => In (AEnded 0) l1 /\ exists x j y, items !! i = Some x /\ items !! j = Some y /\ gen_key y = gen_key x /\ In (AFirst j) l1 /\ first j = PYields /\
      (if fx_fscope fx then j = i else it_second x = true /\ it_second y = false)
  end.
Definition genQ (items : list item) (log : list pact) (k : nat * option nat * nat) : Prop :=
  exists j y, items !! j = Some y /\ gen_key y = k /\ In (AFirst j) log /\ first j = PYields /\ it_second y = false /\ fx_fscope fx = false.
Lemma seenQ_mono items x l1 a : seenQ items l1 a -> seenQ (items ++ [x]) l1 a.
Proof.
  destruct a; cbn; [done..| | |].
  - intros (y & H & ?). exists y. split; [by apply lookup_app_l_Some|done].
  - intros (y & H & ?). exists y. split; [by apply lookup_app_l_Some|done].
  - intros [H0 (y & j & z & H1 & H2 & ?)]. split; [done|]. exists y, j, z. split; [by apply lookup_app_l_Some|]. split; [by apply lookup_app_l_Some|done].
Qed.
Lemma gk_in x st : gk x st = true -> In (gen_key x) (ps_gens st).
Proof. intros H. apply existsb_exists in H as (k & Hk & E). rewrite /key_eqb bool_decide_eq_true in E. by subst k. Qed.
Lemma gk_of x st : In (gen_key x) (ps_gens st) -> gk x st = true.
Proof. intros H. apply existsb_exists. exists (gen_key x). split; [done|]. by rewrite /key_eqb bool_decide_eq_true. Qed.
Lemma wk_in x st : wk x st = true -> In (gen_key x) (ps_wrapped st).
Proof. intros H. apply existsb_exists in H as (k & Hk & E). rewrite /key_eqb bool_decide_eq_true in E. by subst k. Qed.
Lemma wk_of x st : In (gen_key x) (ps_wrapped st) -> wk x st = true.
Proof. intros H. apply existsb_exists. exists (gen_key x). split; [done|]. by rewrite /key_eqb bool_decide_eq_true. Qed.
Lemma last_lookup {A} (l : list A) x : (l ++ [x]) !! length l = Some x.
Proof. by apply list_lookup_middle. Qed.
(** Finalization and what follows it. *)
Lemma find_log Q st' st i p a l b : find st' st i p a l b ->
  all_pre Q (ps_log st ++ l) ->
  (fx_auto fx = true -> forall l1, Q l1 AShutdown) -> (forall r l1, rc = Some r -> (fx_auto fx = true -> In AShutdown l1) -> Q l1 (AEnded r)) ->
  (forall l1, (forall e, In e (ps_log st ++ l) -> In e l1) -> In (AEnded 0) l1 -> Q l1 a) -> all_pre Q (ps_log st').
Proof.
  intros H HQ H1 H2 H3.
  assert (all_pre Q ((ps_log st ++ l) ++ fin_log)) as HF.
  { rewrite /fin_log. destruct (fx_auto fx) eqn:Ea; [|destruct rc as [r|] eqn:Er; rewrite ?app_nil_r; [apply all_pre_snoc; [done|]; by apply H2|done]].
    assert (all_pre Q ((ps_log st ++ l) ++ [AShutdown])) as HS by (apply all_pre_snoc; [done|by apply H1]). destruct rc as [r|] eqn:Er; [|done].
    cbn. change [AShutdown; AEnded r] with ([AShutdown] ++ [AEnded r]). rewrite app_assoc. apply all_pre_snoc; [done|]. apply H2; [done|]. intros _. apply in_or_app. right. by left. }
  inversion H as [? ? ? ? ? E|? ? ? ? ? r E|? ? ? ? ? E]; subst; cbn [ps_log]; rewrite ?app_assoc; rewrite ?app_assoc in HF; [done..|]. apply all_pre_snoc; [done|]. apply H3.
  - intros e He. apply in_or_app. left. apply in_or_app. by left.
  - rewrite E. apply in_or_app. right. by left.
Qed.
Lemma find_gens st' st i p a l b : find st' st i p a l b -> ps_gens st' = ps_gens st /\ ps_wrapped st' = ps_wrapped st /\ exists m, ps_log st' = ps_log st ++ l ++ m.
Proof. intros []; cbn; split_and!; try done; eexists; reflexivity. Qed.
Lemma genQ_mono items x log m k : genQ items log k -> genQ (items ++ [x]) (log ++ m) k.
Proof. intros (j & y & H1 & H2 & H3 & H4). exists j, y. split; [by apply lookup_app_l_Some|]. split; [done|]. split; [|done]. apply in_or_app. by left. Qed.
Lemma seen_inv items : all_pre (seenQ items) (ps_log (run items)) /\ (forall k, In k (ps_gens (run items)) -> genQ items (ps_log (run items)) k).
Proof.
  induction items as [|x items [IH1 IH2]] using rev_ind; [split; [apply all_pre_nil|done]|]. rewrite run_snoc. set (st := run items) in *.
  assert (all_pre (seenQ (items ++ [x])) (ps_log st)) as HQ. { eapply all_pre_mono; [|exact IH1]. intros l1 a. apply seenQ_mono. }
  assert (forall m k, In k (ps_gens st) -> genQ (items ++ [x]) (ps_log st ++ m) k) as HG. { intros m k Hk. apply genQ_mono. by apply IH2. }
  assert (forall k, In k (ps_gens st) -> genQ (items ++ [x]) (ps_log st) k) as HG0. { intros k Hk. rewrite -(app_nil_r (ps_log st)). by apply HG. }
  assert (is_generator (tf_kind (it_fun x)) = true -> kw_shutdown x = false -> all_pre (seenQ (items ++ [x])) (ps_log st ++ [AFirst (length items)])) as HA.
  { intros Hn Hk. apply all_pre_snoc; [done|]. exists x. split; [apply last_lookup|done]. }
  destruct (step_d (length items) x st) as [|?|st' b ? ? ? Hg Hf|?|? ? ? ?|st' b ? ? ? ? ? ? Hf|?|? ? ? ?|? ? ? ?|st' b ? ? ? ? Hf|? ? ? ?]; cbn [ps_log ps_gens]; try (by split); try (by split; [|apply HG]).
  - pose proof (find_gens _ _ _ _ _ _ _ Hf) as (-> & _ & m & Em). split.
    + eapply find_log; [exact Hf|by rewrite app_nil_r|done|done|]. intros l1 Hl He. split; [done|]. apply gk_in in Hg. apply HG0 in Hg as (j & y & H1' & H2' & H3' & H4' & H5' & H6'). exists x, j, y.
      split; [apply last_lookup|]. do 2 (split; [done|]). split; [apply Hl; by rewrite app_nil_r|]. split; [done|]. by rewrite H6'.
    + rewrite Em. intros k Hk. cbn. by apply HG.
  - split; [by apply HA|apply HG].
  - pose proof (find_gens _ _ _ _ _ _ _ Hf) as (-> & _ & m & Em). split.
    + eapply find_log; [exact Hf|by apply HA|done|done|]. intros l1 Hl He. split; [done|]. exists x, (length items), x. do 2 (split; [apply last_lookup|]). split; [done|]. split; [apply Hl, in_or_app; right; by left|]. split; [done|]. by destruct (fx_fscope fx).
    + rewrite Em. intros k Hk. by apply HG.
  - split; [by apply HA|]. intros k [<-|Hk]; [|by apply HG]. exists (length items), x. split; [apply last_lookup|]. split; [done|]. split; [apply in_or_app; right; by left|done].
  - split; [by apply HA|apply HG].
  - pose proof (find_gens _ _ _ _ _ _ _ Hf) as (-> & _ & m & Em). split.
    + eapply find_log; [exact Hf|by rewrite app_nil_r|done|done|]. intros l1 Hl He. exists x. split; [apply last_lookup|]. done.
    + rewrite Em. intros k Hk. cbn. by apply HG.
  - split; [|apply HG]. apply all_pre_snoc; [done|]. exists x. split; [apply last_lookup|]. split; [done|]. congruence.
Qed.
(** *** Normal tests run before the shutdown *)
Lemma in_order_pre items x : in_order (items ++ [x]) -> in_order items.
Proof. intros H i j a b Hij Ha Hb. apply (H i j); [done|by apply lookup_app_l_Some..]. Qed.
Lemma fin_log_in a : In a fin_log -> is_end a.
Proof. rewrite /fin_log. intros [H|H]%in_app_or; [destruct (fx_auto fx)|destruct rc]; cbn in H; destruct_or?; subst; done. Qed.
Definition liveQ (items : list item) (l1 : list pact) (a : pact) : Prop :=
  match a with
  | ABody i | AFirst i => forall x, items !! i = Some x -> normal x -> forall e, In e l1 -> ~ is_end e
  | _ => True
  end.
Lemma live_inv items : one_instance fx items -> collected items -> in_order items -> all_pre (liveQ items) (ps_log (run items)) /\
  (forall e, In e (ps_log (run items)) -> is_end e -> if fx_fscope fx then items <> [] else exists x, In x items /\ it_shutdown x = true).
Proof.
  induction items as [|x items IH] using rev_ind; [intros _ _ _; split; [apply all_pre_nil|done]|]. intros HO HC HI. rewrite run_snoc.
  assert (one_instance fx items) as HO'. { destruct HO as [H1 H2]. split; [intros y Hy; apply H1, in_or_app; by left|]. rewrite app_length in H2. intros H. specialize (H2 H). lia. }
  assert (collected items) as HC'. { intros y Hy. apply HC, in_or_app. by left. }
  destruct IH as [IH1 IH2]; [done|done|by eapply in_order_pre|]. set (st := run items) in *.
  pose proof (seen_inv items) as [HS _]. fold st in HS.
  assert (all_pre (liveQ (items ++ [x])) (ps_log st)) as HQ.
  { intros l1 a l2 E. specialize (IH1 l1 a l2 E). specialize (HS l1 a l2 E). destruct a; cbn in *; try done.
    - destruct HS as (y & Hy & _). intros z Hz. rewrite (lookup_app_l_Some _ _ _ _ Hy) in Hz. injection Hz as <-. by apply IH1.
    - destruct HS as (y & Hy & _). intros z Hz. rewrite (lookup_app_l_Some _ _ _ _ Hy) in Hz. injection Hz as <-. by apply IH1. }
  (* a normal new item *)
  assert (normal x -> forall e, In e (ps_log st) -> ~ is_end e) as HN.
  { intros Hx e He Hend. specialize (IH2 e He Hend). destruct (fx_fscope fx) eqn:Ef.
    - destruct HO as [_ HO]. specialize (HO Ef). rewrite app_length /= in HO. destruct items; [done|cbn in HO; lia].
    - destruct IH2 as (y & Hy & Hsy). apply elem_of_list_In, elem_of_list_lookup_1 in Hy as [j Hj]. assert (it_shutdown x = true) as Hxt; [|by rewrite /normal Hxt in Hx].
      apply (HI j (length items) y x); [by apply lookup_lt_Some in Hj|by apply lookup_app_l_Some|apply last_lookup|done]. }
  assert (forall l1, (forall e, In e l1 -> In e (ps_log st)) -> liveQ (items ++ [x]) l1 (ABody (length items)) /\ liveQ (items ++ [x]) l1 (AFirst (length items))) as HL.
  { intros l1 Hl1. split; intros z Hz Hnz e He; rewrite last_lookup in Hz; injection Hz as <-; by apply HN, Hl1. }
  assert (forall e, In e (ps_log st) -> is_end e -> if fx_fscope fx then items ++ [x] <> [] else exists y, In y (items ++ [x]) /\ it_shutdown y = true) as HE.
  { intros e He Hend. specialize (IH2 e He Hend). destruct (fx_fscope fx); [by destruct items|]. destruct IH2 as (y & Hy & ?). exists y. split; [apply in_or_app; by left|done]. }
  assert (forall m, (forall e, In e m -> ~ is_end e) -> forall e, In e (ps_log st ++ m) -> is_end e -> if fx_fscope fx then items ++ [x] <> [] else exists y, In y (items ++ [x]) /\ it_shutdown y = true) as HE1.
  { intros m Hm e [He|He]%in_app_or Hend; [by eapply HE|by apply Hm in Hend]. }
  assert (it_shutdown x = true -> if fx_fscope fx then items ++ [x] <> [] else exists y, In y (items ++ [x]) /\ it_shutdown y = true) as HEx.
  { intros Hx. destruct (fx_fscope fx); [by destruct items|]. exists x. split; [apply in_or_app; right; by left|done]. }
  destruct (step_d (length items) x st) as [|?|st' b ? Hsec ? Hg Hf|?|? ? ? ?|st' b ? ? ? ? Hfs ? Hf|?|? ? ? ?|? ? ? ?|st' b ? ? ? Hsd Hf|? ? ? ?]; cbn [ps_log ps_gens]; try (by split).
  - split; [|intros e He Hend; apply HEx]. { eapply find_log; [exact Hf|by rewrite app_nil_r|done|done|done]. }
    assert (In x (items ++ [x])) as Hin by (apply in_or_app; right; by left). specialize (HC x Hin). rewrite Hsec in HC. by destruct HC.
  - split; [apply all_pre_snoc; [done|by apply HL]|]. apply HE1. by intros e [<-|[]] [].
  - split; [|intros e He Hend; rewrite Hfs; by destruct items]. eapply find_log; [exact Hf| |done|done|done]. apply all_pre_snoc; [done|by apply HL].
  - split; [apply all_pre_snoc; [done|by apply HL]|]. apply HE1. by intros e [<-|[]] [].
  - split; [apply all_pre_snoc; [done|by apply HL]|]. apply HE1. by intros e [<-|[]] [].
  - split; [|by intros e He Hend; apply HEx]. eapply find_log; [exact Hf|by rewrite app_nil_r|done|done|]. intros l1 Hl He z Hz Hnz. rewrite last_lookup in Hz. injection Hz as <-. by rewrite /normal Hsd in Hnz.
  - split; [apply all_pre_snoc; [done|by apply HL]|]. apply HE1. by intros e [<-|[]] [].
Qed.
(** *** Every part begins at most once *)
Lemma begins_lt items a i : In a (ps_log (run items)) -> begins a = Some i -> i < length items.
Proof.
  intros Ha Hb. apply in_split in Ha as (l1 & l2 & E). destruct (seen_inv items) as [HS _]. specialize (HS l1 a l2 E). destruct a; cbn in Hb; try done; injection Hb as ->; cbn in HS.
  - destruct HS as (x & Hx & _). by apply lookup_lt_Some in Hx.
  - destruct HS as (x & Hx & _). by apply lookup_lt_Some in Hx.
  - destruct HS as [_ (x & j & y & Hx & _)]. by apply lookup_lt_Some in Hx.
Qed.
Definition onceQ (l1 : list pact) (a : pact) : Prop := begins a <> None -> ~ In a l1.
Lemma once_inv items : all_pre onceQ (ps_log (run items)).
Proof.
  induction items as [|x items IH] using rev_ind; [apply all_pre_nil|]. rewrite run_snoc. pose proof (begins_lt items) as HB. set (st := run items) in *.
  assert (forall a l1, begins a = Some (length items) -> (forall e, In e l1 -> In e (ps_log st)) -> onceQ l1 a) as HN.
  { intros a l1 Ha Hl _ Hin. apply Hl in Hin. specialize (HB _ _ Hin Ha). lia. }
  assert (forall a, begins a = Some (length items) -> all_pre onceQ (ps_log st ++ [a])) as H1. { intros a Ha. apply all_pre_snoc; [done|]. by apply HN. }
  assert (forall st' p a l b, find st' st (length items) p a l b -> all_pre onceQ (ps_log st ++ l) -> begins a = Some (length items) -> ~ In a l -> all_pre onceQ (ps_log st')) as HF.
  { intros st' p a l b Hf Hl Ha Hal. 
    assert (all_pre onceQ ((ps_log st ++ l) ++ fin_log)) as HFin.
    { assert (forall m, (forall e, In e m -> is_end e) -> forall l0, all_pre onceQ l0 -> all_pre onceQ (l0 ++ m)) as Hm.
      { intros m. induction m as [|e m IHm] using rev_ind; intros Hm l0 Hl0; [by rewrite app_nil_r|]. rewrite app_assoc. apply all_pre_snoc; [apply IHm; [|done]; intros; apply Hm, in_or_app; by left|].
        intros Hbe. assert (is_end e) as He by (apply Hm, in_or_app; right; by left). by destruct e. }
      apply Hm; [apply fin_log_in|done]. }
    pose proof fin_log_in as HE. inversion Hf; subst; cbn [ps_log]; clear Hf; revert HFin HE; generalize fin_log; intros fl HFin HE; rewrite -?app_assoc; rewrite -?app_assoc in HFin; [done..|].
    replace (ps_log st ++ l ++ fl ++ [a]) with ((ps_log st ++ l ++ fl) ++ [a]) by (by rewrite -!app_assoc). apply all_pre_snoc; [done|].
    intros _. rewrite !in_app_iff. intros [Hin|[Hin|Hin]]; [|done|].
    - specialize (HB _ _ Hin Ha). lia.
    - apply HE in Hin. by destruct a. }
  destruct (step_d (length items) x st) as [|?|st' b ? Hsec ? Hg Hf|?|? ? ? ?|st' b ? ? ? ? Hfs ? Hf|?|? ? ? ?|? ? ? ?|st' b ? ? ? Hsd Hf|? ? ? ?]; cbn [ps_log]; try done; try (by apply H1).
  - eapply HF; [exact Hf|by rewrite app_nil_r|done|by intros []].
  - eapply HF; [exact Hf|by apply H1|done|]. by intros [?|[]].
  - eapply HF; [exact Hf|by rewrite app_nil_r|done|by intros []].
Qed.
(** *** Outcomes *)
Definition startsQ (items : list item) (k : nat * option nat * nat) (j : nat) : Prop := exists y, items !! j = Some y /\ gen_key y = k /\ it_second y = false /\ is_generator (tf_kind (it_fun y)) = true /\ kw_shutdown y = false.
Definition res_ok (r : nat) (items : list item) (io : nat * outcome) : Prop := exists x, items !! (fst io) = Some x /\ expected fx first second r items (fst io) x (snd io).
Lemma find_some st' st i p a l b r : find st' st i p a l b -> rc = Some r ->
  ps_hung st' = false /\ ps_gens st' = ps_gens st /\ ps_wrapped st' = ps_wrapped st /\ ps_res st' = ps_res st ++ [(i, if Nat.eqb r 0 then match p with PEnds => RPass | _ => RFail end else RFail)].
Proof. intros H E. inversion H as [? ? ? ? ? E'|? ? ? ? ? r' E' Hr|? ? ? ? ? E']; subst; rewrite E in E'; try done; injection E' as ->; cbn; [|done]. by destruct r'. Qed.
Lemma kw_fun x y : it_fun x = it_fun y -> kw_shutdown x = kw_shutdown y.
Proof. rewrite /kw_shutdown /it_mark. by intros ->. Qed.
Lemma lookup_pre {A} (l : list A) x i y : i < length l -> (l ++ [x]) !! i = Some y -> l !! i = Some y.
Proof. intros H. by rewrite lookup_app_l. Qed.
Lemma res_ok_mono r items x io : res_ok r items io -> res_ok r (items ++ [x]) io.
Proof.
  destruct io as [i o]. intros (z & Hz & H). exists z. cbn [fst snd] in *. split; [by apply lookup_app_l_Some|]. pose proof (lookup_lt_Some _ _ _ Hz) as Hlt.
  revert H. rewrite /expected. destruct (is_generator _); [|done]. destruct (kw_shutdown z); [done|]. destruct (fx_fscope fx); [done|]. destruct (it_second z); [|done].
  destruct o.
  1-3: intros (j & y & H1 & H2 & H3); exists j, y; split; [done|]; split; [by apply lookup_app_l_Some|done].
  intros H j y Hj Hy. apply (H j y); [done|]. apply (lookup_pre _ x); [lia|done].
Qed.
Lemma starts_mono items x k j : startsQ items k j -> startsQ (items ++ [x]) k j.
Proof. intros (y & H & ?). exists y. split; [by apply lookup_app_l_Some|done]. Qed.
Lemma starts_snoc items x k j : startsQ (items ++ [x]) k j -> startsQ items k j \/ (j = length items /\ gen_key x = k /\ it_second x = false /\ is_generator (tf_kind (it_fun x)) = true /\ kw_shutdown x = false).
Proof.
  intros (y & H & H1). destruct (decide (j < length items)) as [Hj|Hj]; [left; exists y; split; [by apply (lookup_pre _ x)|done]|right].
  pose proof (lookup_lt_Some _ _ _ H) as H2. rewrite app_length /= in H2. assert (j = length items) as -> by lia. rewrite last_lookup in H. injection H as <-. done.
Qed.
Lemma fun_of_key items x y : functions_apart items -> In x items -> In y items -> gen_key x = gen_key y -> it_fun x = it_fun y.
Proof. intros HA Hx Hy [= H _ _]. by apply HA. Qed.
Lemma res_inv items r : rc = Some r -> functions_apart items -> let st := run items in
  ps_hung st = false /\ map fst (ps_res st) = seq 0 (length items) /\ List.Forall (res_ok r items) (ps_res st) /\
  (forall k, In k (ps_wrapped st) <-> fx_fscope fx = false /\ exists j, startsQ items k j) /\ (forall k, In k (ps_gens st) <-> fx_fscope fx = false /\ exists j, startsQ items k j /\ first j = PYields).
Proof.
  intros Er. induction items as [|x items IH] using rev_ind; intros HA st.
  { split; [done|]. split; [done|]. split; [constructor|]. split; intros k; (split; [intros []|]); [intros (_ & j & (y & Hy & _))|intros (_ & j & (y & Hy & _) & _)]; done. }
  rewrite /st run_snoc. clear st. assert (functions_apart items) as HA'. { intros a b Ha Hb. apply HA; apply in_or_app; by left. } destruct (IH HA') as (IH1 & IH2 & IH3 & IH4 & IH5). clear IH. set (st := run items) in *.
  assert (In x (items ++ [x])) as Hxin by (apply in_or_app; right; by left).
  assert (forall k j, startsQ (items ++ [x]) k j -> k = gen_key x -> kw_shutdown x = false /\ is_generator (tf_kind (it_fun x)) = true) as Hfun.
  { intros k j (y & Hy & Hk & _ & Hn & Hkw) ->. assert (it_fun y = it_fun x) as Ef. { apply (fun_of_key (items ++ [x])); try done. apply elem_of_list_In. by eapply elem_of_list_lookup_2. } by rewrite -(kw_fun _ _ Ef) -Ef. }
  assert (List.Forall (res_ok r (items ++ [x])) (ps_res st)) as H3. { eapply List.Forall_impl; [|exact IH3]. intros io. apply res_ok_mono. }
  assert (forall o, expected fx first second r (items ++ [x]) (length items) x o -> map fst (ps_res st ++ [(length items, o)]) = seq 0 (length (items ++ [x])) /\ List.Forall (res_ok r (items ++ [x])) (ps_res st ++ [(length items, o)])) as HR.
  { intros o Ho. split; [by rewrite map_app IH2 app_length /= Nat.add_1_r seq_S|]. apply List.Forall_app. split; [done|]. constructor; [|constructor]. exists x. split; [apply last_lookup|done]. }
  (* a step without a new start *)
  assert (it_second x = true \/ is_generator (tf_kind (it_fun x)) = false \/ kw_shutdown x = true \/ fx_fscope fx = true ->
    (forall k, In k (ps_wrapped st) <-> fx_fscope fx = false /\ exists j, startsQ (items ++ [x]) k j) /\ (forall k, In k (ps_gens st) <-> fx_fscope fx = false /\ exists j, startsQ (items ++ [x]) k j /\ first j = PYields)) as HK.
  { intros Hno. split; intros k; [rewrite IH4|rewrite IH5]; split.
    - intros [? [j Hj]]. split; [done|]. exists j. by apply starts_mono.
    - intros [? [j Hj]]. split; [done|]. apply starts_snoc in Hj as [Hj|(_ & _ & ? & ? & ?)]; [by exists j|]. exfalso. destruct Hno as [?|[?|[?|?]]]; congruence.
    - intros [? [j [Hj Hy]]]. split; [done|]. exists j. split; [by apply starts_mono|done].
    - intros [? [j [Hj Hy]]]. split; [done|]. apply starts_snoc in Hj as [Hj|(_ & _ & ? & ? & ?)]; [by exists j|]. exfalso. destruct Hno as [?|[?|[?|?]]]; congruence. }
  (* the partner *)
  assert (forall j, startsQ items (gen_key x) j -> exists y, j < length items /\ (items ++ [x]) !! j = Some y /\ gen_key y = gen_key x /\ it_second y = false) as HP.
  { intros j (y & Hy & Hk & Hs & _). exists y. split; [by apply lookup_lt_Some in Hy|]. split; [by apply lookup_app_l_Some|done]. }
  destruct (step_d (length items) x st) as [Hh|Hh Hsec Hw Hg|st' b Hh Hsec Hw Hg Hf|Hh H2 Hkw Hn|Hh H2 Hkw Hn Hfs Hy|st' b Hh H2 Hkw Hn Hfs Hy Hf|Hh Hsec Hw Hkw Hn Hfs|Hh Hsec Hkw Hn Hfs Hy|Hh Hsec Hkw Hn Hfs Hy|st' b Hh H2 Hn Hsd Hf|Hh H2 Hn Hsd]; cbn [ps_log ps_res ps_hung ps_wrapped ps_gens].
  - congruence.
  - apply wk_in, IH4 in Hw as [Hfs [j Hj]]. destruct (Hfun _ _ (starts_mono _ x _ _ Hj) eq_refl) as [Hkw Hn]. split; [done|]. apply and_assoc. split; [|apply HK; by left]. apply HR. rewrite /expected Hn Hkw Hfs Hsec.
    destruct (HP _ Hj) as (y & ? & ? & ? & ?). exists j, y. do 4 (split; [done|]). intros Hyl. assert (gk x st = true); [|congruence]. apply gk_of, IH5. split; [done|]. by exists j.
  - apply gk_in, IH5 in Hg as [Hfs [j [Hj Hyj]]]. destruct (Hfun _ _ (starts_mono _ x _ _ Hj) eq_refl) as [Hkw Hn]. destruct (find_some _ _ _ _ _ _ _ _ Hf Er) as (-> & -> & -> & ->). split; [done|]. apply and_assoc. split; [|apply HK; by left]. apply HR. rewrite /expected Hn Hkw Hfs Hsec.
    destruct (HP _ Hj) as (y & ? & ? & ? & ?). destruct (Nat.eqb_spec r 0) as [->|Hr]; [destruct (second (length items)) eqn:E2|]; exists j, y; do 5 (split; [done|]); try done; [right; congruence..|by left].
  - split; [done|]. apply and_assoc. split; [|apply HK; auto]. apply HR. by rewrite /expected Hn Hkw.
  - split; [done|]. apply and_assoc. split; [|apply HK; auto]. apply HR. rewrite /expected Hn Hkw Hfs. by destruct (first (length items)).
  - destruct (find_some _ _ _ _ _ _ _ _ Hf Er) as (-> & -> & -> & ->). split; [done|]. apply and_assoc. split; [|apply HK; auto]. apply HR. rewrite /expected Hn Hkw Hfs Hy. destruct r; [|done]. by destruct (second (length items)).
  - split; [done|]. apply and_assoc. split; [|apply HK; auto]. apply HR. rewrite /expected Hn Hkw Hfs Hsec. intros j y Hj Hy Hk. destruct (it_second y) eqn:Es; [done|]. exfalso.
    apply lookup_pre in Hy; [|done]. assert (wk x st = true); [|congruence]. apply wk_of, IH4. split; [done|]. exists j, y. do 3 (split; [done|]).
    assert (it_fun y = it_fun x) as Ef. { apply (fun_of_key (items ++ [x])); try done. apply in_or_app. left. apply elem_of_list_In. by eapply elem_of_list_lookup_2. } by rewrite Ef (kw_fun _ _ Ef).
  - split; [done|]. apply and_assoc. split; [apply HR; by rewrite /expected Hn Hkw Hfs Hsec Hy|]. assert (startsQ (items ++ [x]) (gen_key x) (length items)) as Hst. { exists x. split; [apply last_lookup|done]. } split; intros k; cbn.
    + rewrite IH4. split; [intros [<-|[_ [j Hj]]]; split; try done; [by exists (length items)|exists j; by apply starts_mono]|]. intros [_ [j Hj]]. apply starts_snoc in Hj as [Hj|(_ & ? & _)]; [right; split; [done|by exists j]|by left].
    + rewrite IH5. split; [intros [<-|[_ [j [Hj ?]]]]; split; try done; [by exists (length items)|exists j; split; [by apply starts_mono|done]]|]. intros [_ [j [Hj ?]]]. apply starts_snoc in Hj as [Hj|(_ & ? & _)]; [right; split; [done|by exists j]|by left].
  - split; [done|]. apply and_assoc. split; [apply HR; rewrite /expected Hn Hkw Hfs Hsec; by destruct (first (length items))|]. assert (startsQ (items ++ [x]) (gen_key x) (length items)) as Hst. { exists x. split; [apply last_lookup|done]. } split; intros k; cbn.
    + rewrite IH4. split; [intros [<-|[_ [j Hj]]]; split; try done; [by exists (length items)|exists j; by apply starts_mono]|]. intros [_ [j Hj]]. apply starts_snoc in Hj as [Hj|(_ & ? & _)]; [right; split; [done|by exists j]|by left].
    + rewrite IH5. split; [intros [_ [j [Hj ?]]]; split; [done|]; exists j; split; [by apply starts_mono|done]|]. intros [_ [j [Hj Hjy]]]. apply starts_snoc in Hj as [Hj|(-> & _)]; [split; [done|by exists j]|done].
  - destruct (find_some _ _ _ _ _ _ _ _ Hf Er) as (-> & -> & -> & ->). split; [done|]. apply and_assoc. split; [|apply HK; auto]. apply HR. rewrite /expected Hn Hsd. cbn. destruct r; [|done]. by destruct (first (length items)).
  - split; [done|]. apply and_assoc. split; [|apply HK; auto]. apply HR. rewrite /expected Hn Hsd. by destruct (first (length items)).
Qed.
(** Outcomes come in the order of the items; what hangs, hangs at one item. *)
Lemma hang_inv items : let st := run items in exists k, k <= length items /\ map fst (ps_res st) = seq 0 k /\ (ps_hung st = true <-> k < length items) /\ (ps_hung st = true -> rc = None).
Proof.
  induction items as [|x items IH] using rev_ind; intros st; [exists 0; cbn; repeat split; try done; lia|]. rewrite /st run_snoc. clear st. destruct IH as (k & Hk & Hm & Hh & Hr). set (st := run items) in *. rewrite app_length /=.
  assert (forall o, ps_hung st = false -> map fst (ps_res st ++ [(length items, o)]) = seq 0 (S (length items))) as HR.
  { intros o Hf. assert (k = length items) as -> by (destruct (decide (k < length items)) as [H|H]; [apply Hh in H; congruence|lia]). by rewrite map_app Hm seq_S. }
  assert (forall st' p a l b, ps_hung st = false -> find st' st (length items) p a l b -> exists k0, k0 <= length items + 1 /\ map fst (ps_res st') = seq 0 k0 /\ (ps_hung st' = true <-> k0 < length items + 1) /\ (ps_hung st' = true -> rc = None)) as HF.
  { intros st' p a l b Hf H. inversion H as [? ? ? ? ? E'|? ? ? ? ? r' E' Hr'|? ? ? ? ? E']; subst; cbn [ps_res ps_hung].
    - exists k. assert (k = length items) as -> by (destruct (decide (k < length items)) as [H'|H']; [apply Hh in H'; congruence|lia]). repeat split; try done; lia.
    - exists (S (length items)). split; [lia|]. split; [by apply HR|]. split; [split; [done|lia]|done].
    - exists (S (length items)). split; [lia|]. split; [by apply HR|]. split; [split; [done|lia]|done]. }
  destruct (step_d (length items) x st); cbn [ps_res ps_hung]; try (exists (S (length items)); split; [lia|]; split; [by apply HR|]; split; [split; [done|lia]|done]); try (by eapply HF).
  exists k. split; [lia|]. split; [done|]. split; [|done]. split; [|done]. intros H0. apply Hh in H0. lia.
Qed.
End runs.
(** ** Collection and runs *)
Lemma generate_in f sd sec x : In x (generate f sd sec) -> it_fun x = f /\ it_shutdown x = sd /\ it_second x = sec /\ In (it_param x, it_other x) (tf_params f).
Proof. intros H. apply in_map_iff in H as ([p o] & <- & H). done. Qed.
Lemma generate_of f sd sec p o : In (p, o) (tf_params f) -> In {| it_fun := f; it_param := p; it_other := o; it_shutdown := sd; it_second := sec |} (generate f sd sec).
Proof. intros H. apply in_map_iff. by exists (p, o). Qed.
(** An item with a fixture. *)
Lemma collect_item fs x fx : In x (all_items fs) -> it_fixture x = Some fx ->
  exists m, In (it_fun x) fs /\ it_mark x = Some m /\ mk_fixture m = Some fx /\ In (it_param x, it_other x) (tf_params (it_fun x)) /\
    if it_second x then it_shutdown x = true /\ is_generator (tf_kind (it_fun x)) = true /\ fx_fscope fx = false else it_shutdown x = mk_shutdown m.
Proof.
  rewrite /all_items. intros H Hf. apply in_concat in H as (l & Hl & Hx). apply in_map_iff in Hl as (f & <- & Hin). rewrite /collect needs_iff in Hx. destruct (tf_mark f) as [m|] eqn:Em.
  - destruct (mk_fixture m) as [fx'|] eqn:Ef.
    + assert (In x (generate f (mk_shutdown m) false) \/ (is_generator (tf_kind f) = true /\ fx_fscope fx' = false /\ In x (generate f true true))) as [Hg|(Hn & Hs & Hg)].
      { destruct (is_generator (tf_kind f) && negb (fx_fscope fx')) eqn:E; [|by left]. apply andb_true_iff in E as [? E]. rewrite negb_true_iff in E. apply in_app_or in Hx as [?|?]; [by left|by right]. }
      all: apply generate_in in Hg as (<- & H1 & H2 & H3); rewrite /it_fixture /it_mark Em Ef in Hf; injection Hf as ->; exists m; rewrite /it_mark H2; done.
    + destruct Hx as [<-|[]]. by rewrite /it_fixture /it_mark /= Em Ef in Hf.
  - apply generate_in in Hx as (<- & _). by rewrite /it_fixture /it_mark Em in Hf.
Qed.
Lemma partner_item fs x fx : In x (all_items fs) -> it_fixture x = Some fx -> it_second x = true -> kw_shutdown x = false ->
  exists y, In y (all_items fs) /\ it_fun y = it_fun x /\ it_param y = it_param x /\ gen_key y = gen_key x /\ it_second y = false /\ it_shutdown y = false.
Proof.
  intros Hx Hf Hs Hk. destruct (collect_item _ _ _ Hx Hf) as (m & H1 & H2 & H3 & H4 & _). rewrite /kw_shutdown H2 in Hk.
  eexists. split; [|split; [|split; [|split; [|split]]]]; cycle 1.
  { by instantiate (1 := {| it_fun := it_fun x; it_param := it_param x; it_other := it_other x; it_shutdown := false; it_second := false |}). }
  1-4: done.
  rewrite /all_items. apply in_concat. eexists. split; [apply in_map_iff; by exists (it_fun x)|]. rewrite /collect. rewrite /it_mark in H2. rewrite H2 H3 Hk.
  pose proof (generate_of (it_fun x) false false _ _ H4) as Hg. destruct (_ && _); [apply in_or_app; by left|done].
Qed.
Lemma in_instance g items x : In x (instance_of g items) <-> In x items /\ shares g x.
Proof. rewrite /instance_of filter_In same_iff. done. Qed.
Lemma good_filter g l : good_order l -> in_order (instance_of g l).
Proof.
  intros HG. assert (forall l1 x l2 y, instance_of g l = l1 ++ x :: l2 -> In y l2 -> it_shutdown x = true -> it_shutdown y = true) as H.
  { revert HG. induction l as [|a l IH]; intros HG l1 x l2 y E Hy Hx; [by destruct l1|]. rewrite /instance_of /= in E. destruct (same_fixture g a) eqn:Es.
    - destruct l1 as [|b l1]; injection E as -> E.
      + assert (In y (instance_of g l)) as Hin by (by rewrite /instance_of E). apply in_instance in Hin as [Hin Hsy]. apply same_iff in Es. apply (HG [] x l y); [done|done|done|]. eapply shares_trans; [by apply shares_sym|done].
      + eapply IH; [by eapply good_tail|exact E|done|done].
    - eapply IH; [by eapply good_tail|exact E|done|done]. }
  intros i j x y Hij Hx Hy Hs. apply take_drop_middle in Hx as Ex. eapply H; [symmetry; exact Ex| |done].
  apply elem_of_list_In. apply elem_of_list_lookup_2 with (j - S i). rewrite lookup_drop. by replace (S i + (j - S i)) with j by lia.
Qed.
Lemma instance_law fs g fx : it_fixture g = Some fx -> fx_fscope fx = false -> let inst := instance_of g (modify_items (all_items fs)) in
  one_instance fx inst /\ collected inst /\ in_order inst /\
  (forall i x, inst !! i = Some x -> it_second x = true -> kw_shutdown x = false -> exists j y, j < i /\ inst !! j = Some y /\ gen_key y = gen_key x /\ it_second y = false).
Proof.
  intros Hg Hfs inst. assert (in_order inst) as HO by (apply good_filter, modify_good).
  assert (forall x, In x inst -> In x (all_items fs) /\ shares g x /\ it_fixture x = Some fx) as HI.
  { intros x Hx. apply in_instance in Hx as [Hx Hs]. split; [eapply Permutation_in; [apply modify_perm|done]|]. split; [done|]. destruct Hs as (f & H1 & H2 & _). congruence. }
  split; [|split; [|split]]; [| |done|].
  - split; [by intros x (_ & _ & ?)%HI|congruence].
  - intros x Hx. destruct (HI x Hx) as (H1 & _ & H2). destruct (collect_item _ _ _ H1 H2) as (m & H3 & H4 & H5 & _ & H6). destruct (it_second x).
    + destruct H6 as (? & ? & ?). do 2 (split; [done|]). by exists fx.
    + by exists m.
  - intros i x Hx Hsec Hkw. assert (In x inst) as Hin by (apply elem_of_list_In; by eapply elem_of_list_lookup_2). destruct (HI x Hin) as (H1 & H2 & H3). destruct (partner_item _ _ _ H1 H3 Hsec Hkw) as (y & Hy1 & Hy2 & Hy3 & Hy4 & Hy5 & Hy6).
    assert (In y inst) as Hyin. { apply in_instance. split; [eapply Permutation_in; [symmetry; apply modify_perm|done]|]. destruct H2 as (f & ? & ? & ? & ?). exists f. split; [done|]. split; [by rewrite /it_fixture /it_mark Hy2|]. split; [done|congruence]. }
    apply elem_of_list_In, elem_of_list_lookup_1 in Hyin as [j Hj]. exists j, y. split; [|done]. destruct (lt_eq_lt_dec i j) as [[Hij| ->]|?]; [|congruence|done].
    assert (it_shutdown y = true); [|congruence]. apply (HO i j x y); try done. destruct (collect_item _ _ _ H1 H3) as (m & _ & _ & _ & _ & Hm). rewrite Hsec in Hm. by destruct Hm.
Qed.
(** ** ReadyToTest *)
Section tent_ind.
Context (P : tent -> Prop) (H : forall id r subs cond, List.Forall P subs -> List.Forall (List.Forall P) cond -> P (TEnt id r subs cond)).
Fixpoint tent_ind' (e : tent) : P e :=
  let '(TEnt id r subs cond) := e in
  let lst := fix lst (l : list tent) : List.Forall P l := match l with [] => List.Forall_nil _ | x :: l => List.Forall_cons _ _ _ (tent_ind' x) (lst l) end in
  let lst2 := fix lst2 (l : list (list tent)) : List.Forall (List.Forall P) l := match l with [] => List.Forall_nil _ | x :: l => List.Forall_cons _ _ _ (lst x) (lst2 l) end in
  H id r subs cond (lst subs) (lst2 cond).
End tent_ind.
Lemma ready_iff e a : In a (ready_actions e) <-> exists subs cond, inside e (TEnt a true subs cond).
Proof.
  induction e as [id r subs cond IH1 IH2] using tent_ind'. rewrite List.Forall_forall in IH1. rewrite List.Forall_forall in IH2. cbn. rewrite !in_app_iff. split.
  - intros [H|[H|H]].
    + destruct r; [|done]. destruct H as [->|[]]. exists subs, cond. constructor.
    + apply in_concat in H as (l & Hl & Ha). apply in_map_iff in Hl as (e & <- & He). apply IH1 in Ha as (s & c & Hi); [|done]. exists s, c. by eapply in_sub.
    + apply in_concat in H as (l & Hl & Ha). apply in_map_iff in Hl as (es & <- & Hes). apply in_concat in Ha as (l & Hl & Ha). apply in_map_iff in Hl as (e & <- & He).
      specialize (IH2 es Hes). rewrite List.Forall_forall in IH2. apply IH2 in Ha as (s & c & Hi); [|done]. exists s, c. by eapply in_cond.
  - intros (s & c & Hi). inversion Hi; subst.
    + left. by left.
    + right. left. apply in_concat. exists (ready_actions e). split; [by apply in_map|]. apply IH1; [done|]. by exists s, c.
    + right. right. apply in_concat. exists (concat (map ready_actions l)). split; [apply in_map_iff; by exists l|]. apply in_concat. exists (ready_actions e). split; [by apply in_map|].
      specialize (IH2 l H4). rewrite List.Forall_forall in IH2. apply IH2; [done|]. by exists s, c.
Qed.
Lemma has_ready_iff es a : In a (concat (map ready_actions es)) <-> has_ready es a.
Proof.
  rewrite /has_ready. split.
  - intros H. apply in_concat in H as (l & Hl & Ha). apply in_map_iff in Hl as (e & <- & He). apply ready_iff in Ha as (s & c & Hi). by exists e, s, c.
  - intros (e & s & c & He & Hi). apply in_concat. exists (ready_actions e). split; [by apply in_map|]. apply ready_iff. by exists s, c.
Qed.
Lemma ready_ok fresh es a es' : get_ready fresh es = Ok (a, es') -> has_ready es' a /\ (forall b, has_ready es' b -> b = a) /\ (es' = es \/ es' = es ++ [TEnt fresh true [] []] /\ a = fresh /\ forall b, ~ has_ready es b).
Proof.
  rewrite /get_ready. destruct (concat (map ready_actions es)) as [|b [|]] eqn:E; intros [= <- <-].
  - assert (concat (map ready_actions (es ++ [TEnt fresh true [] []])) = [fresh]) as E' by (by rewrite map_app concat_app E).
    split; [apply has_ready_iff; rewrite E'; by left|]. split; [intros b Hb; apply has_ready_iff in Hb; rewrite E' in Hb; by destruct Hb as [<-|[]]|]. right. split; [done|]. split; [done|]. intros b Hb. apply has_ready_iff in Hb. by rewrite E in Hb.
  - split; [apply has_ready_iff; rewrite E; by left|]. split; [intros c Hc; apply has_ready_iff in Hc; rewrite E in Hc; by destruct Hc as [<-|[]]|]. by left.
Qed.
Lemma ready_exn fresh es a b : has_ready es a -> has_ready es b -> a <> b -> get_ready fresh es = Exn XRuntime.
Proof.
  rewrite -!has_ready_iff /get_ready. intros Ha Hb Hne. destruct (concat (map ready_actions es)) as [|c [|]] eqn:E; [done| |done]. destruct Ha as [<-|[]], Hb as [<-|[]]. done.
Qed.
Lemma ready_total fresh es : (forall b, ~ has_ready es b) -> get_ready fresh es = Ok (fresh, es ++ [TEnt fresh true [] []]).
Proof. intros H. rewrite /get_ready. destruct (concat (map ready_actions es)) as [|c l] eqn:E; [done|]. exfalso. apply (H c), has_ready_iff. rewrite E. by left. Qed.

(** Lemmas about decoding output. *)
From Coq Require Import ssreflect.
From Verif Require Import SpecUtf8.

Lemma run_app s l1 l2 : u_run s (l1 ++ l2) = ((u_run s l1).1 ++ (u_run (u_run s l1).2 l2).1, (u_run (u_run s l1).2 l2).2).
Proof.
  revert s. induction l1 as [|b l1 IH]; intros s; [simpl; by destruct (u_run s l2)|]. cbn [app u_run]. destruct (u_step s b) as [o s']. rewrite IH.
  destruct (u_run s' l1) as [o1 s1]. simpl. by rewrite app_assoc.
Qed.
Definition u_end (s : ust) : list uout := match s with UStart => [] | UIn _ _ _ _ => [UBad] end.
Lemma all_run l : u_all l = (u_run UStart l).1 ++ u_end (u_run UStart l).2.
Proof. rewrite /u_all. by destruct (u_run UStart l). Qed.
(** *** ASCII *)
Lemma first_ascii b : b < 0x80 -> u_first b = ([UChar b], UStart).
Proof. intros H. rewrite /u_first. by apply N.ltb_lt in H as ->. Qed.
Definition low (s : ust) : Prop := match s with UStart => True | UIn _ lo _ _ => 0x80 <= lo end.
Lemma lead_low b n lo hi acc : lead b = Some (n, lo, hi, acc) -> 0x80 <= lo.
Proof. rewrite /lead. repeat (destruct (_ && _) || destruct (_ =? _)); intros [= <- <- <- <-]; lia. Qed.
Lemma first_low b : low (u_first b).2.
Proof. rewrite /u_first. destruct (b <? 0x80); [done|]. destruct (lead b) as [[[[n lo] hi] acc]|] eqn:E; [|done]. by apply lead_low in E. Qed.
Lemma step_low s b : low s -> low (u_step s b).2.
Proof.
  destruct s as [|n lo hi acc]; [intros _; apply first_low|]. intros Hl. simpl. destruct ((lo <=? b) && (b <=? hi)); [|apply first_low].
  destruct n as [|[|n]]; simpl; [done|done|lia].
Qed.
Lemma run_low s l : low s -> low (u_run s l).2.
Proof.
  revert s. induction l as [|b l IH]; intros s Hs; [done|]. simpl. pose proof (step_low s b Hs) as H. destruct (u_step s b) as [o s']. specialize (IH s' H). by destruct (u_run s' l).
Qed.
Lemma step_ascii s b : low s -> b < 0x80 -> u_step s b = (u_end s ++ [UChar b], UStart).
Proof.
  intros Hl Hb. destruct s as [|n lo hi acc]; [by apply first_ascii|]. simpl in *.
  assert (lo <=? b = false) as -> by (apply N.leb_gt; lia). by rewrite first_ascii.
Qed.
Lemma all_ascii l1 b l2 : b < 0x80 -> u_all (l1 ++ b :: l2) = u_all l1 ++ UChar b :: u_all l2.
Proof.
  intros Hb. rewrite !all_run run_app /= step_ascii //; [by apply run_low|]. destruct (u_run UStart l2) as [o s]. simpl. by rewrite -!app_assoc.
Qed.
Lemma all_start l1 l2 : (u_run UStart l1).2 = UStart -> u_all (l1 ++ l2) = u_all l1 ++ u_all l2.
Proof. intros H. by rewrite !all_run run_app H /= app_nil_r app_assoc. Qed.
(** *** Encoded text *)
Lemma enc_run c l : scalar c -> u_run UStart (encode1 c ++ l) = (UChar c :: (u_run UStart l).1, (u_run UStart l).2).
Proof.
  intros Hc. rewrite /encode1.
  pose proof (N.div_mod' c 64) as E1. pose proof (N.mod_lt c 64 ltac:(done)) as L1.
  pose proof (N.div_mod' (c / 64) 64) as E2. pose proof (N.mod_lt (c / 64) 64 ltac:(done)) as L2.
  pose proof (N.div_mod' (c / 64 / 64) 64) as E3. pose proof (N.mod_lt (c / 64 / 64) 64 ltac:(done)) as L3.
  generalize dependent (c mod 64). intros r1. generalize dependent (c / 64). intros q1. intros.
  generalize dependent (q1 mod 64). intros r2. generalize dependent (q1 / 64). intros q2. intros.
  generalize dependent (q2 mod 64). intros r3. generalize dependent (q2 / 64). intros q3. intros.
  destruct (c <? 0x80) eqn:H1; [apply N.ltb_lt in H1|apply N.ltb_ge in H1; destruct (c <? 0x800) eqn:H2; [apply N.ltb_lt in H2|apply N.ltb_ge in H2; destruct (c <? 0x10000) eqn:H3; [apply N.ltb_lt in H3|apply N.ltb_ge in H3]]].
  - cbn [app u_run u_step]. rewrite first_ascii //. by destruct (u_run UStart l).
  - cbn [app u_run u_step]. rewrite /u_first. assert (0xC0 + q1 <? 0x80 = false) as -> by (apply N.ltb_ge; lia).
    rewrite /lead. assert ((0xC2 <=? 0xC0 + q1) && (0xC0 + q1 <=? 0xDF) = true) as -> by (apply andb_true_iff; split; apply N.leb_le; lia).
    cbn [u_step]. assert ((0x80 <=? 0x80 + r1) && (0x80 + r1 <=? 0xBF) = true) as -> by (apply andb_true_iff; split; apply N.leb_le; lia).
    destruct (u_run UStart l) as [o s]. simpl. do 3 f_equal. lia.
  - cbn [app u_run u_step]. rewrite /u_first. assert (0xE0 + q2 <? 0x80 = false) as -> by (apply N.ltb_ge; lia).
    assert (exists lo hi, lead (0xE0 + q2) = Some (2%nat, lo, hi, q2) /\ lo <= 0x80 + r2 <= hi) as (lo & hi & -> & Hlo).
    { rewrite /lead. assert ((0xC2 <=? 0xE0 + q2) && (0xE0 + q2 <=? 0xDF) = false) as -> by (apply andb_false_iff; right; apply N.leb_gt; lia).
      destruct (0xE0 + q2 =? 0xE0) eqn:Ea; [apply N.eqb_eq in Ea; exists 0xA0, 0xBF; split; [do 2 f_equal; lia|unfold scalar in Hc; lia]|apply N.eqb_neq in Ea].
      destruct (0xE0 + q2 =? 0xED) eqn:Eb; [apply N.eqb_eq in Eb; exists 0x80, 0x9F; split; [do 2 f_equal; lia|unfold scalar in Hc; lia]|apply N.eqb_neq in Eb].
      assert ((0xE1 <=? 0xE0 + q2) && (0xE0 + q2 <=? 0xEF) = true) as -> by (apply andb_true_iff; split; apply N.leb_le; lia).
      exists 0x80, 0xBF. split; [do 2 f_equal; lia|lia]. }
    cbn [u_step]. assert ((lo <=? 0x80 + r2) && (0x80 + r2 <=? hi) = true) as -> by (apply andb_true_iff; split; apply N.leb_le; lia).
    cbn [u_step]. assert ((0x80 <=? 0x80 + r1) && (0x80 + r1 <=? 0xBF) = true) as -> by (apply andb_true_iff; split; apply N.leb_le; lia).
    destruct (u_run UStart l) as [o s]. simpl. do 3 f_equal. lia.
  - cbn [app u_run u_step]. rewrite /u_first. assert (0xF0 + q3 <? 0x80 = false) as -> by (apply N.ltb_ge; lia).
    assert (exists lo hi, lead (0xF0 + q3) = Some (3%nat, lo, hi, q3) /\ lo <= 0x80 + r3 <= hi) as (lo & hi & -> & Hlo).
    { rewrite /lead. assert ((0xC2 <=? 0xF0 + q3) && (0xF0 + q3 <=? 0xDF) = false) as -> by (apply andb_false_iff; right; apply N.leb_gt; lia).
      assert (0xF0 + q3 =? 0xE0 = false) as -> by (apply N.eqb_neq; lia). assert (0xF0 + q3 =? 0xED = false) as -> by (apply N.eqb_neq; lia).
      assert ((0xE1 <=? 0xF0 + q3) && (0xF0 + q3 <=? 0xEF) = false) as -> by (apply andb_false_iff; right; apply N.leb_gt; lia).
      destruct (0xF0 + q3 =? 0xF0) eqn:Ea; [apply N.eqb_eq in Ea; exists 0x90, 0xBF; split; [do 2 f_equal; lia|unfold scalar in Hc; lia]|apply N.eqb_neq in Ea].
      destruct (0xF0 + q3 =? 0xF4) eqn:Eb; [apply N.eqb_eq in Eb; exists 0x80, 0x8F; split; [do 2 f_equal; lia|unfold scalar in Hc; lia]|apply N.eqb_neq in Eb].
      assert ((0xF1 <=? 0xF0 + q3) && (0xF0 + q3 <=? 0xF3) = true) as -> by (apply andb_true_iff; split; apply N.leb_le; unfold scalar in Hc; lia).
      exists 0x80, 0xBF. split; [do 2 f_equal; lia|lia]. }
    cbn [u_step]. assert ((lo <=? 0x80 + r3) && (0x80 + r3 <=? hi) = true) as -> by (apply andb_true_iff; split; apply N.leb_le; lia).
    cbn [u_step]. assert ((0x80 <=? 0x80 + r2) && (0x80 + r2 <=? 0xBF) = true) as -> by (apply andb_true_iff; split; apply N.leb_le; lia).
    cbn [u_step]. assert ((0x80 <=? 0x80 + r1) && (0x80 + r1 <=? 0xBF) = true) as -> by (apply andb_true_iff; split; apply N.leb_le; lia).
    destruct (u_run UStart l) as [o s]. simpl. do 3 f_equal. lia.
Qed.
Lemma encode_run s l : Forall scalar s -> u_run UStart (encode s ++ l) = (map UChar s ++ (u_run UStart l).1, (u_run UStart l).2).
Proof.
  induction 1 as [|c s Hc _ IH]; [simpl; by destruct (u_run UStart l)|]. rewrite /encode /= -app_assoc enc_run // -/(encode s) IH. done.
Qed.
Lemma text_all l s : text_of l s -> u_all l = map UChar s /\ (u_run UStart l).2 = UStart.
Proof. intros [Hs ->]. rewrite all_run -(app_nil_r (encode s)) encode_run //= app_nil_r app_nil_r. done. Qed.
Lemma strict_chars s : u_strict (map UChar s) = Some s.
Proof. induction s as [|c s IH]; [done|]. simpl. by rewrite IH. Qed.
Lemma strict_inv o s : u_strict o = Some s -> o = map UChar s.
Proof.
  revert s. induction o as [|[c|] o IH]; intros s; simpl; [by intros [= <-]| |done]. destruct (u_strict o) as [s'|]; [|done]. intros [= <-]. simpl. f_equal. by apply IH.
Qed.
(** *** What is decoded without an error is the encoding of a text *)
Definition run_all (s : ust) (l : list N) : list uout := (u_run s l).1 ++ u_end (u_run s l).2.
Lemma run_all_nil s : run_all s [] = u_end s.
Proof. done. Qed.
Lemma run_all_cons s b l : run_all s (b :: l) = (u_step s b).1 ++ run_all (u_step s b).2 l.
Proof. rewrite /run_all. cbn [u_run]. destruct (u_step s b) as [o s']. cbn [fst snd]. destruct (u_run s' l) as [o' s'']. cbn [fst snd]. symmetry. apply app_assoc. Qed.
Fixpoint conts (n : nat) (lo hi : N) (l : list N) : Prop :=
  match n, l with
  | O, [] => True
  | S n', b :: l' => lo <= b <= hi /\ conts n' 0x80 0xBF l'
  | _, _ => False
  end.
Lemma in_char n lo hi acc l s : run_all (UIn (S n) lo hi acc) l = map UChar s ->
  exists cs l2 s', l = cs ++ l2 /\ conts (S n) lo hi cs /\ s = fold_left (fun a b => a * 64 + (b - 0x80)) cs acc :: s' /\ u_all l2 = map UChar s'.
Proof.
  revert lo hi acc l. induction n as [|n IH]; intros lo hi acc [|b l].
  1, 3: rewrite run_all_nil /=; by destruct s.
  - rewrite run_all_cons /=. destruct ((lo <=? b) && (b <=? hi)) eqn:E; [|by destruct s]. apply andb_true_iff in E as [E1%N.leb_le E2%N.leb_le].
    destruct s as [|c s]; [done|]. simpl. intros [= <- H]. exists [b], l, s. split; [done|]. split; [by repeat split|]. split; [done|]. rewrite all_run. exact H.
  - rewrite run_all_cons. cbn [u_step]. destruct ((lo <=? b) && (b <=? hi)) eqn:E; [|by destruct s]. apply andb_true_iff in E as [E1%N.leb_le E2%N.leb_le].
    intros H. apply IH in H as (cs & l2 & s' & -> & Hc & -> & Hs). exists (b :: cs), l2, s'. split; [done|]. split; [by split|]. by split.
Qed.
Lemma div_cont a b : 0x80 <= b <= 0xBF -> (a * 64 + (b - 0x80)) / 64 = a /\ (a * 64 + (b - 0x80)) mod 64 = b - 0x80.
Proof. intros H. split; [symmetry; apply (N.div_unique _ _ a (b - 0x80)); lia|symmetry; apply (N.mod_unique _ _ a (b - 0x80)); lia]. Qed.
Lemma lead_cases b n lo hi acc : 0x80 <= b -> lead b = Some (n, lo, hi, acc) ->
  (n = 1%nat /\ b = 0xC0 + acc /\ 2 <= acc < 32 /\ lo = 0x80 /\ hi = 0xBF)
  \/ (n = 2%nat /\ b = 0xE0 + acc /\ acc < 16 /\ 0x80 <= lo /\ hi <= 0xBF /\ (acc = 0 -> lo = 0xA0) /\ (acc = 13 -> hi = 0x9F))
  \/ (n = 3%nat /\ b = 0xF0 + acc /\ acc <= 4 /\ 0x80 <= lo /\ hi <= 0xBF /\ (acc = 0 -> lo = 0x90) /\ (acc = 4 -> hi = 0x8F)).
Proof.
  intros Hb. rewrite /lead.
  destruct ((0xC2 <=? b) && (b <=? 0xDF)) eqn:E1. { apply andb_true_iff in E1 as [?%N.leb_le ?%N.leb_le]. intros [= <- <- <- <-]. left. lia. }
  destruct (b =? 0xE0) eqn:E2. { apply N.eqb_eq in E2. intros [= <- <- <- <-]. right. left. lia. }
  destruct (b =? 0xED) eqn:E3. { apply N.eqb_eq in E3. intros [= <- <- <- <-]. right. left. lia. }
  destruct ((0xE1 <=? b) && (b <=? 0xEF)) eqn:E4. { apply andb_true_iff in E4 as [?%N.leb_le ?%N.leb_le]. apply N.eqb_neq in E2, E3. intros [= <- <- <- <-]. right. left. lia. }
  destruct (b =? 0xF0) eqn:E5. { apply N.eqb_eq in E5. intros [= <- <- <- <-]. right. right. lia. }
  destruct (b =? 0xF4) eqn:E6. { apply N.eqb_eq in E6. intros [= <- <- <- <-]. right. right. lia. }
  destruct ((0xF1 <=? b) && (b <=? 0xF3)) eqn:E7; [|done]. apply andb_true_iff in E7 as [?%N.leb_le ?%N.leb_le]. intros [= <- <- <- <-]. right. right. lia.
Qed.
Lemma first_char b l s : u_all (b :: l) = map UChar s -> exists c l2 s', b :: l = encode1 c ++ l2 /\ scalar c /\ s = c :: s' /\ u_all l2 = map UChar s'.
Proof.
  rewrite all_run. change ((u_run UStart (b :: l)).1 ++ u_end (u_run UStart (b :: l)).2) with (run_all UStart (b :: l)). rewrite run_all_cons. cbn [u_step]. rewrite /u_first.
  destruct (b <? 0x80) eqn:Hb.
  { destruct s as [|c s]; [done|]. simpl. intros [= -> H]. exists c, l, s. rewrite all_run. split; [by rewrite /encode1 Hb|]. split; [|by split]. apply N.ltb_lt in Hb. left. lia. }
  apply N.ltb_ge in Hb. destruct (lead b) as [[[[n lo] hi] acc]|] eqn:E; [|by destruct s]. cbn [fst snd app]. intros H. apply lead_cases in E; [|done].
  assert (exists m, n = S m) as (m & ->) by (destruct E as [(-> & _)|[(-> & _)|(-> & _)]]; by eexists).
  apply in_char in H as (cs & l2 & s' & -> & Hc & -> & Hs). eexists _, l2, s'. split; [|split; [|split; [done|done]]].
  - change (b :: cs ++ l2) with ((b :: cs) ++ l2). f_equal. destruct E as [([= ->] & -> & Ha & -> & ->)|[([= ->] & -> & Ha)|([= ->] & -> & Ha)]].
    + destruct cs as [|c1 [|? ?]]; [destruct Hc|destruct Hc as [H1 _]|destruct Hc as [_ []]]. cbn [fold_left]. destruct (div_cont acc c1) as [D1 M1]; [lia|]. rewrite /encode1 D1 M1.
      assert (acc * 64 + (c1 - 0x80) <? 0x80 = false) as -> by (apply N.ltb_ge; lia). assert (acc * 64 + (c1 - 0x80) <? 0x800 = true) as -> by (apply N.ltb_lt; lia). do 2 f_equal. lia.
    + destruct cs as [|c1 [|c2 [|? ?]]]; [destruct Hc|destruct Hc as [_ []]|destruct Hc as [H1 [H2 _]]|destruct Hc as [_ [_ []]]]. cbn [fold_left].
      destruct (div_cont acc c1) as [D1 M1]; [lia|]. destruct (div_cont (acc * 64 + (c1 - 0x80)) c2) as [D2 M2]; [lia|]. rewrite /encode1 D2 M2 D1 M1.
      assert (0x800 <= (acc * 64 + (c1 - 0x80)) * 64 + (c2 - 0x80) < 0x10000) as Hv by lia. revert Hv. generalize ((acc * 64 + (c1 - 0x80)) * 64 + (c2 - 0x80)). intros v Hv.
      assert (v <? 0x80 = false) as -> by (apply N.ltb_ge; lia). assert (v <? 0x800 = false) as -> by (apply N.ltb_ge; lia). assert (v <? 0x10000 = true) as -> by (apply N.ltb_lt; lia).
      do 2 f_equal; [lia|]. f_equal. lia.
    + destruct cs as [|c1 [|c2 [|c3 [|? ?]]]]; [destruct Hc|destruct Hc as [_ []]|destruct Hc as [_ [_ []]]|destruct Hc as [H1 [H2 [H3 _]]]|destruct Hc as [_ [_ [_ []]]]]. cbn [fold_left].
      destruct (div_cont acc c1) as [D1 M1]; [lia|]. destruct (div_cont (acc * 64 + (c1 - 0x80)) c2) as [D2 M2]; [lia|]. destruct (div_cont ((acc * 64 + (c1 - 0x80)) * 64 + (c2 - 0x80)) c3) as [D3 M3]; [lia|].
      rewrite /encode1 D3 M3 D2 M2 D1 M1.
      assert (0x10000 <= ((acc * 64 + (c1 - 0x80)) * 64 + (c2 - 0x80)) * 64 + (c3 - 0x80)) as Hv by lia. revert Hv. generalize (((acc * 64 + (c1 - 0x80)) * 64 + (c2 - 0x80)) * 64 + (c3 - 0x80)). intros v Hv.
      assert (v <? 0x80 = false) as -> by (apply N.ltb_ge; lia). assert (v <? 0x800 = false) as -> by (apply N.ltb_ge; lia). assert (v <? 0x10000 = false) as -> by (apply N.ltb_ge; lia).
      do 2 f_equal; [lia|]. f_equal; [lia|]. f_equal. lia.
  - unfold scalar. destruct E as [([= ->] & -> & Ha & -> & ->)|[([= ->] & -> & Ha)|([= ->] & -> & Ha)]].
    + destruct cs as [|c1 [|? ?]]; [destruct Hc|destruct Hc as [H1 _]|destruct Hc as [_ []]]. cbn [fold_left]. lia.
    + destruct cs as [|c1 [|c2 [|? ?]]]; [destruct Hc|destruct Hc as [_ []]|destruct Hc as [H1 [H2 _]]|destruct Hc as [_ [_ []]]]. cbn [fold_left]. lia.
    + destruct cs as [|c1 [|c2 [|c3 [|? ?]]]]; [destruct Hc|destruct Hc as [_ []]|destruct Hc as [_ [_ []]]|destruct Hc as [H1 [H2 [H3 _]]]|destruct Hc as [_ [_ [_ []]]]]. cbn [fold_left]. lia.
Qed.
Lemma all_text l s : u_all l = map UChar s -> text_of l s.
Proof.
  revert l. induction s as [|c s IH]; intros l H.
  - destruct l as [|b l]; [by split|]. apply first_char in H as (? & ? & ? & _ & _ & H & _). done.
  - destruct l as [|b l]; [done|]. apply first_char in H as (c' & l2 & s' & -> & Hc & [= <- <-] & H). destruct (IH _ H) as [Hs ->]. split; [by constructor|done].
Qed.
(** *** The theorems *)
Lemma strict_iff l s : decode_strict l = Some s <-> text_of l s.
Proof.
  split.
  - intros H. apply all_text. by apply strict_inv.
  - intros H. rewrite /decode_strict. destruct (text_all _ _ H) as [-> _]. apply strict_chars.
Qed.
Lemma replace_text l s : text_of l s -> decode_replace l = s.
Proof. intros H. rewrite /decode_replace. destruct (text_all _ _ H) as [-> _]. rewrite map_map. apply map_id. Qed.
Lemma replace_ascii l1 b l2 : b < 0x80 -> decode_replace (l1 ++ b :: l2) = decode_replace l1 ++ b :: decode_replace l2.
Proof. intros H. by rewrite /decode_replace all_ascii // map_app. Qed.
Lemma replace_clean l1 l2 : clean_cut l1 l2 -> decode_replace (l1 ++ l2) = decode_replace l1 ++ decode_replace l2.
Proof.
  intros [->|[->|[(l & b & -> & Hb)|[(b & l & -> & Hb)|(s & Hs)]]]].
  - done.
  - by rewrite !app_nil_r.
  - rewrite -app_assoc /= !replace_ascii // -app_assoc. done.
  - rewrite replace_ascii // -[b :: l]app_nil_l replace_ascii //.
  - destruct (text_all _ _ Hs) as [_ H]. by rewrite /decode_replace all_start // map_app.
Qed.
Lemma decoded_clean cs : clean_cuts cs -> decoded cs = decode_replace (concat cs).
Proof. induction cs as [|c cs IH]; [done|]. intros [H1 H2]. by rewrite /decoded /= -/(decoded cs) IH // replace_clean. Qed.
Lemma joined_iff cs s : joined cs = Some s <-> exists ss, Forall2 text_of cs ss /\ s = concat ss.
Proof.
  revert s. induction cs as [|c cs IH]; intros s; simpl.
  - split; [intros [= <-]; by exists []|]. intros (ss & H & ->). by inversion H.
  - split.
    + destruct (decode_strict c) as [t|] eqn:E; [|done]. destruct (joined cs) as [u|] eqn:J; [|done]. intros [= <-]. apply strict_iff in E.
      destruct (proj1 (IH u) eq_refl) as (ss & Hs & ->). exists (t :: ss). split; [by constructor|done].
    + intros (ss & H & ->). inversion H as [|? t ? ss' Ht Hss]; subst. apply strict_iff in Ht as ->. rewrite (proj2 (IH (concat ss'))); [by eexists|done].
Qed.
(** *** Newlines *)
Definition high (s : ust) : Prop :=
  match s with
  | UStart => True
  | UIn n lo _ acc => 0x80 <= lo /\ match n with 1%nat => 0x80 <= acc * 64 + (lo - 0x80) | 2%nat => 2 <= acc * 64 + (lo - 0x80) | 3%nat => 1 <= acc * 64 + (lo - 0x80) | _ => False end
  end.
Lemma first_high b : high (u_first b).2.
Proof.
  rewrite /u_first. destruct (b <? 0x80) eqn:Hb; [done|]. destruct (lead b) as [[[[n lo] hi] acc]|] eqn:E; [|done]. apply N.ltb_ge in Hb.
  apply lead_cases in E as [(-> & E)|[(-> & E)|(-> & E)]]; simpl; lia.
Qed.
Lemma first_small b x : In (UChar x) (u_first b).1 -> x < 0x80 -> x = b.
Proof.
  rewrite /u_first. destruct (b <? 0x80); [by intros [[= ->]|[]]|]. destruct (lead b) as [[[[n lo] hi] acc]|]; [by intros []|]. by intros [|[]].
Qed.
Lemma step_high s b : high s -> high (u_step s b).2.
Proof.
  destruct s as [|n lo hi acc]; [intros _; apply first_high|]. intros Hl. simpl. destruct ((lo <=? b) && (b <=? hi)) eqn:E; [|apply first_high].
  apply andb_true_iff in E as [E1%N.leb_le _]. destruct n as [|[|[|[|n]]]]; simpl in *; lia.
Qed.
Lemma step_small s b x : high s -> In (UChar x) (u_step s b).1 -> x < 0x80 -> x = b.
Proof.
  destruct s as [|n lo hi acc]; [intros _; apply first_small|]. intros Hl. simpl. destruct ((lo <=? b) && (b <=? hi)) eqn:E.
  - apply andb_true_iff in E as [E1%N.leb_le _]. destruct n as [|[|[|[|n]]]]; simpl in *; try by intros []. + lia. + intros [[= <-]|[]]. lia.
  - intros [|H]; [done|by apply first_small].
Qed.
Lemma run_small s l x : high s -> In (UChar x) (run_all s l) -> x < 0x80 -> In x l.
Proof.
  revert s. induction l as [|b l IH]; intros s Hs.
  - rewrite run_all_nil. destruct s; [by intros []|]. by intros [|[]].
  - rewrite run_all_cons. intros [H|H]%in_app_or Hx; [left; symmetry; by apply (step_small s)|]. right. apply (IH (u_step s b).2); [by apply step_high|done|done].
Qed.
Lemma replace_small l x : In x (decode_replace l) -> x < 0x80 -> In x l.
Proof.
  intros (o & Ho & Hin)%in_map_iff Hx. rewrite all_run in Hin. destruct o as [c|]; [|subst; lia]. subst. by apply (run_small UStart).
Qed.
Lemma replace_lines l ls r : lines_of l ls r -> lines_of (decode_replace l) (map decode_replace ls) (decode_replace r).
Proof.
  induction 1 as [r Hr|l s ls r Hl _ IH].
  - constructor. intros H. apply Hr. by apply replace_small.
  - rewrite replace_ascii //. constructor; [|done]. intros H. apply Hl. by apply replace_small.
Qed.
Definition newlines (l : list N) : nat := length (List.filter (N.eqb 10) l).
Lemma newlines_app l1 l2 : newlines (l1 ++ l2) = (newlines l1 + newlines l2)%nat.
Proof. by rewrite /newlines List.filter_app app_length. Qed.
Lemma newlines_none l : ~ In 10 l -> newlines l = 0%nat.
Proof.
  induction l as [|b l IH]; [done|]. intros H. rewrite /newlines. cbn [List.filter]. destruct (10 =? b) eqn:E; [apply N.eqb_eq in E; exfalso; apply H; by left|].
  apply IH. intros Hin. apply H. by right.
Qed.
Lemma lines_newlines l ls r : lines_of l ls r -> newlines l = length ls.
Proof.
  induction 1 as [r Hr|l s ls r Hl _ IH]; [by apply newlines_none|]. rewrite newlines_app newlines_none //. change (newlines (10 :: s)) with (S (newlines s)). simpl. by rewrite IH.
Qed.
Lemma lines_exist l : exists ls r, lines_of l ls r.
Proof.
  induction l as [|b l (ls & r & IH)]; [exists [], []; constructor; by intros []|].
  destruct (N.eq_dec b 10) as [->|Hb]; [exists ([] :: ls), r; apply (lo_line []); [by intros []|done]|].
  destruct IH as [r Hr|l' s ls r Hl Hs].
  - exists [], (b :: r). constructor. intros [|]; done.
  - exists ((b :: l') :: ls), r. change (b :: l' ++ 10 :: s) with ((b :: l') ++ 10 :: s). constructor; [|done]. intros [|]; done.
Qed.
Lemma replace_newlines l : newlines (decode_replace l) = newlines l.
Proof.
  destruct (lines_exist l) as (ls & r & H). rewrite (lines_newlines _ _ _ H) (lines_newlines _ _ _ (replace_lines _ _ _ H)). apply map_length.
Qed.
Lemma decoded_newlines cs : newlines (decoded cs) = newlines (concat cs).
Proof. induction cs as [|c cs IH]; [done|]. rewrite /decoded /= -/(decoded cs) !newlines_app replace_newlines IH //. Qed.
Lemma decoded_count cs ls r ls' r' : lines_of (concat cs) ls r -> lines_of (decoded cs) ls' r' -> length ls' = length ls.
Proof. intros H H'. by rewrite -(lines_newlines _ _ _ H) -(lines_newlines _ _ _ H') decoded_newlines. Qed.
(** *** A character in two chunks *)
Lemma run_all_some s l : l <> [] \/ s <> UStart -> run_all s l <> [].
Proof.
  revert s. induction l as [|b l IH]; intros s H.
  - rewrite run_all_nil. destruct H as [|H]; [done|]. by destruct s.
  - rewrite run_all_cons. intros [E1 E2]%app_eq_nil. apply (IH (u_step s b).2); [|done]. right. intros E3.
    destruct s as [|n lo hi acc]; simpl in *.
    + rewrite /u_first in E1 E3. destruct (b <? 0x80); [done|]. by destruct (lead b) as [[[[? ?] ?] ?]|].
    + destruct ((lo <=? b) && (b <=? hi)); [|done]. by destruct n as [|[|n]].
Qed.
Lemma replace_some l : l <> [] -> decode_replace l <> [].
Proof. intros H E. apply map_eq_nil in E. rewrite all_run in E. apply (run_all_some UStart l); [by left|done]. Qed.
Lemma strict_none o : u_strict o = None -> In UBad o.
Proof. induction o as [|[c|] o IH]; simpl; [done| |by left]. destruct (u_strict o); [done|]. right. by apply IH. Qed.
Lemma text_app l1 s1 l2 s2 : text_of l1 s1 -> text_of l2 s2 -> text_of (l1 ++ l2) (s1 ++ s2).
Proof. intros [H1 ->] [H2 ->]. split; [by apply List.Forall_app|]. by rewrite /encode map_app concat_app. Qed.
Lemma text1 c : scalar c -> text_of (encode1 c) [c].
Proof. intros H. split; [by constructor|]. by rewrite /encode /= app_nil_r. Qed.
Lemma encode_some s : s <> [] -> encode s <> [].
Proof.
  destruct s as [|c s]; [done|]. intros _. rewrite /encode /=. intros [H _]%app_eq_nil. revert H. rewrite /encode1. by destruct (c <? 0x80), (c <? 0x800), (c <? 0x10000).
Qed.
Lemma broken_none c l1 l2 : scalar c -> encode1 c = l1 ++ l2 -> l1 <> [] -> l2 <> [] -> decode_strict l1 = None.
Proof.
  intros Hc He H1 H2. destruct (decode_strict l1) as [s|] eqn:E; [|done]. exfalso. apply strict_iff in E. pose proof E as [_ El].
  assert (u_all (l1 ++ l2) = map UChar s ++ u_all l2) as Ha. { destruct (text_all _ _ E) as [Ea Es]. rewrite all_start // Ea //. }
  rewrite -He in Ha. destruct (text_all _ _ (text1 c Hc)) as [Hx _]. rewrite Hx in Ha.
  destruct s as [|c' s]; [by subst|]. simpl in Ha. injection Ha as _ Ha. symmetry in Ha. apply app_eq_nil in Ha as [_ Ha]. rewrite all_run in Ha. apply (run_all_some UStart l2); [by left|done].
Qed.
Lemma broken c l1 l2 : scalar c -> encode1 c = l1 ++ l2 -> l1 <> [] -> l2 <> [] ->
  In 0xFFFD (decoded [l1; l2]) /\ decoded [l1; l2] <> [c] /\ joined [l1; l2] = None.
Proof.
  intros Hc He H1 H2. pose proof (broken_none c l1 l2 Hc He H1 H2) as Hn. repeat split.
  - rewrite /decoded /=. apply in_or_app. left. rewrite /decode_replace. apply in_map_iff. exists UBad. split; [done|]. by apply strict_none.
  - rewrite /decoded /= app_nil_r. pose proof (replace_some _ H1) as R1. pose proof (replace_some _ H2) as R2.
    destruct (decode_replace l1) as [|x [|y t]]; [done| |by intros [=]]. destruct (decode_replace l2); [done|]. by intros [=].
  - by rewrite /= Hn.
Qed.
(** *** The ready listener *)
Lemma at_start_iff txt t : at_start txt t = true <-> exists q, t = txt ++ q.
Proof.
  revert t. induction txt as [|a txt IH]; intros t; simpl; [split; [by exists t|done]|]. destruct t as [|b t]; [split; [done|by intros (? & ?)]|].
  rewrite andb_true_iff N.eqb_eq IH. split; [intros (-> & q & ->); by exists q|]. intros (q & [= -> ->]). split; [done|by exists q].
Qed.
Lemma within_iff txt t : within txt t = true <-> exists p q, t = p ++ txt ++ q.
Proof.
  induction t as [|b t IH]; cbn [within]; rewrite orb_true_iff at_start_iff.
  - split; [intros [(q & E)|]; [by exists [], q|done]|]. intros (p & q & E). left. symmetry in E. apply app_eq_nil in E as [_ E]. by exists q.
  - rewrite IH. split.
    + intros [(q & E)|(p & q & ->)]; [by exists [], q|]. by exists (b :: p), q.
    + intros ([|x p] & q & E); [left; by exists q|]. injection E as -> ->. right. by exists p, q.
Qed.
Lemma chunk_actions txt so l : on_chunk txt so l = HActions <-> so = true /\ exists p q, text_of l (p ++ txt ++ q).
Proof.
  rewrite /on_chunk. destruct so; [|split; [done|by intros []]]. destruct (decode_strict l) as [t|] eqn:E.
  - apply strict_iff in E. destruct (within txt t) eqn:W.
    + apply within_iff in W as (p & q & ->). split; [|done]. intros _. split; [done|]. by exists p, q.
    + split; [done|]. intros (_ & p & q & H). assert (t = p ++ txt ++ q) as ->. { apply strict_iff in E, H. congruence. } exfalso.
      assert (within txt (p ++ txt ++ q) = true) by (apply within_iff; by exists p, q). congruence.
  - split; [done|]. intros (_ & p & q & H). apply strict_iff in H. congruence.
Qed.
Lemma chunk_raise txt so l : on_chunk txt so l = HRaise <-> so = true /\ ~ exists s, text_of l s.
Proof.
  rewrite /on_chunk. destruct so; [|split; [done|by intros []]]. destruct (decode_strict l) as [t|] eqn:E.
  - split; [by destruct (within txt t)|]. intros (_ & H). exfalso. apply H. exists t. by apply strict_iff.
  - split; [|done]. intros _. split; [done|]. intros (s & H). apply strict_iff in H. congruence.
Qed.
Lemma chunk_split a b : a <> [] -> b <> [] -> Forall scalar a -> Forall scalar b ->
  on_chunk (a ++ b) true (encode (a ++ b)) = HActions /\ on_chunk (a ++ b) true (encode a) = HNothing /\ on_chunk (a ++ b) true (encode b) = HNothing.
Proof.
  intros Ha Hb Sa Sb.
  assert (forall t, Forall scalar t -> (length t < length (a ++ b))%nat -> on_chunk (a ++ b) true (encode t) = HNothing) as Hno.
  { intros t St Ht. rewrite /on_chunk. rewrite (proj2 (strict_iff (encode t) t)); [done|]. destruct (within (a ++ b) t) eqn:W; [|done].
    apply within_iff in W as (p & q & ->). rewrite !app_length in Ht. lia. }
  split; [|split].
  - apply chunk_actions. split; [done|]. exists [], []. rewrite app_nil_r /=. split; [apply List.Forall_app; by split|done].
  - apply Hno; [done|]. rewrite app_length. destruct b; [done|]. simpl. lia.
  - apply Hno; [done|]. rewrite app_length. destruct a; [done|]. simpl. lia.
Qed.

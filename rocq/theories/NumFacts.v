(** Lemmas about reading numbers. *)
From Coq Require Import ssreflect Qpower.
From Verif Require Import StrFacts SpecNum.
#[local] Arguments String.append : simpl nomatch.
#[local] Open Scope Z_scope.

Lemma digit_val_iff c d : digit_val c = Some d <-> digit c d.
Proof.
  unfold digit_val, digit. split.
  - destruct (Nat.leb_spec 48 (nat_of_ascii c)); [|done]. destruct (Nat.leb_spec (nat_of_ascii c) 57); [|done]. intros [= <-].
    exists (nat_of_ascii c - 48)%nat. split; [lia|]. split; [|done]. replace (48 + (nat_of_ascii c - 48))%nat with (nat_of_ascii c) by lia. by rewrite ascii_nat_embedding.
  - intros (n & Hn & -> & ->). rewrite nat_ascii_embedding; [lia|]. destruct (Nat.leb_spec 48 (48 + n)); [|lia]. destruct (Nat.leb_spec (48 + n) 57); [|lia].
    cbn [andb]. do 2 f_equal. lia.
Qed.

(** ** Digits *)
(** [s] does not continue a sequence of digits. *)
Definition stops (s : string) : Prop :=
  match s with
  | "" => True
  | String c s' => digit_val c = None /\ (c = "_"%char -> match s' with "" => True | String c' _ => digit_val c' = None end)
  end.
Inductive run : Z -> nat -> string -> Z -> nat -> string -> Prop :=
| run_stop acc cnt s : stops s -> run acc cnt s acc cnt s
| run_digit acc cnt c d s v n r : digit_val c = Some d -> run (acc * 10 + d) (S cnt) s v n r -> run acc cnt (String c s) v n r
| run_under acc cnt c d s v n r : digit_val c = Some d -> run (acc * 10 + d) (S cnt) s v n r -> run acc cnt (String "_" (String c s)) v n r.
Lemma str_strong (P : string -> Prop) : (forall s, (forall t, (String.length t < String.length s)%nat -> P t) -> P s) -> forall s, P s.
Proof.
  intros H s. assert (forall n t, (String.length t < n)%nat -> P t) as G; [|apply (G (S (String.length s))); lia].
  induction n as [|n IH]; intros t Ht; [lia|]. apply H. intros u Hu. apply IH. lia.
Qed.
Lemma digits_more_run s : forall acc cnt v n r, digits_more acc cnt s = (v, n, r) -> run acc cnt s v n r.
Proof.
  induction s as [s IH] using str_strong. intros acc cnt v n r. destruct s as [|c s]; cbn [digits_more]; [intros [= <- <- <-]; by constructor|].
  destruct (digit_val c) as [d|] eqn:Ed.
  - intros H. eapply run_digit; [exact Ed|]. apply IH; [simpl; lia|done].
  - destruct (Ascii.eqb_spec c "_") as [->|Hc].
    + destruct s as [|c' s]; [intros [= <- <- <-]; by constructor|]. destruct (digit_val c') as [d|] eqn:Ed'.
      * intros H. eapply run_under; [exact Ed'|]. apply IH; [simpl; lia|done].
      * intros [= <- <- <-]. by constructor.
    + intros [= <- <- <-]. by constructor.
Qed.
Lemma run_eq acc cnt s v n r : run acc cnt s v n r -> digits_more acc cnt s = (v, n, r).
Proof.
  induction 1 as [acc cnt s H|acc cnt c d s v n r Hd _ IH|acc cnt c d s v n r Hd _ IH].
  - destruct s as [|c s]; [done|]. destruct H as [H1 H2]. cbn [digits_more]. rewrite H1. destruct (Ascii.eqb_spec c "_") as [->|]; [|done].
    specialize (H2 eq_refl). destruct s as [|c' s]; [done|]. by rewrite H2.
  - cbn [digits_more]. by rewrite Hd.
  - cbn [digits_more]. cbn -[digits_more]. by rewrite Hd.
Qed.
Lemma run_digits acc cnt s v n r : run acc cnt s v n r -> stops r /\ exists x, s = (x ++ r)%string /\ forall pre, digits pre acc cnt -> digits (pre ++ x) v n.
Proof.
  induction 1 as [acc cnt s H|acc cnt c d s v n r Hd _ [Hs (x & -> & IH)]|acc cnt c d s v n r Hd _ [Hs (x & -> & IH)]].
  - split; [done|]. exists "". split; [done|]. intros pre. by rewrite str_app_nil.
  - split; [done|]. exists (String c x). split; [done|]. intros pre Hp.
    replace (pre ++ String c x)%string with ((pre ++ String c "") ++ x)%string by (by rewrite str_app_assoc). apply IH.
    replace (acc * 10 + d) with (10 * acc + d) by lia. apply dg_more; [done|by apply digit_val_iff].
  - split; [done|]. exists (String "_" (String c x)). split; [done|]. intros pre Hp.
    replace (pre ++ String "_" (String c x))%string with ((pre ++ String "_" (String c "")) ++ x)%string by (by rewrite str_app_assoc). apply IH.
    replace (acc * 10 + d) with (10 * acc + d) by lia. apply dg_under; [done|by apply digit_val_iff].
Qed.
Lemma run_shift t acc cnt s v n r : run acc cnt s v n r -> run (acc + t * 10 ^ Z.of_nat cnt) cnt s (v + t * 10 ^ Z.of_nat n) n r.
Proof.
  induction 1 as [acc cnt s H|acc cnt c d s v n r Hd _ IH|acc cnt c d s v n r Hd _ IH]; [by constructor|eapply run_digit|eapply run_under]; try exact Hd;
    (replace ((acc + t * 10 ^ Z.of_nat cnt) * 10 + d) with (acc * 10 + d + t * 10 ^ Z.of_nat (S cnt)); [exact IH|]);
    rewrite Nat2Z.inj_succ Z.pow_succ_r; lia.
Qed.
Lemma digits_head body v n : digits body v n -> exists c d s, body = String c s /\ digit_val c = Some d /\ forall r, digits_more d 1 (s ++ r) = digits_more v n r.
Proof.
  induction 1 as [c d Hd|s v n c d _ IH Hd|s v n c d _ IH Hd].
  - exists c, d, "". split; [done|]. split; [by apply digit_val_iff|done].
  - destruct IH as (c0 & d0 & s0 & -> & H0 & IH). exists c0, d0, (s0 ++ String c "")%string. split; [done|]. split; [done|]. intros r.
    rewrite str_app_assoc IH. cbn [append digits_more]. apply digit_val_iff in Hd. rewrite Hd. by replace (v * 10 + d) with (10 * v + d) by lia.
  - destruct IH as (c0 & d0 & s0 & -> & H0 & IH). exists c0, d0, (s0 ++ String "_" (String c ""))%string. split; [done|]. split; [done|]. intros r.
    rewrite str_app_assoc IH. cbn [append digits_more]. apply digit_val_iff in Hd. cbn -[digits_more]. rewrite Hd. by replace (v * 10 + d) with (10 * v + d) by lia.
Qed.
Lemma digitpart_sound s v n r : digitpart s = Some (v, n, r) -> stops r /\ exists x, s = (x ++ r)%string /\ digits x v n.
Proof.
  destruct s as [|c s]; [done|]. cbn [digitpart]. destruct (digit_val c) as [d|] eqn:E; [|done]. intros [= H].
  apply digits_more_run, run_digits in H as [Hs (x & -> & Hx)]. split; [done|]. exists (String c x). split; [done|].
  apply (Hx (String c "")). constructor. by apply digit_val_iff.
Qed.
Lemma digitpart_complete x v n r : digits x v n -> stops r -> digitpart (x ++ r) = Some (v, n, r).
Proof.
  intros (c & d & s & -> & Hd & H)%digits_head Hs. cbn [append digitpart]. rewrite Hd H. f_equal. apply run_eq. by constructor.
Qed.
Lemma digitpart_full x v n : digits x v n -> digitpart x = Some (v, n, "").
Proof. intros H. rewrite -{1}(str_app_nil x). by apply digitpart_complete. Qed.

(** ** Signs and white space *)
Definition signable (s : string) : Prop := match s with "" => True | String c _ => c <> "-"%char /\ c <> "+"%char end.
Lemma sign_spec s neg r : sign s = (neg, r) -> exists sg, s = (sg ++ r)%string /\ signed sg neg /\ (sg = "" -> signable r).
Proof.
  destruct s as [|c s]; cbn [sign]; [intros [= <- <-]; exists ""; repeat constructor|].
  destruct (Ascii.eqb_spec c "-") as [->|H1]; [intros [= <- <-]; exists "-"; repeat constructor; done|].
  destruct (Ascii.eqb_spec c "+") as [->|H2]; [intros [= <- <-]; exists "+"; repeat constructor; done|].
  intros [= <- <-]. exists "". repeat constructor; done.
Qed.
Lemma sign_complete sg neg r : signed sg neg -> signable r -> sign (sg ++ r) = (neg, r).
Proof.
  destruct 1; [|done|done]. destruct r as [|c r]; [done|]. intros [H1 H2]. cbn [append sign].
  destruct (Ascii.eqb_spec c "-"); [done|]. by destruct (Ascii.eqb_spec c "+").
Qed.
Lemma lstrip_split s : exists a, s = (a ++ lstrip s)%string /\ blank a.
Proof.
  induction s as [|c s (a & E & Ha)]; [by exists ""|]. cbn [lstrip]. destruct (is_space c) eqn:Ec; [|by exists ""].
  exists (String c a). split; [by rewrite {1}E|done].
Qed.
Lemma rstrip_split s : exists b, s = (rstrip s ++ b)%string /\ blank b.
Proof.
  induction s as [|c s (b & E & Hb)]; [by exists ""|]. cbn [rstrip]. destruct (rstrip s) as [|x r] eqn:Er.
  - simpl in E. destruct (is_space c) eqn:Ec; [exists (String c s); simpl; by subst|]. exists s. split; [done|by subst].
  - exists b. split; [by rewrite {1}E|done].
Qed.
Lemma strip_split s : exists a b, s = (a ++ strip s ++ b)%string /\ blank a /\ blank b.
Proof. destruct (lstrip_split s) as (a & E & Ha). destruct (rstrip_split (lstrip s)) as (b & E2 & Hb). exists a, b. split; [|done]. unfold strip. by rewrite -E2. Qed.
(** Begins and ends with something that is not white space. *)
Definition solid_l (s : string) : Prop := exists c s', s = String c s' /\ is_space c = false.
Definition solid_r (s : string) : Prop := exists c s', s = (s' ++ String c "")%string /\ is_space c = false.
Lemma lstrip_blank a s : blank a -> solid_l s -> lstrip (a ++ s) = s.
Proof.
  intros Ha (c & s' & -> & Hc). induction a as [|x a IH]; cbn [append lstrip]; [by rewrite Hc|]. destruct Ha as [-> Ha]. by apply IH.
Qed.
Lemma rstrip_blank b : blank b -> rstrip b = "".
Proof. induction b as [|c b IH]; [done|]. intros [Hc Hb]. cbn [rstrip]. by rewrite (IH Hb) Hc. Qed.
Lemma rstrip_solid s b : blank b -> solid_r s -> rstrip (s ++ b) = s.
Proof.
  intros Hb (c & s' & -> & Hc). rewrite str_app_assoc. induction s' as [|x s' IH]; cbn [append rstrip]; [by rewrite rstrip_blank // Hc|].
  rewrite IH. by destruct s'.
Qed.
Lemma solid_app a b : solid_r b -> solid_r (a ++ b).
Proof. intros (c & s & -> & Hc). exists c, (a ++ s)%string. by rewrite str_app_assoc. Qed.
Lemma solid_l_app a b : solid_l a -> solid_l (a ++ b).
Proof. intros (c & s & -> & Hc). by exists c, (s ++ b)%string. Qed.
Lemma strip_solid a s b : blank a -> blank b -> solid_l s -> solid_r s -> strip (a ++ s ++ b) = s.
Proof. intros Ha Hb Hl Hr. unfold strip. rewrite lstrip_blank //; [by apply solid_l_app|]. by rewrite rstrip_solid. Qed.
Lemma digit_solid c d : digit_val c = Some d -> is_space c = false.
Proof.
  intros (n & Hn & -> & _)%digit_val_iff. unfold is_space. rewrite nat_ascii_embedding; [lia|].
  destruct (Nat.eqb_spec (48 + n) 32); [lia|]. destruct (Nat.leb_spec (48 + n) 13); [lia|]. destruct (Nat.leb_spec (48 + n) 31); [lia|]. by rewrite !andb_false_r.
Qed.
Lemma digits_solid x v n : digits x v n -> solid_l x /\ solid_r x.
Proof.
  intros H. split.
  - apply digits_head in H as (c & d & s & -> & Hd & _). exists c, s. split; [done|by eapply digit_solid].
  - destruct H as [c d Hd|s v n c d _ Hd|s v n c d _ Hd]; apply digit_val_iff, digit_solid in Hd.
    + by exists c, "".
    + by exists c, s.
    + exists c, (s ++ "_")%string. by rewrite str_app_assoc.
Qed.
Lemma sign_solid sg neg x : signed sg neg -> solid_l x -> solid_l (sg ++ x).
Proof. destruct 1; [done| |]; intros _; [by exists "+"%char, x|by exists "-"%char, x]. Qed.
Lemma digits_signable x v n r : digits x v n -> signable (x ++ r).
Proof.
  intros (c & d & s & -> & Hd & _)%digits_head. cbn [append signable]. split; intros ->; done.
Qed.

(** ** Integers *)
Lemma int_law s z : py_int s = Some z <-> int_literal s z.
Proof.
  unfold py_int, int_literal. split.
  - destruct (strip_split s) as (a & b & E & Ha & Hb). destruct (sign (strip s)) as [neg r] eqn:Es. apply sign_spec in Es as (sg & E2 & Hsg & _).
    destruct (digitpart r) as [[[v n] [|? ?]]|] eqn:Ed; try done. intros [= <-]. apply digitpart_sound in Ed as (_ & x & -> & Hx).
    exists a, sg, neg, x, v, n, b. rewrite str_app_nil in E2. split; [|done]. rewrite {1}E E2. by rewrite str_app_assoc.
  - intros (a & sg & neg & body & v & n & b & -> & Ha & Hb & Hsg & Hd & ->). destruct (digits_solid _ _ _ Hd) as [Hl Hr].
    rewrite -(str_app_assoc sg). rewrite strip_solid //; [by eapply sign_solid|by apply solid_app|].
    rewrite (sign_complete _ neg) //; [rewrite -(str_app_nil body); by eapply digits_signable|]. by rewrite (digitpart_full _ _ _ Hd).
Qed.

(** ** Floats *)
Lemma pow10_eq e : (pow10 e == Qpower 10 e)%Q.
Proof.
  unfold pow10. destruct (Z.ltb_spec e 0) as [H|H].
  - assert (exists p, e = Z.neg p) as [p ->] by (destruct e; try lia; eauto). cbn [Z.opp].
    assert (0 < 10 ^ Z.pos p) as Hp by (apply Z.pow_pos_nonneg; lia).
    unfold Qpower. rewrite -(Qinv_involutive (1 # _)). apply Qinv_comp.
    assert (Qpower_positive 10 p == inject_Z (10 ^ Z.pos p))%Q as ->; [symmetry; exact (Zpower_Qpower 10 (Z.pos p) ltac:(lia))|].
    assert (10 ^ Z.pos p = Z.pos (Z.to_pos (10 ^ Z.pos p))) as Ep by (by rewrite Z2Pos.id). rewrite {2}Ep.
    reflexivity.
  - rewrite Zpower_Qpower; [lia|]. reflexivity.
Qed.
Lemma exponent_sound s e : exponent s = Some e -> power s e.
Proof.
  destruct s as [|c s]; cbn [exponent]; [intros [= <-]; constructor|].
  destruct (Ascii.eqb c "e" || Ascii.eqb c "E") eqn:Ec; [|done]. destruct (sign s) as [neg r] eqn:Es. apply sign_spec in Es as (sg & -> & Hsg & _).
  destruct (digitpart r) as [[[v n] [|? ?]]|] eqn:Ed; try done. intros [= <-]. apply digitpart_sound in Ed as (_ & x & -> & Hx). rewrite str_app_nil.
  eapply pw_some; [|done|exact Hx]. apply orb_true_iff in Ec as [->%Ascii.eqb_eq| ->%Ascii.eqb_eq]; auto.
Qed.
Lemma exponent_complete s e : power s e -> exponent s = Some e.
Proof.
  destruct 1 as [|c sg neg s v n Hc Hsg Hd]; [done|]. cbn [exponent].
  assert (Ascii.eqb c "e" || Ascii.eqb c "E" = true) as -> by (destruct Hc as [->| ->]; done).
  rewrite (sign_complete _ neg) //; [rewrite -(str_app_nil s); by eapply digits_signable|]. by rewrite (digitpart_full _ _ _ Hd).
Qed.
Lemma power_stops p e : power p e -> stops p.
Proof. destruct 1 as [|c ? ? ? ? ? [->| ->]]; done. Qed.
Lemma power_solid p e : power p e -> p = "" \/ solid_r p.
Proof.
  destruct 1 as [|c sg neg s v n _ _ Hd]; [by left|right]. destruct (digits_solid _ _ _ Hd) as [_ Hr].
  replace (String c (sg ++ s)) with ((String c sg) ++ s)%string by done. by apply solid_app.
Qed.
Lemma mantissa_solid m v n : mantissa m v n -> solid_l m /\ solid_r m.
Proof.
  destruct 1 as [s v n H|s v n H|s v n s' v' n' H H'|s v n H]; try apply digits_solid in H as [Hl Hr]; try apply digits_solid in H' as [Hl' Hr'].
  - done.
  - split; [by apply solid_l_app|]. by exists "."%char, s.
  - split; [by apply solid_l_app|]. by apply solid_app, solid_app.
  - split; [by exists "."%char, s|by apply (solid_app ".")].
Qed.
(** The first character of a number. *)
Definition first_ok (s : string) : Prop := match s with "" => False | String c _ => c = "."%char \/ exists d, digit_val c = Some d end.
Lemma mantissa_first m v n r : mantissa m v n -> first_ok (m ++ r).
Proof.
  destruct 1 as [s v n H|s v n H|s v n s' v' n' H H'|s v n H]; try apply digits_head in H as (c & d & t & -> & Hd & _); cbn; eauto.
Qed.
Lemma first_facts s : first_ok s -> signable s /\ lower s <> "inf" /\ lower s <> "infinity" /\ lower s <> "nan".
Proof.
  destruct s as [|c s]; [done|]. cbn [first_ok signable lower]. intros H.
  assert (c <> "-"%char /\ c <> "+"%char /\ lower_ascii c <> "i"%char /\ lower_ascii c <> "n"%char) as (? & ? & ? & ?).
  { destruct H as [->|(d & (n & Hn & -> & _)%digit_val_iff)]; [done|]. do 10 (destruct n as [|n]; [done|]). lia. }
  split; [done|]. split; [|split]; intros [= E _]; done.
Qed.
Definition number (neg : bool) (s : string) : option pyfloat :=
    match digitpart s with
    | Some (v, _, rest) =>
        match rest with
        | String c rest' =>
            if Ascii.eqb c "." then
              match digitpart rest' with
              | Some _ =>
                  let '(v', n', rest'') := digits_more v 0 rest' in
                  e ← exponent rest''; Some (mk_fin neg v' n' e)
              | None => e ← exponent rest'; Some (mk_fin neg v 0 e)
              end
            else e ← exponent rest; Some (mk_fin neg v 0 e)
        | EmptyString => Some (mk_fin neg v 0 0)
        end
    | None =>
        match s with
        | String c rest' =>
            if Ascii.eqb c "." then
              match digitpart rest' with
              | Some (v, n, rest'') => e ← exponent rest''; Some (mk_fin neg v n e)
              | None => None
              end
            else None
        | EmptyString => None
        end
    end.
Lemma fraction c d s v v0 n0 r : digit_val c = Some d -> digits_more d 1 s = (v0, n0, r) -> digits_more v 0 (String c s) = (v * 10 ^ Z.of_nat n0 + v0, n0, r).
Proof.
  intros Hd H. cbn [digits_more]. rewrite Hd. apply digits_more_run, (run_shift v) in H. apply run_eq in H.
  replace (v * 10 + d) with (d + v * 10 ^ Z.of_nat 1) by lia. rewrite H. f_equal. f_equal. lia.
Qed.
Lemma number_sound neg s f : number neg s = Some f -> exists m p v n e, s = (m ++ p)%string /\ mantissa m v n /\ power p e /\ f = mk_fin neg v n e.
Proof.
  unfold number. destruct (digitpart s) as [[[v n] rest]|] eqn:Ed.
  - apply digitpart_sound in Ed as (Hst & x & -> & Hx). destruct rest as [|c rest].
    { intros [= <-]. exists x, "", v, 0%nat, 0. split; [done|]. split; [by eapply mt_int|]. split; [constructor|done]. }
    destruct (Ascii.eqb_spec c ".") as [->|Hc].
    + destruct (digitpart rest) as [[[v0 n0] r]|] eqn:Ed2.
      * destruct rest as [|c rest]; [done|]. pose proof Ed2 as Ed2'. apply digitpart_sound in Ed2 as (_ & y & E & Hy). cbn [digitpart] in Ed2'. destruct (digit_val c) as [d|] eqn:Edc; [|done].
        injection Ed2' as Ed2'. rewrite (fraction _ _ _ v _ _ _ Edc Ed2'). destruct (exponent r) as [e|] eqn:Ee; [|done]. cbn. intros [= <-].
        exists (x ++ "." ++ y)%string, r, (v * 10 ^ Z.of_nat n0 + v0), n0, e. split; [by rewrite !str_app_assoc E|]. split; [by eapply mt_both|]. split; [by apply exponent_sound|done].
      * destruct (exponent rest) as [e|] eqn:Ee; [|done]. cbn. intros [= <-]. exists (x ++ ".")%string, rest, v, 0%nat, e. split; [by rewrite str_app_assoc|].
        split; [by eapply mt_point|]. split; [by apply exponent_sound|done].
    + destruct (exponent (String c rest)) as [e|] eqn:Ee; [|done]. cbn. intros [= <-]. exists x, (String c rest), v, 0%nat, e. split; [done|].
      split; [by eapply mt_int|]. split; [by apply exponent_sound|done].
  - destruct s as [|c rest]; [done|]. destruct (Ascii.eqb_spec c ".") as [->|Hc]; [|done]. destruct (digitpart rest) as [[[v n] r]|] eqn:Ed2; [|done].
    apply digitpart_sound in Ed2 as (_ & y & -> & Hy). destruct (exponent r) as [e|] eqn:Ee; [|done]. cbn. intros [= <-].
    exists ("." ++ y)%string, r, v, n, e. split; [done|]. split; [by eapply mt_frac|]. split; [by apply exponent_sound|done].
Qed.
Lemma number_complete neg m p v n e : mantissa m v n -> power p e -> number neg (m ++ p) = Some (mk_fin neg v n e).
Proof.
  intros Hm Hp. pose proof (exponent_complete _ _ Hp) as He. pose proof (power_stops _ _ Hp) as Hs. unfold number.
  destruct Hm as [s v n H|s v n H|s v n s' v' n' H H'|s v n H].
  - rewrite (digitpart_complete _ _ _ _ H Hs). destruct p as [|c p]; [inversion Hp; by subst|].
    destruct (Ascii.eqb_spec c ".") as [->|Hc]; [exfalso; inversion Hp as [|? ? ? ? ? ? [?|?]]; done|]. by rewrite He.
  - rewrite str_app_assoc. rewrite (digitpart_complete _ _ _ _ H); [done|]. cbn [append]. cbn -[digitpart digits_more exponent mk_fin].
    assert (digitpart p = None) as -> by (inversion Hp as [|? ? ? ? ? ? [->| ->]]; done). by rewrite He.
  - rewrite !str_app_assoc. rewrite (digitpart_complete _ _ _ _ H); [done|]. cbn -[digitpart digits_more exponent mk_fin Z.pow Z.of_nat].
    rewrite (digitpart_complete _ _ _ _ H' Hs). apply digits_head in H' as (c & d & t & -> & Hd & H').
    specialize (H' p). rewrite (run_eq _ _ _ _ _ _ (run_stop _ _ _ Hs)) in H'. cbn [append]. rewrite (fraction _ _ _ v _ _ _ Hd H') He. done.
  - rewrite str_app_assoc. cbn -[digits_more exponent mk_fin]. rewrite (digitpart_complete _ _ _ _ H Hs). by rewrite He.
Qed.
Lemma py_float_eq s0 : py_float s0 = let '(neg, s) := sign (strip s0) in
  if String.eqb (lower s) "inf" || String.eqb (lower s) "infinity" then Some (FInf neg) else if String.eqb (lower s) "nan" then Some FNan else number neg s.
Proof. reflexivity. Qed.
Lemma space_lower c : is_space c = true -> lower_ascii c = c.
Proof.
  unfold is_space, lower_ascii. destruct (Nat.leb_spec 65 (nat_of_ascii c)); [|done]. intros Hs. exfalso. revert Hs.
  destruct (Nat.eqb_spec (nat_of_ascii c) 32); [lia|]. destruct (Nat.leb_spec (nat_of_ascii c) 13); [lia|]. destruct (Nat.leb_spec (nat_of_ascii c) 31); [lia|]. by rewrite !andb_false_r.
Qed.
Lemma lower_app a b : lower (a ++ b) = (lower a ++ lower b)%string.
Proof. induction a as [|c a IH]; [done|]. cbn [append lower]. by rewrite IH. Qed.
Lemma lower_nonspace c : is_space (lower_ascii c) = false -> is_space c = false.
Proof. intros H. destruct (is_space c) eqn:E; [|done]. by rewrite space_lower // E in H. Qed.
Lemma snoc_inv s : s = "" \/ exists c s', s = (s' ++ String c "")%string.
Proof. induction s as [|c s [->|(d & s' & ->)]]; [by left|right; by exists c, ""|right; by exists d, (String c s')]. Qed.
Lemma lower_solid body : solid_l (lower body) -> solid_r (lower body) -> solid_l body /\ solid_r body.
Proof.
  intros (c & s & E & Hc) (c' & s' & E' & Hc'). split.
  - destruct body as [|b body]; [done|]. injection E as <- <-. exists b, body. split; [done|by apply lower_nonspace].
  - destruct (snoc_inv body) as [->|(d & t & ->)]; [by destruct s'|]. exists d, t. split; [done|]. rewrite lower_app in E'. cbn [lower] in E'.
    apply str_app_split_r in E' as [_ [= E']]; [|done]. apply lower_nonspace. by rewrite E'.
Qed.
Lemma lower_signable body : lower body = "inf" \/ lower body = "infinity" \/ lower body = "nan" -> signable body /\ solid_l body /\ solid_r body.
Proof.
  intros H. split.
  - destruct body as [|c body]; [done|]. cbn [signable]. split; intros ->; by destruct H as [H|[H|H]].
  - apply lower_solid; destruct H as [->|[->| ->]]; try (by eexists _, _); [by exists "f"%char, "in"|by exists "y"%char, "infinit"|by exists "n"%char, "na"].
Qed.
Lemma mk_fin_same neg v n e : exists q, mk_fin neg v n e = FFin q /\ (q == inject_Z (if neg then - v else v)%Z * Qpower 10 (e - Z.of_nat n))%Q.
Proof. eexists. split; [reflexivity|]. by rewrite pow10_eq. Qed.
Lemma float_sound s f : py_float s = Some f -> float_literal s f.
Proof.
  rewrite py_float_eq. destruct (strip_split s) as (a & b & E & Ha & Hb). destruct (sign (strip s)) as [neg r] eqn:Es. apply sign_spec in Es as (sg & E2 & Hsg & _).
  intros H. exists a, sg, neg, r, b. split; [rewrite {1}E E2; by rewrite str_app_assoc|]. do 3 (split; [done|]). revert H.
  destruct (String.eqb_spec (lower r) "inf"); [intros [= <-]; by left; auto|]. destruct (String.eqb_spec (lower r) "infinity"); [intros [= <-]; by left; auto|].
  cbn [orb]. destruct (String.eqb_spec (lower r) "nan"); [intros [= <-]; right; by left|]. intros (m & p & v & k & e & -> & Hm & Hp & ->)%number_sound.
  right. right. destruct (mk_fin_same neg v k e) as (q & -> & Hq). by exists m, p, v, k, e, q.
Qed.
Lemma float_complete s f : float_literal s f -> exists f', py_float s = Some f' /\ same_float f f'.
Proof.
  intros (a & sg & neg & body & b & -> & Ha & Hb & Hsg & H). rewrite py_float_eq.
  assert (signable body /\ solid_l body /\ solid_r body) as (H1 & H2 & H3).
  { destruct H as [[[?|?] _]|[[? _]|(m & p & v & n & e & q & -> & Hm & Hp & _)]]; try (apply lower_signable; by auto).
    destruct (mantissa_solid _ _ _ Hm) as [Hl Hr]. split; [by apply first_facts; eapply mantissa_first|]. split; [by apply solid_l_app|].
    destruct (power_solid _ _ Hp) as [->|?]; [by rewrite str_app_nil|by apply solid_app]. }
  rewrite -(str_app_assoc sg). rewrite strip_solid //; [by eapply sign_solid|by apply solid_app|]. rewrite (sign_complete _ neg) //.
  destruct H as [[H ->]|[[H ->]|(m & p & v & n & e & q & -> & Hm & Hp & -> & Hq)]].
  - exists (FInf neg). split; [|done]. by destruct H as [-> | ->].
  - exists FNan. split; [|done]. by rewrite H.
  - destruct (first_facts (m ++ p)) as (_ & N1 & N2 & N3); [by eapply mantissa_first|].
    destruct (String.eqb_spec (lower (m ++ p)) "inf"); [done|]. destruct (String.eqb_spec (lower (m ++ p)) "infinity"); [done|]. destruct (String.eqb_spec (lower (m ++ p)) "nan"); [done|].
    cbn [orb]. rewrite (number_complete _ _ _ _ _ _ Hm Hp). eexists. split; [reflexivity|]. destruct (mk_fin_same neg v n e) as (q' & -> & Hq'). cbn. by rewrite Hq Hq'.
Qed.
Lemma float_law s :
  (forall f, py_float s = Some f -> float_literal s f) /\
  (forall f, float_literal s f -> exists f', py_float s = Some f' /\ same_float f f').
Proof. split; [apply float_sound|apply float_complete]. Qed.

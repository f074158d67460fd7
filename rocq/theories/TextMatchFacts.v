(** Lemmas about matching output. *)
From Coq Require Import ssreflect.
From Verif Require Import StrFacts SpecTesting TestingFacts SpecTextMatch.
#[local] Arguments String.append : simpl nomatch.

(** ** Induction on expectations *)
Fixpoint expect_ind' (P : expect -> Prop) (ht : forall s, P (XText s)) (hp : forall r, P (XPattern r))
    (hs : forall l, Forall P l -> P (XSeq l)) (ho : P XOther) (e : expect) : P e :=
  match e with
  | XText s => ht s
  | XPattern r => hp r
  | XSeq l => hs l ((fix go l : Forall P l := match l with [] => Forall_nil_2 P | x :: l' => Forall_cons_2 P x l' (expect_ind' P ht hp hs ho x) (go l') end) l)
  | XOther => ho
  end.

(** ** Line ends *)
Lemma str_ind2 (P : string -> Prop) : P "" -> (forall a, P (String a "")) -> (forall a b s, P s -> P (String b s) -> P (String a (String b s))) -> forall s, P s.
Proof.
  intros h0 h1 h2 s. assert (P s /\ forall a, P (String a s)) as [? _]; [|done].
  induction s as [|b s [I1 I2]]; [done|]. split; [apply I2|]. intros a. by apply h2.
Qed.
Lemma norm_pair t : normalize (String cr (String nl t)) = String nl (normalize t).
Proof. done. Qed.
Lemma norm_char c t : (c = cr -> forall t', t <> String nl t') -> normalize (String c t) = String c (normalize t).
Proof.
  intros H. destruct t as [|b t]; [done|]. cbn [normalize].
  destruct (Ascii.eqb_spec c cr) as [->|]; [|done]. destruct (Ascii.eqb_spec b nl) as [->|]; [|done]. by destruct (H eq_refl t).
Qed.
Lemma norm_case c t : (c = cr /\ exists t', t = String nl t') \/ (c = cr -> forall t', t <> String nl t').
Proof.
  destruct (Ascii.eqb_spec c cr) as [->|]; [|by right]. destruct t as [|b t]; [by right|].
  destruct (Ascii.eqb_spec b nl) as [->|Hb]; [left; eauto|]. right. intros _ t' [= ? ?]. congruence.
Qed.
Lemma unix_ends_norm t : unix_ends t (normalize t).
Proof.
  induction t as [|a|a b t I1 I2] using str_ind2; [constructor|..].
  - apply ue_char; [done|constructor].
  - destruct (norm_case a (String b t)) as [[-> (t' & [= -> ->])]|H].
    + rewrite norm_pair. by constructor.
    + rewrite norm_char //. by apply ue_char.
Qed.
Lemma unix_ends_iff t u : unix_ends t u <-> u = normalize t.
Proof.
  split; [|intros ->; apply unix_ends_norm].
  induction 1 as [|t u _ ->|c t u H _ ->]; [done| |]; [by rewrite norm_pair|by rewrite norm_char].
Qed.
Definition no_pair (t : string) : Prop := ~ exists a b, t = (a ++ String cr (String nl "") ++ b)%string.
Lemma no_pair_tail c t : no_pair (String c t) -> no_pair t.
Proof. intros H (a & b & ->). apply H. by exists (String c a), b. Qed.
Lemma norm_no_pair t : no_pair t -> normalize t = t.
Proof.
  induction t as [|c t IH]; [done|]. intros H. rewrite norm_char.
  - intros -> t' ->. apply H. by exists "", t'.
  - by rewrite (IH (no_pair_tail _ _ H)).
Qed.
Lemma plain_tail c t : plain_ends (String c t) -> plain_ends t.
Proof. intros H (a & b & ->). apply H. by exists (String c a), b. Qed.
Lemma norm_head_nl t u : normalize t = String nl u -> t = String cr (String nl (drop_str 2 t)) \/ exists t', t = String nl t'.
Proof.
  destruct t as [|c t]; [done|]. destruct (norm_case c t) as [[-> (t' & ->)]|H]; [by left|].
  rewrite norm_char //. intros [= -> _]. right. eauto.
Qed.
Lemma norm_plain t : plain_ends t -> no_pair (normalize t).
Proof.
  induction t as [|c|c b t I1 I2] using str_ind2; intros H.
  - intros ([|? ?] & b & E); done.
  - intros ([|? [|? ?]] & b & E); done.
  - destruct (norm_case c (String b t)) as [[-> (t' & [= -> ->])]|Hc].
    + rewrite norm_pair. intros (x & y & E). apply I1; [by apply plain_tail, plain_tail in H|].
      destruct x as [|x0 x]; [done|]. injection E as _ E. by exists x, y.
    + rewrite norm_char //. remember (normalize (String b t)) as u eqn:Hu. intros (x & y & E). destruct x as [|x0 x].
      * injection E as -> E. rewrite E in Hu. symmetry in Hu. apply norm_head_nl in Hu as [E'|(t' & E')]; [|by destruct (Hc eq_refl t')].
        apply H. exists "", (drop_str 2 (String b t)). rewrite {1}E'. done.
      * injection E as -> E. apply I2; [by apply plain_tail in H|]. by exists x, y.
Qed.
Lemma norm_idem t : plain_ends t -> normalize (normalize t) = normalize t.
Proof. intros H. by apply norm_no_pair, norm_plain. Qed.

(** ** Building *)
Section build.
Context {M : Type} (build : expect -> res M).
Fixpoint build_all (l : list expect) : res (list M) :=
  match l with
  | [] => Ok []
  | e :: l' => res_bind (build e) (fun m => res_bind (build_all l') (fun ms => Ok (m :: ms)))
  end.
Lemma build_all_ok l ms : build_all l = Ok ms <-> Forall2 (fun e m => build e = Ok m) l ms.
Proof.
  revert ms. induction l as [|e l IH]; intros ms; cbn [build_all].
  - split; [intros [= <-]; constructor|]. by inversion 1.
  - split.
    + destruct (build e) as [m|x|] eqn:E; [|done|done]. cbn [res_bind]. destruct (build_all l) as [ms'| |]; [|done|done]. intros [= <-]. constructor; [done|]. by apply IH.
    + inversion 1 as [|? m ? ms' E H']; subst. rewrite E. cbn [res_bind]. apply IH in H'. by rewrite H'.
Qed.
Definition either {A} (r : res A) : Prop := (exists a, r = Ok a) \/ r = Exn XValue.
Lemma build_all_exn l : Forall (fun e => either (build e)) l -> either (build_all l).
Proof.
  induction 1 as [|e l [[m Hm]|Hm] _ IH]; cbn [build_all]; [left; by exists []| |]; rewrite Hm; cbn [res_bind]; [|by right].
  destruct IH as [[ms Hms]|Hms]; rewrite Hms; cbn [res_bind]; [left; eauto|by right].
Qed.
End build.

Section re.
Context (search rematch : nat -> string -> nat -> option (nat * nat)).
Notation tbuild := (build_text_match search rematch).
Notation lbuild := (build_line_match rematch).

Lemma tbuild_seq strict l : tbuild strict (XSeq l) =
  res_bind (build_all (tbuild false) l) (fun ms => match ms with [] => Exn XValue | m :: ms' => Ok (fun text start => seq_match strict m ms' (normalize text) start) end).
Proof. reflexivity. Qed.
Lemma lbuild_seq strict l : lbuild strict (XSeq l) =
  res_bind (build_all (lbuild false) l) (fun ms => match ms with [] => Exn XValue | m :: ms' => Ok (seq_match strict m ms') end).
Proof. reflexivity. Qed.
Lemma tbuild_seq_ok strict l f : tbuild strict (XSeq l) = Ok f -> exists e l' m ms, l = e :: l' /\ tbuild false e = Ok m /\
  Forall2 (fun e m => tbuild false e = Ok m) l' ms /\ f = (fun text start => seq_match strict m ms (normalize text) start).
Proof.
  rewrite tbuild_seq. destruct (build_all (tbuild false) l) as [ms| |] eqn:E; [|done|done]. cbn [res_bind]. apply build_all_ok in E.
  inversion E; subst; [done|]. intros [= <-]. eauto 10.
Qed.
Lemma lbuild_seq_ok strict l f : lbuild strict (XSeq l) = Ok f -> exists e l' m ms, l = e :: l' /\ lbuild false e = Ok m /\
  Forall2 (fun e m => lbuild false e = Ok m) l' ms /\ f = seq_match strict m ms.
Proof.
  rewrite lbuild_seq. destruct (build_all (lbuild false) l) as [ms| |] eqn:E; [|done|done]. cbn [res_bind]. apply build_all_ok in E.
  inversion E; subst; [done|]. intros [= <-]. eauto 10.
Qed.

(** A constructor succeeds exactly on buildable expectations, and raises ValueError on others. *)
Lemma forall2_ok {M} (b : expect -> res M) l :
  Forall (fun e => (buildable e -> exists m, b e = Ok m)) l -> Forall buildable l -> exists ms, Forall2 (fun e m => b e = Ok m) l ms.
Proof.
  induction 1 as [|e l He _ IH]; intros Hb; [exists []; constructor|]. inversion Hb as [|? ? B1 B2]; subst.
  destruct (He B1) as (m & Hm). destruct (IH B2) as (ms & Hms). exists (m :: ms). by constructor.
Qed.
Lemma forall2_buildable {M} (b : expect -> res M) l ms :
  Forall (fun e => forall m, b e = Ok m -> buildable e) l -> Forall2 (fun e m => b e = Ok m) l ms -> Forall buildable l.
Proof. intros H. revert ms. induction H as [|e l He _ IH]; intros ms; inversion 1; subst; constructor; eauto. Qed.
Lemma tbuild_ok strict e : buildable e -> exists m, tbuild strict e = Ok m.
Proof.
  revert strict. induction e as [s|r|l IH|] using expect_ind'; intros strict B; try (by eexists); [|inversion B].
  inversion B as [| |e l' Be Bl]; subst. destruct (forall2_ok (tbuild false) (e :: l')) as (ms & Hms).
  { eapply Forall_impl; [exact IH|]. intros x Hx Bx. by apply Hx. } { by constructor. }
  rewrite tbuild_seq. apply build_all_ok in Hms as E. rewrite E. cbn [res_bind]. inversion Hms; subst. eauto.
Qed.
Lemma tbuild_inv strict e m : tbuild strict e = Ok m -> buildable e.
Proof.
  revert strict m. induction e as [s|r|l IH|] using expect_ind'; intros strict m; [constructor|constructor| |done].
  intros (e & l' & m1 & ms & -> & H1 & H2 & _)%tbuild_seq_ok. inversion IH as [|? ? I1 I2]; subst. constructor; [by eapply I1|].
  eapply (forall2_buildable (tbuild false)); [|exact H2]. eapply Forall_impl; [exact I2|]. intros x Hx m' Hm. by eapply Hx.
Qed.
Lemma tbuild_exn strict e : either (tbuild strict e).
Proof.
  revert strict. induction e as [s|r|l IH|] using expect_ind'; intros strict; [left; by eexists|left; by eexists| |by right].
  rewrite tbuild_seq. destruct (build_all_exn (tbuild false) l) as [[ms ->]| ->]; cbn [res_bind]; [| |by right].
  - eapply Forall_impl; [exact IH|]. intros e He. apply He.
  - destruct ms; [by right|left; eauto].
Qed.
Lemma lbuild_ok strict e : buildable e -> exists m, lbuild strict e = Ok m.
Proof.
  revert strict. induction e as [s|r|l IH|] using expect_ind'; intros strict B; try (by eexists); [|inversion B].
  inversion B as [| |e l' Be Bl]; subst. destruct (forall2_ok (lbuild false) (e :: l')) as (ms & Hms).
  { eapply Forall_impl; [exact IH|]. intros x Hx Bx. by apply Hx. } { by constructor. }
  rewrite lbuild_seq. apply build_all_ok in Hms as E. rewrite E. cbn [res_bind]. inversion Hms; subst. eauto.
Qed.
Lemma lbuild_inv strict e m : lbuild strict e = Ok m -> buildable e.
Proof.
  revert strict m. induction e as [s|r|l IH|] using expect_ind'; intros strict m; [constructor|constructor| |done].
  intros (e & l' & m1 & ms & -> & H1 & H2 & _)%lbuild_seq_ok. inversion IH as [|? ? I1 I2]; subst. constructor; [by eapply I1|].
  eapply (forall2_buildable (lbuild false)); [|exact H2]. eapply Forall_impl; [exact I2|]. intros x Hx m' Hm. by eapply Hx.
Qed.
Lemma lbuild_exn strict e : either (lbuild strict e).
Proof.
  revert strict. induction e as [s|r|l IH|] using expect_ind'; intros strict; [left; by eexists|left; by eexists| |by right].
  rewrite lbuild_seq. destruct (build_all_exn (lbuild false) l) as [[ms ->]| ->]; cbn [res_bind]; [| |by right].
  - eapply Forall_impl; [exact IH|]. intros e He. apply He.
  - destruct ms; [by right|left; eauto].
Qed.
Lemma build_law strict e :
  ((exists m, tbuild strict e = Ok m) <-> buildable e) /\ ((exists m, lbuild strict e = Ok m) <-> buildable e) /\
  (~ buildable e -> tbuild strict e = Exn XValue /\ lbuild strict e = Exn XValue).
Proof.
  split; [|split].
  - split; [intros (m & H); by eapply tbuild_inv|apply tbuild_ok].
  - split; [intros (m & H); by eapply lbuild_inv|apply lbuild_ok].
  - intros N. split.
    + destruct (tbuild_exn strict e) as [[m E]|E]; [by apply tbuild_inv in E|done].
    + destruct (lbuild_exn strict e) as [[m E]|E]; [by apply lbuild_inv in E|done].
Qed.

(** ** Sequences *)
(** Matchers that find what [F] says, soundly. *)
Definition sound {A} (n : nat) (x : A) (F : nat -> nat -> Prop) (m : matcher_of A) : Prop :=
  forall p i j, p <= n -> m x p = Some (i, j) -> F i j /\ p <= i /\ i <= j /\ j <= n.
Definition complete {A} (n : nat) (x : A) (F : nat -> nat -> Prop) (m : matcher_of A) : Prop :=
  forall p i j, F i j -> p <= i -> exists i' j', m x p = Some (i', j') /\ p <= i' /\ i' <= i /\ j' <= j.
Lemma tail_sound {A B} n (x : A) (F : B -> nat -> nat -> Prop) strict l ms :
  Forall2 (fun e m => sound n x (F e) m) l ms -> forall p e, p <= n -> tail_match strict ms x p = Some e -> one_by_one F p l e /\ p <= e /\ e <= n.
Proof.
  induction 1 as [|y m l ms Hm _ IH]; intros p e Hp; cbn [tail_match].
  - intros [= <-]. split; [constructor|lia].
  - destruct (m x p) as [[i j]|] eqn:E; [|done]. destruct ((i <? p) || _); [done|]. intros H.
    apply Hm in E as (HF & H1 & H2 & H3); [|done]. apply IH in H as (HO & ? & ?); [|done]. split; [by eapply obo_cons|lia].
Qed.
Lemma seq_sound {A B} n (x : A) (F : B -> nat -> nat -> Prop) strict e l m ms :
  sound n x (F e) m -> Forall2 (fun e m => sound n x (F e) m) l ms -> forall p i j, p <= n -> seq_match strict m ms x p = Some (i, j) ->
  (exists k, F e i k /\ one_by_one F k l j) /\ p <= i /\ i <= j /\ j <= n.
Proof.
  intros Hm Hms p i j Hp. unfold seq_match. destruct (m x p) as [[i' k]|] eqn:E; [|done]. destruct ((i' <? p) || _); [done|].
  destruct (tail_match strict ms x k) as [k'|] eqn:E2; [|done]. intros [= -> ->].
  apply Hm in E as (HF & H1 & H2 & H3); [|done]. apply (tail_sound n x F _ _ _ Hms) in E2 as (HO & ? & ?); [|done]. split; [eauto|lia].
Qed.
Lemma tail_complete {A B} n (x : A) (F : B -> nat -> nat -> Prop) l ms :
  Forall2 (fun e m => complete n x (F e) m) l ms -> forall p p' e, p' <= p -> one_by_one F p l e -> exists e', tail_match false ms x p' = Some e' /\ e' <= e.
Proof.
  induction 1 as [|y m l ms Hm _ IH]; intros p p' e Hp; inversion 1 as [|? ? ? i j ? H1 H2 H3]; subst; cbn [tail_match].
  - eauto.
  - destruct (Hm p' i j H2) as (i' & j' & -> & ? & ? & ?); [lia|]. destruct (Nat.ltb_spec i' p'); [lia|]. cbn [orb andb].
    by apply (IH j).
Qed.
Lemma seq_complete {A B} n (x : A) (F : B -> nat -> nat -> Prop) e l m ms :
  complete n x (F e) m -> Forall2 (fun e m => complete n x (F e) m) l ms -> forall p i k j, F e i k -> one_by_one F k l j -> p <= i ->
  exists i' j', seq_match false m ms x p = Some (i', j') /\ p <= i' /\ i' <= i /\ j' <= j.
Proof.
  intros Hm Hms p i k j HF HO Hp. unfold seq_match. destruct (Hm p i k HF Hp) as (i' & k' & -> & ? & ? & ?).
  destruct (Nat.ltb_spec i' p); [lia|]. cbn [orb andb]. destruct (tail_complete n x F l ms Hms k k' j) as (e' & -> & ?); [done|done|].
  by exists i', e'.
Qed.
Lemma forall2_map {A B} (P : A -> Prop) (Q R : A -> B -> Prop) l ms : Forall P l -> (forall e m, P e -> Q e m -> R e m) -> Forall2 Q l ms -> Forall2 R l ms.
Proof. intros HP H. induction 1; constructor; inversion HP; subst; eauto. Qed.

(** ** Texts *)
Lemma find_from_bound s t p i : find_from s t p = Some i -> i + String.length s <= String.length t.
Proof.
  intros H. generalize (find_from_spec s t p). rewrite H. intros (_ & (a & b & -> & <-) & _). rewrite !str_app_length. lia.
Qed.
(** The text given is normalised again by every member: positions agree if nothing is left to replace. *)
Lemma text_sound t e : searching search -> normalize t = t -> forall m, tbuild false e = Ok m -> sound (String.length t) t (found search t e) m.
Proof.
  intros HS Hn. induction e as [s|r|l IH|] using expect_ind'; intros m; [| | |done].
  - intros [= <-] p i j Hp. unfold text_match. rewrite Hn. destruct (find_from s t p) as [i'|] eqn:E; [|done]. intros [= <- <-].
    apply find_from_bound in E as Hb. generalize (find_from_spec s t p). rewrite E. intros (? & Hocc & _). split; [by constructor|lia].
  - intros [= <-] p i j Hp. unfold pattern_match. rewrite Hn. intros H. destruct (HS _ _ _ _ _ Hp H) as (?&?&?). split; [by eapply found_pattern|done].
  - intros (e & l' & m1 & ms & -> & H1 & H2 & ->)%tbuild_seq_ok p i j Hp. rewrite Hn. inversion IH as [|? ? I1 I2]; subst.
    intros H. eapply (seq_sound (String.length t) t (found search t) false e l') in H as ((k & HF & HO) & ?); [split; [by eapply found_seq|done]|by apply I1| |done].
    eapply forall2_map; [exact I2| |exact H2]. intros x mx Hx. by apply Hx.
Qed.
Lemma text_complete t e : normalize t = t -> literal e -> forall m, tbuild false e = Ok m -> complete (String.length t) t (found search t e) m.
Proof.
  intros Hn. induction e as [s|r|l IH|] using expect_ind'; intros L m; [| by inversion L| |done].
  - intros [= <-] p i j HF Hp. inversion HF as [? ? (a & b & Ht & Hl)| |]; subst i. unfold text_match. rewrite Hn.
    generalize (find_from_spec s t p). destruct (find_from s t p) as [i'|].
    + intros (? & _ & Hmin). specialize (Hmin a b Ht). exists i', (i' + String.length s). split; [done|]. subst. lia.
    + intros Hno. specialize (Hno a b Ht). lia.
  - intros (e & l' & m1 & ms & -> & H1 & H2 & ->)%tbuild_seq_ok p i j HF Hp. rewrite Hn. inversion IH as [|? ? I1 I2]; subst.
    inversion L as [|? Ll]; subst. inversion Ll as [|? ? L1 L2]; subst. inversion HF as [| |? ? ? k ? HF1 HO]; subst.
    eapply (seq_complete (String.length t) t (found search t) e l'); [by apply I1| |exact HF1|exact HO|done].
    assert (Forall (fun x => forall m, tbuild false x = Ok m -> complete (String.length t) t (found search t x) m) l') as I3.
    { clear -I2 L2. induction I2; constructor; inversion L2; subst; eauto. }
    eapply forall2_map; [exact I3| |exact H2]. intros x mx Hx. by apply Hx.
Qed.
(** From the text as it was captured. *)
Lemma outer_norm strict e m t p : plain_ends t -> tbuild strict e = Ok m -> m t p = m (normalize t) p.
Proof.
  intros Hp. destruct e as [s|r|l|]; [| | |done].
  - intros [= <-]. unfold text_match. by rewrite norm_idem.
  - intros [= <-]. unfold pattern_match. by rewrite norm_idem.
  - intros (e & l' & m1 & ms & -> & H1 & H2 & ->)%tbuild_seq_ok. by rewrite norm_idem.
Qed.
Lemma match_sound e m t p i j : searching search -> plain_ends t -> tbuild false e = Ok m -> p <= String.length (normalize t) ->
  m t p = Some (i, j) -> found search (normalize t) e i j /\ p <= i /\ i <= j /\ j <= String.length (normalize t).
Proof.
  intros HS Hpl Hb Hp. rewrite (outer_norm _ _ _ _ _ Hpl Hb). apply (text_sound (normalize t) e HS (norm_idem t Hpl) m Hb p i j Hp).
Qed.
Lemma match_complete e m t p i j : plain_ends t -> literal e -> tbuild false e = Ok m -> found search (normalize t) e i j -> p <= i ->
  exists i' j', m t p = Some (i', j') /\ p <= i' /\ i' <= i /\ j' <= j.
Proof.
  intros Hpl L Hb HF Hp. rewrite (outer_norm _ _ _ _ _ Hpl Hb). by apply (text_complete (normalize t) e (norm_idem t Hpl) L m Hb p i j).
Qed.
End re.

(** A match of texts alone does not depend on what patterns would find. *)
Lemma tbuild_literal_found search rematch e m t p i j : plain_ends t -> literal e -> build_text_match search rematch false e = Ok m -> p <= String.length (normalize t) ->
  m t p = Some (i, j) -> found search (normalize t) e i j /\ p <= i /\ i <= j /\ j <= String.length (normalize t).
Proof.
  intros Hpl L Hb Hp. rewrite (outer_norm _ _ _ _ _ _ _ Hpl Hb).
  pose proof (norm_idem t Hpl) as Hn. revert Hp. generalize dependent (normalize t). clear t Hpl. intros t Hn Hp.
  revert p i j Hp. change (sound (String.length t) t (found search t e) m). revert m Hb.
  induction e as [s|r|l IH|] using expect_ind'; intros m; [|by inversion L| |done].
  - intros [= <-] p i j Hp. unfold text_match. rewrite Hn. destruct (find_from s t p) as [i'|] eqn:E; [|done]. intros [= <- <-].
    apply find_from_bound in E as Hb. generalize (find_from_spec s t p). rewrite E. intros (? & Hocc & _). split; [by constructor|lia].
  - intros (e & l' & m1 & ms & -> & H1 & H2 & ->)%tbuild_seq_ok p i j Hp. rewrite Hn. inversion IH as [|? ? I1 I2]; subst.
    inversion L as [|? Ll]; subst. inversion Ll as [|? ? L1 L2]; subst.
    intros H. eapply (seq_sound (String.length t) t (found search t) false e l') in H as ((k & HF & HO) & ?); [split; [by eapply found_seq|done]|by apply I1| |done].
    assert (Forall (fun x => forall m, build_text_match search rematch false x = Ok m -> sound (String.length t) t (found search t x) m) l') as I3.
    { clear -I2 L2. induction I2; constructor; inversion L2; subst; eauto. }
    eapply forall2_map; [exact I3| |exact H2]. intros x mx Hx. by apply Hx.
Qed.
Lemma literal_iff search rematch e m t : plain_ends t -> literal e -> build_text_match search rematch false e = Ok m ->
  ((exists r, m t 0 = Some r) <-> exists i j, found search (normalize t) e i j).
Proof.
  intros Hpl L Hb. split.
  - intros ([i j] & H). apply (tbuild_literal_found _ _ _ _ _ _ _ _ Hpl L Hb) in H as [H _]; [eauto|lia].
  - intros (i & j & H). destruct (match_complete _ _ _ _ _ 0 _ _ Hpl L Hb H) as (i' & j' & E & _); [lia|eauto].
Qed.

(** ** Strict matches of texts *)
Lemma drop_app a b : drop_str (String.length a) (a ++ b)%string = b.
Proof. induction a; [by destruct b|done]. Qed.
Lemma drop_length n s : n <= String.length s -> String.length (drop_str n s) = String.length s - n.
Proof. intros H. destruct (drop_split n s H) as (p & E & L). apply (f_equal String.length) in E. rewrite str_app_length in E. lia. Qed.
Lemma drop_add n m s : drop_str (n + m) s = drop_str m (drop_str n s).
Proof. revert s. induction n as [|n IH]; intros s; [done|]. destruct s as [|c s]; [by destruct m|]. apply IH. Qed.
Lemma find_here s t p : p <= String.length t -> (find_from s t p = Some p <-> exists b, drop_str p t = (s ++ b)%string).
Proof.
  intros Hp. unfold find_from. destruct (Nat.ltb_spec (String.length t) p); [lia|].
  split.
  - destruct (find_str s (drop_str p t)) as [i|] eqn:E; [|done]. intros [= Hi]. assert (i = 0) as -> by lia.
    generalize (find_spec s (drop_str p t)). rewrite E. intros ((a & b & -> & ?) & _). destruct a; [|done]. by exists b.
  - intros (b & ->). generalize (find_spec s (s ++ b)). destruct (find_str s (s ++ b)) as [i|].
    + intros (_ & H0). specialize (H0 "" b eq_refl). simpl in *. f_equal. lia.
    + intros H0. by destruct (H0 "" b).
Qed.
Lemma tail_strict t l p : normalize t = t -> p <= String.length t -> forall j,
  tail_match true (map (text_match false) l) t p = Some j <-> (exists b, drop_str p t = (concat_str l ++ b)%string) /\ j = p + String.length (concat_str l).
Proof.
  intros Hn. revert p. induction l as [|s l IH]; intros p Hp j; cbn [map tail_match concat_str].
  - simpl. rewrite Nat.add_0_r. split; [intros [= <-]|intros (_ & ->); done]. split; [by exists (drop_str p t)|done].
  - unfold text_match at 1. rewrite Hn. destruct (find_from s t p) as [i|] eqn:E; cbn [fmap option_fmap option_map].
    + generalize (find_from_spec s t p). rewrite E. intros (Hi & _ & _). apply find_from_bound in E as Hb.
      destruct (Nat.ltb_spec i p); [lia|]. cbn [orb]. destruct (Nat.eqb_spec i p) as [->|Hne]; cbn [andb negb].
      * apply find_here in E as (b & Eb); [|done]. rewrite IH; [lia|].
        rewrite drop_add Eb drop_app str_app_length. split.
        -- intros ((b' & ->) & ->). split; [exists b'; by rewrite str_app_assoc|lia].
        -- intros ((b' & E') & ->). rewrite str_app_assoc in E'. apply str_app_inv_l in E'. split; [eauto|lia].
      * split; [done|]. intros ((b & Eb) & _). rewrite str_app_assoc in Eb.
        assert (find_from s t p = Some p) as E' by (apply find_here; [done|eauto]). congruence.
    + split; [done|]. intros ((b & Eb) & _). rewrite str_app_assoc in Eb.
      assert (find_from s t p = Some p) as E' by (apply find_here; [done|eauto]). congruence.
Qed.
Lemma build_texts search rematch l : Forall2 (fun e m => build_text_match search rematch false e = Ok m) (map XText l) (map (text_match false) l).
Proof. induction l; constructor; done. Qed.
Lemma forall2_det {A B} (f : A -> res B) l ms ms' : Forall2 (fun e m => f e = Ok m) l ms -> Forall2 (fun e m => f e = Ok m) l ms' -> ms = ms'.
Proof. intros H. revert ms'. induction H as [|e m l ms He _ IH]; inversion 1; subst; [done|]. f_equal; [congruence|by apply IH]. Qed.
Lemma strict_texts search rematch s l m t p : plain_ends t -> build_text_match search rematch true (XSeq (map XText (s :: l))) = Ok m -> p <= String.length (normalize t) -> forall i j,
  m t p = Some (i, j) <-> i = p /\ j = p + String.length (concat_str (s :: l)) /\ exists b, drop_str p (normalize t) = (concat_str (s :: l) ++ b)%string.
Proof.
  intros Hpl (e & l' & m1 & ms & [= <- <-] & H1 & H2 & ->)%tbuild_seq_ok Hp i j. injection H1 as <-.
  rewrite (forall2_det _ _ _ _ H2 (build_texts search rematch l)). clear H2 ms.
  pose proof (tail_strict (normalize t) (s :: l) p (norm_idem t Hpl) Hp) as T.
  cbn [map tail_match] in T. unfold seq_match. revert T. destruct (text_match false s (normalize t) p) as [[i' k]|].
  - destruct (Nat.ltb_spec i' p) as [Hlt|Hge]; cbn [orb].
    + intros T. split; [done|]. intros (-> & -> & Hb). destruct (T (p + String.length (concat_str (s :: l)))) as [_ T']. by discriminate T'.
    + destruct (Nat.eqb_spec i' p) as [->|]; cbn [andb negb].
      * intros T. destruct (tail_match true _ (normalize t) k) as [k'|] eqn:Ek; cbn [fmap option_fmap option_map].
        -- split; [intros [= <- <-]|].
           ++ destruct (T k') as [T' _]. destruct (T' eq_refl) as (? & ->). done.
           ++ intros (-> & -> & Hb). destruct (T (p + String.length (concat_str (s :: l)))) as [_ T']. assert (Some k' = Some (p + String.length (concat_str (s :: l)))) as [= ->] by (by apply T'). done.
        -- split; [done|]. intros (-> & -> & Hb). destruct (T (p + String.length (concat_str (s :: l)))) as [_ T']. by discriminate T'.
      * intros T. split; [done|]. intros (-> & -> & Hb). destruct (T (p + String.length (concat_str (s :: l)))) as [_ T']. by discriminate T'.
  - intros T. split; [done|]. intros (-> & -> & Hb). destruct (T (p + String.length (concat_str (s :: l)))) as [_ T']. by discriminate T'.
Qed.
Lemma strict_text search rematch s m t p : build_text_match search rematch true (XText s) = Ok m ->
  m t p = (if String.eqb (drop_str p (normalize t)) s then Some (p, p + String.length s) else None).
Proof. intros [= <-]. done. Qed.
Lemma tail_adjacent {A B} n (x : A) (F : B -> nat -> nat -> Prop) l ms :
  Forall2 (fun e m => sound n x (F e) m) l ms -> forall p e, p <= n -> tail_match true ms x p = Some e -> adjacent F p l e /\ e <= n.
Proof.
  induction 1 as [|y m l ms Hm _ IH]; intros p e Hp; cbn [tail_match].
  - intros [= <-]. split; [constructor|lia].
  - destruct (m x p) as [[i j]|] eqn:E; [|done]. destruct (Nat.ltb_spec i p); [done|]. destruct (Nat.eqb_spec i p) as [->|]; [|done]. intros H0.
    apply Hm in E as (HF & H1 & H2 & H3); [|done]. apply IH in H0 as (HO & ?); [|done]. split; [by eapply adj_cons|done].
Qed.
Lemma strict_sound search rematch l m t p i j : searching search -> plain_ends t -> build_text_match search rematch true (XSeq l) = Ok m ->
  p <= String.length (normalize t) -> m t p = Some (i, j) -> i = p /\ adjacent (found search (normalize t)) p l j.
Proof.
  intros HS Hpl (e & l' & m1 & ms & -> & H1 & H2 & ->)%tbuild_seq_ok Hp.
  unfold seq_match. destruct (m1 (normalize t) p) as [[i' k]|] eqn:E; [|done]. destruct (Nat.ltb_spec i' p); [done|].
  destruct (Nat.eqb_spec i' p) as [->|]; [|done]. cbn [orb andb negb].
  destruct (tail_match true ms (normalize t) k) as [k'|] eqn:E2; [|done]. intros [= -> ->]. split; [done|].
  pose proof (text_sound search rematch (normalize t) e HS (norm_idem t Hpl) m1 H1 _ _ _ Hp E) as (HF & ? & ? & Hk).
  eapply (tail_adjacent (String.length (normalize t)) (normalize t) (found search (normalize t)) l') in E2 as [HA _]; [by eapply adj_cons| |done].
  clear -HS Hpl H2. induction H2; constructor; [|done]. by apply (text_sound search rematch _ _ HS (norm_idem t Hpl)).
Qed.

(** ** Nested expectations are like flat ones *)
Lemma obo_le {A} (F : A -> nat -> nat -> Prop) p l k : one_by_one F p l k -> forall q, q <= p -> l <> [] -> one_by_one F q l k.
Proof. destruct 1 as [|p x l i j k H1 H2 H3]; intros q Hq Hl; [done|]. eapply obo_cons; [|exact H2|exact H3]. lia. Qed.
Lemma obo_app {A} (F : A -> nat -> nat -> Prop) p l1 m l2 k : one_by_one F p l1 m -> one_by_one F m l2 k -> one_by_one F p (l1 ++ l2) k.
Proof. induction 1 as [|p x l i j m H1 H2 _ IH]; [done|]. intros H. eapply obo_cons; [exact H1|exact H2|by apply IH]. Qed.
Lemma obo_split {A} (F : A -> nat -> nat -> Prop) l1 l2 p k : one_by_one F p (l1 ++ l2) k -> exists m, one_by_one F p l1 m /\ one_by_one F m l2 k.
Proof.
  revert p. induction l1 as [|x l1 IH]; intros p; [exists p; split; [constructor|done]|].
  inversion 1 as [|? ? ? i j ? H1 H2 H3]; subst. apply IH in H3 as (m & ? & ?). exists m. split; [by eapply obo_cons|done].
Qed.
Lemma flat_ne search t e : literal e -> forall i j, found search t e i j -> flat e <> [].
Proof.
  induction e as [s|r|l IH|] using expect_ind'; intros L i j HF; [done|by inversion L| |by inversion L].
  inversion HF as [| |e l' ? m ? HF1 HO]; subst. inversion L as [|? Ll]; subst. inversion Ll; subst. inversion IH as [|? ? I1 _]; subst.
  cbn [flat flat_map]. intros [E _]%app_eq_nil. by eapply I1.
Qed.
Lemma found_flat search t e : literal e -> forall i j, found search t e i j -> one_by_one (placed t) i (flat e) j.
Proof.
  induction e as [s|r|l IH|] using expect_ind'; intros L i j HF; [|by inversion L| |by inversion L].
  - inversion HF; subst. eapply obo_cons; [reflexivity|by split|constructor].
  - inversion HF as [| |e l' ? m ? HF1 HO]; subst. inversion L as [|? Ll]; subst. inversion Ll as [|? ? L1 L2]; subst. inversion IH as [|? ? I1 I2]; subst.
    cbn [flat flat_map]. eapply obo_app; [by apply I1|]. clear -I2 L2 HO. revert m HO. induction l' as [|x l' IH]; intros m; inversion 1 as [|? ? ? i2 j2 ? H1 H2 H3]; subst; [constructor|].
    inversion I2 as [|? ? I3 I4]; subst. inversion L2 as [|? ? L3 L4]; subst. cbn [flat_map]. specialize (I3 L3 _ _ H2). specialize (IH L4 I4 _ H3).
    eapply obo_app; [|exact IH]. eapply obo_le; [exact I3|done|]. by eapply flat_ne.
Qed.
Lemma flat_found search t e : literal e -> buildable e -> forall p j, one_by_one (placed t) p (flat e) j -> exists i, p <= i /\ found search t e i j.
Proof.
  induction e as [s|r|l IH|] using expect_ind'; intros L B p j HO; [|by inversion L| |by inversion L].
  - inversion HO as [|? ? ? i ? ? H1 [H2 ->] H3]; subst. inversion H3; subst. exists i. split; [done|by constructor].
  - inversion B as [| |e l' B1 B2]; subst. inversion L as [|? Ll]; subst. inversion Ll as [|? ? L1 L2]; subst. inversion IH as [|? ? I1 I2]; subst.
    cbn [flat flat_map] in HO. apply obo_split in HO as (m & H1 & H2). destruct (I1 L1 B1 _ _ H1) as (i & Hi & HF). exists i. split; [done|]. eapply found_seq; [exact HF|].
    clear -I2 L2 B2 H2. revert m H2. induction l' as [|x l' IH]; intros m; cbn [flat_map]; [inversion 1; subst; constructor|].
    inversion I2 as [|? ? I3 I4]; subst. inversion L2 as [|? ? L3 L4]; subst. inversion B2 as [|? ? B3 B4]; subst.
    intros (k & H1 & H2)%obo_split. destruct (I3 L3 B3 _ _ H1) as (i & Hi & HF). eapply obo_cons; [exact Hi|exact HF|by apply IH].
Qed.
Lemma flat_iff search t e : literal e -> buildable e -> ((exists i j, found search t e i j) <-> exists j, one_by_one (placed t) 0 (flat e) j).
Proof.
  intros L B. split.
  - intros (i & j & H). exists j. eapply obo_le; [by eapply found_flat|lia|by eapply flat_ne].
  - intros (j & H). destruct (flat_found search t e L B 0 j H) as (i & _ & ?). eauto.
Qed.

(** ** Lines *)
Lemma first_line_spec ok ls i :
  match first_line ok ls i with
  | Some (a, b) => exists k line, a = i + k /\ b = S a /\ ls !! k = Some line /\ ok line = true /\ forall k' line', k' < k -> ls !! k' = Some line' -> ok line' = false
  | None => forall k line, ls !! k = Some line -> ok line = false
  end.
Proof.
  revert i. induction ls as [|x ls IH]; intros i; cbn [first_line]; [done|]. destruct (ok x) eqn:E.
  - exists 0, x. split; [lia|]. split; [done|]. split; [done|]. split; [done|]. intros k' line' Hk. lia.
  - specialize (IH (S i)). destruct (first_line ok ls (S i)) as [[a b]|].
    + destruct IH as (k & line & -> & -> & H1 & H2 & H3). exists (S k), line. split; [lia|]. split; [lia|]. split; [done|]. split; [done|].
      intros [|k'] line' Hk; [intros [= <-]; done|]. apply H3. lia.
    + intros [|k] line; [intros [= <-]; done|]. apply IH.
Qed.
Section lines.
Context (rematch : nat -> string -> nat -> option (nat * nat)).
Notation lbuild := (build_line_match rematch).
Definition okb (e : expect) (line : string) : bool := match e with XText s => contains s line | XPattern r => re_ok rematch r line | _ => false end.
Lemma okb_iff e line : okb e line = true <-> line_ok rematch e line.
Proof.
  destruct e as [s|r|l|]; simpl; [apply contains_iff| |done|done]. unfold re_ok. destruct (rematch r line 0) eqn:E; split; try done; [by eexists|by intros [? ?]].
Qed.
Lemma single_match e m : single e -> lbuild false e = Ok m -> forall ls p, m ls p = first_line (okb e) (drop p ls) p.
Proof. destruct e; try done; intros _ [= <-]; done. Qed.
Lemma single_sound ls e m : single e -> lbuild false e = Ok m -> sound (length ls) ls (found_lines rematch ls e) m.
Proof.
  intros Hs Hb p i j Hp. rewrite (single_match _ _ Hs Hb). intros H. generalize (first_line_spec (okb e) (drop p ls) p). rewrite H.
  intros (k & line & -> & -> & H1 & H2 & _). rewrite lookup_drop in H1. apply lookup_lt_Some in H1 as Hl. split; [|lia].
  eapply fl_one; [exact H1|by apply okb_iff].
Qed.
Lemma single_complete ls e m : single e -> lbuild false e = Ok m -> complete (length ls) ls (found_lines rematch ls e) m.
Proof.
  intros Hs Hb p i j HF Hp. rewrite (single_match _ _ Hs Hb). inversion HF as [? ? line Hl Ho|]; subst; [|done]. apply okb_iff in Ho.
  assert (drop p ls !! (i - p) = Some line) as Hd by (rewrite lookup_drop; by replace (p + (i - p)) with i by lia).
  generalize (first_line_spec (okb e) (drop p ls) p). destruct (first_line (okb e) (drop p ls) p) as [[a b]|].
  - intros (k & line' & -> & -> & H1 & H2 & H3). exists (p + k), (S (p + k)). split; [done|].
    assert (k <= i - p); [|lia]. destruct (decide (k <= i - p)); [done|]. rewrite (H3 (i - p) line) in Ho; [lia|done|done].
  - intros H. by rewrite (H _ _ Hd) in Ho.
Qed.
Lemma lines_sound ls e m : lbuild false e = Ok m -> sound (length ls) ls (found_lines rematch ls e) m.
Proof.
  revert m. induction e as [s|r|l IH|] using expect_ind'; intros m; [by apply single_sound|by apply single_sound| |done].
  intros (e & l' & m1 & ms & -> & H1 & H2 & ->)%lbuild_seq_ok p i j Hp. inversion IH as [|? ? I1 I2]; subst. intros H.
  eapply (seq_sound (length ls) ls (found_lines rematch ls) false e l') in H as ((k & HF & HO) & ?); [split; [by eapply fl_seq|done]|by apply I1| |done].
  eapply forall2_map; [exact I2| |exact H2]. intros x mx Hx. by apply Hx.
Qed.
Lemma lines_complete ls e m : lbuild false e = Ok m -> complete (length ls) ls (found_lines rematch ls e) m.
Proof.
  revert m. induction e as [s|r|l IH|] using expect_ind'; intros m; [by apply single_complete|by apply single_complete| |done].
  intros (e & l' & m1 & ms & -> & H1 & H2 & ->)%lbuild_seq_ok p i j HF Hp. inversion IH as [|? ? I1 I2]; subst.
  inversion HF as [? ? ? ? Ho|? ? ? k ? HF1 HO]; subst; [done|].
  eapply (seq_complete (length ls) ls (found_lines rematch ls) e l'); [by apply I1| |exact HF1|exact HO|done].
  eapply forall2_map; [exact I2| |exact H2]. intros x mx Hx. by apply Hx.
Qed.
Lemma lines_law e m ls p : lbuild false e = Ok m -> p <= length ls ->
  (forall i j, m ls p = Some (i, j) -> found_lines rematch ls e i j /\ p <= i) /\
  (forall i j, found_lines rematch ls e i j -> p <= i -> exists i' j', m ls p = Some (i', j') /\ i' <= i /\ j' <= j).
Proof.
  intros Hb Hp. split.
  - intros i j H. by destruct (lines_sound ls e m Hb p i j Hp H) as (? & ? & _).
  - intros i j HF Hi. destruct (lines_complete ls e m Hb p i j HF Hi) as (i' & j' & ? & _ & ?). eauto.
Qed.
Lemma lines_iff e m ls : lbuild false e = Ok m -> ((exists r, m ls 0 = Some r) <-> exists i j, found_lines rematch ls e i j).
Proof.
  intros Hb. destruct (lines_law e m ls 0 Hb) as [H1 H2]; [lia|]. split.
  - intros ([i j] & H). destruct (H1 i j H). eauto.
  - intros (i & j & H). destruct (H2 i j H) as (i' & j' & ? & _); [lia|eauto].
Qed.
Lemma lines_equal s m ls : lbuild true (XText s) = Ok m -> ((exists r, m ls 0 = Some r) <-> Forall (eq s) ls).
Proof.
  intros [= <-]. unfold line_match. change (drop 0 ls) with ls. rewrite Forall_forall. destruct (forallb (String.eqb s) ls) eqn:E; split.
  - intros _ x Hx. apply forallb_forall with (x := x) in E; [by apply String.eqb_eq|by apply elem_of_list_In].
  - eauto.
  - by intros [? ?].
  - intros H. exfalso. assert (forallb (String.eqb s) ls = true); [|congruence]. apply forallb_forall. intros x Hx. apply String.eqb_eq, H. by apply elem_of_list_In.
Qed.
Lemma first_here ok ls p : (exists b, first_line ok (drop p ls) p = Some (p, b)) <-> exists line, ls !! p = Some line /\ ok line = true.
Proof.
  replace (ls !! p) with (drop p ls !! 0); [|rewrite lookup_drop; f_equal; lia]. destruct (drop p ls) as [|x r]; cbn [first_line lookup list_lookup].
  - split; [by intros [? ?]|by intros (? & ? & ?)].
  - destruct (ok x) eqn:E; split; [eauto|eauto| |intros (? & [= <-] & ?); congruence].
    intros (b & H). generalize (first_line_spec ok r (S p)). rewrite H. intros (k & ? & ? & _). lia.
Qed.
Lemma first_end ok ls p i b : first_line ok (drop p ls) p = Some (i, b) -> p <= i /\ b = S i.
Proof. intros H. generalize (first_line_spec ok (drop p ls) p). rewrite H. intros (k & ? & -> & -> & _). lia. Qed.
Lemma lines_tail l ms : Forall single l -> Forall2 (fun e m => lbuild false e = Ok m) l ms -> forall ls p,
  (exists j, tail_match true ms ls p = Some j) <-> exists pre post, drop p ls = pre ++ post /\ Forall2 (line_ok rematch) l pre.
Proof.
  intros Hs H. induction H as [|e m l ms He _ IH]; intros ls p; cbn [tail_match].
  - split; [|eauto]. intros _. exists [], (drop p ls). split; [done|constructor].
  - inversion Hs as [|? ? S1 S2]; subst. rewrite (single_match _ _ S1 He).
    assert (forall pre post, drop p ls = pre ++ post -> Forall2 (line_ok rematch) (e :: l) pre -> exists b, first_line (okb e) (drop p ls) p = Some (p, b)) as Hhere.
    { intros pre post Hd HF. inversion HF as [|? line ? pre' Ho]; subst. apply first_here. exists line. split; [|by apply okb_iff].
      replace (ls !! p) with (drop p ls !! 0); [|rewrite lookup_drop; f_equal; lia]. by rewrite Hd. }
    destruct (first_line (okb e) (drop p ls) p) as [[i b]|] eqn:E.
    + apply first_end in E as Hib. destruct Hib as [Hi ->]. destruct (Nat.ltb_spec i p); [lia|]. cbn [orb]. destruct (Nat.eqb_spec i p) as [->|Hne]; cbn [andb negb].
      * destruct (proj1 (first_here (okb e) ls p)) as (line & Hl & Ho); [eauto|]. rewrite (IH S2). rewrite (drop_S _ _ _ Hl). split.
        -- intros (pre & post & -> & HF). exists (line :: pre), post. split; [done|]. constructor; [by apply okb_iff|done].
        -- intros (pre & post & Hd & HF). inversion HF as [|? line' ? pre' Ho' HF']; subst. injection Hd as -> Hd. eauto.
      * split; [by intros [? ?]|]. intros (pre & post & Hd & HF). destruct (Hhere _ _ Hd HF) as (b & [= -> _]). done.
    + split; [by intros [? ?]|]. intros (pre & post & Hd & HF). by destruct (Hhere _ _ Hd HF) as (b & [=]).
Qed.
Lemma seq_tail {A} strict (m : matcher_of A) ms x p : (exists r, seq_match strict m ms x p = Some r) <-> exists j, tail_match strict (m :: ms) x p = Some j.
Proof.
  unfold seq_match. cbn [tail_match]. destruct (m x p) as [[i j]|]; [|split; by intros [? ?]]. destruct ((i <? p) || _); [split; by intros [? ?]|].
  destruct (tail_match strict ms x j); cbn [fmap option_fmap option_map]; [split; eauto|split; by intros [? ?]].
Qed.
Lemma lines_strict l m ls : Forall single l -> lbuild true (XSeq l) = Ok m ->
  ((exists r, m ls 0 = Some r) <-> exists pre post, ls = pre ++ post /\ Forall2 (line_ok rematch) l pre).
Proof.
  intros Hs (e & l' & m1 & ms & -> & H1 & H2 & ->)%lbuild_seq_ok. rewrite seq_tail. apply (lines_tail (e :: l') (m1 :: ms)); [done|by constructor].
Qed.
End lines.

(** ** expect_output *)
Section expect.
Context (search rematch : nat -> string -> nat -> option (nat * nat)) (strip_ansi : string -> string) (splitlines : string -> list string).
Notation expect_output := (expect_output search rematch strip_ansi splitlines).
Lemma expect_args text lines etext elines strip strict :
  (text = None <-> lines = None) \/ (etext = None <-> elines = None) -> expect_output text lines etext elines strip strict = Exn XValue.
Proof.
  unfold TextMatch.expect_output. destruct text, lines, etext, elines; intros [[A B]|[A B]]; try reflexivity; exfalso;
    first [discriminate (A eq_refl)|discriminate (B eq_refl)].
Qed.
Lemma expect_join lines e strip strict :
  expect_output None (Some lines) (Some e) None strip strict = expect_output (Some (join (String nl "") lines)) None (Some e) None strip strict.
Proof. done. Qed.
Lemma expect_split text e strip strict :
  expect_output (Some text) None None (Some e) strip strict = expect_output None (Some (splitlines text)) None (Some e) strip strict.
Proof. done. Qed.
Lemma expect_text text e (strip : bool) : let t := if strip then strip_ansi text else text in
  plain_ends t -> literal e -> buildable e ->
  exists b, expect_output (Some text) None (Some e) None strip false = Ok b /\ (b = true <-> exists i j, found search (normalize t) e i j).
Proof.
  intros t Hpl L B. destruct (tbuild_ok search rematch false e B) as (m & Hm). unfold TextMatch.expect_output. cbn [Bool.eqb]. rewrite Hm. cbn [res_bind]. eexists. split; [done|].
  rewrite -(literal_iff search rematch e m t Hpl L Hm). fold t. destruct (m t 0); split; intros HX; eauto; try done; by destruct HX.
Qed.
Lemma expect_text_sound text e (strip : bool) : let t := if strip then strip_ansi text else text in
  searching search -> plain_ends t -> expect_output (Some text) None (Some e) None strip false = Ok true -> exists i j, found search (normalize t) e i j.
Proof.
  intros t HS Hpl. unfold TextMatch.expect_output. cbn [Bool.eqb]. destruct (build_text_match search rematch false e) as [m| |] eqn:E; [|done|done]. cbn [res_bind].
  fold t. destruct (m t 0) as [[i j]|] eqn:Em; [|done]. intros _. apply (match_sound _ _ _ _ _ _ _ _ HS Hpl E) in Em as [? _]; [eauto|lia].
Qed.
Lemma expect_lines lines e (strip : bool) : let ls := if strip then map strip_ansi lines else lines in
  buildable e -> is_pattern e = false ->
  exists b, expect_output None (Some lines) None (Some e) strip false = Ok b /\ (b = true <-> exists i j, found_lines rematch ls e i j).
Proof.
  intros ls B Hp. destruct (lbuild_ok rematch false e B) as (m & Hm). unfold TextMatch.expect_output. cbn [Bool.eqb]. rewrite Hm. cbn [res_bind]. rewrite Hp. eexists. split; [done|].
  rewrite -(lines_iff rematch e m ls Hm).
  replace (map (fun t => if strip then strip_ansi t else t) lines) with ls; [|unfold ls; destruct strip; [done|by rewrite map_id]].
  destruct (m ls 0); split; intros HX; eauto; try done; by destruct HX.
Qed.
End expect.

(** ** assertInStream *)
Lemma of_process_unmentioned n l : existsb (String.eqb n) (mentioned l) = false -> of_process n (appended l) = [].
Proof.
  induction l as [|o l IH]; [done|]. cbn [mentioned map existsb]. intros [H1 H2]%orb_false_elim. destruct o as [k|e].
  - exact (IH H2).
  - change (appended (IAppend e :: l)) with (e :: appended l). cbn [of_process List.filter]. rewrite String.eqb_sym H1. exact (IH H2).
Qed.
Lemma stream_written l n b : stream_output b n (ih_run l) = written l n b.
Proof.
  unfold stream_output, written. destruct (io_law l) as (_ & _ & H & _). rewrite H. destruct (existsb _ _) eqn:E; [done|]. by rewrite (of_process_unmentioned _ _ E).
Qed.
Section asserts.
Context (search rematch : nat -> string -> nat -> option (nat * nat)) (strip_ansi : string -> string).
Notation assert_in_stream := (assert_in_stream search rematch strip_ansi).
Lemma in_stream det l e q args filter strict (strip : bool) (stdout : bool) :
  let output p := filter ((fun t => if strip then strip_ansi t else t) (written l (de_name (det p)) stdout)) in
  literal e -> buildable e -> (forall p, plain_ends (output p)) ->
  match resolve det (ih_processes (ih_run l)) q args strict with
  | Procs ps =>
      (assert_in_stream det (ih_run l) e q args filter strict strip (if stdout then "stdout" else "stderr") = APasses <->
       exists p i j, In p ps /\ found search (normalize (output p)) e i j) /\
      (assert_in_stream det (ih_run l) e q args filter strict strip (if stdout then "stdout" else "stderr") <> APasses ->
       assert_in_stream det (ih_run l) e q args filter strict strip (if stdout then "stdout" else "stderr") = AFails)
  | r => assert_in_stream det (ih_run l) e q args filter strict strip (if stdout then "stdout" else "stderr") = AUnresolved r
  end.
Proof.
  intros output L B Hpl. unfold TextMatch.assert_in_stream. destruct (resolve det _ q args strict) as [ps| | |]; try done.
  destruct (tbuild_ok search rematch false e B) as (m & Hm). rewrite Hm.
  replace (String.eqb (if stdout then "stdout" else "stderr") "stdout") with stdout; [|by destruct stdout].
  replace (negb _) with false; [|by destruct stdout].
  set (good := fun p => _). change (existsb _ ps) with (existsb good ps).
  assert (forall p, good p = true <-> exists i j, found search (normalize (output p)) e i j) as Hg.
  { intros p. rewrite -(literal_iff search rematch e m (output p) (Hpl p) L Hm). unfold good. rewrite stream_written.
    fold (output p). destruct (m _ 0) eqn:E; split; intros HX; eauto; try done; by destruct HX. }
  assert (existsb good ps = true <-> exists p i j, In p ps /\ found search (normalize (output p)) e i j) as Hex.
  { rewrite existsb_exists. split; [intros (p & Hi & (i & j & Hf)%Hg); eauto|intros (p & i & j & Hi & Hf); exists p; split; [done|apply Hg; eauto]]. }
  rewrite -Hex. destruct (existsb good ps); done.
Qed.
Lemma in_stream_stream det h e q args filter strict strip stream ps : stream <> "stdout" -> stream <> "stderr" -> ps <> [] ->
  resolve det (ih_processes h) q args strict = Procs ps -> assert_in_stream det h e q args filter strict strip stream = AValue.
Proof.
  intros H1 H2 H3 H4. unfold TextMatch.assert_in_stream. rewrite H4. destruct (String.eqb_spec stream "stdout"); [done|]. destruct (String.eqb_spec stream "stderr"); [done|].
  cbn [orb negb]. destruct ps; [done|]. by destruct (build_text_match search rematch false e).
Qed.
Lemma in_stream_expect det h e q args filter strict strip stream ps : ~ buildable e ->
  resolve det (ih_processes h) q args strict = Procs ps -> assert_in_stream det h e q args filter strict strip stream = AValue.
Proof.
  intros B H. unfold TextMatch.assert_in_stream. rewrite H. destruct (tbuild_exn search rematch false e) as [[m E]|E]; [by apply tbuild_inv in E|by rewrite E].
Qed.
End asserts.

(** ** basic_output_filter *)
Lemma filter_law prefixes patterns pat lines : exists kept,
  output_filter prefixes patterns pat lines = concat_str kept /\ sublist kept lines /\
  forall line, In line kept <-> In line lines /\ (forall p, In p prefixes -> ~ exists b, line = (p ++ b)%string) /\ (forall r, In r patterns -> pat r line = false).
Proof.
  eexists. split; [reflexivity|]. split.
  - induction lines as [|x lines IH]; [constructor|]. cbn [List.filter]. destruct (negb _ && _); by constructor.
  - intros line. rewrite filter_In andb_true_iff !negb_true_iff. split; intros (Hi & H1 & H2); (split; [done|]); split.
    + intros p Hp (b & ->). assert (existsb (fun p0 => starts_with p0 (p ++ b)) prefixes = true); [|congruence]. apply existsb_exists. exists p. split; [done|apply sw_app].
    + intros r Hr. destruct (pat r line) eqn:E; [|done]. assert (existsb (fun r0 => pat r0 line) patterns = true); [|congruence]. apply existsb_exists. eauto.
    + destruct (existsb _ prefixes) eqn:E; [|done]. apply existsb_exists in E as (p & Hp & (b & ->)%sw_split). by destruct (H1 p Hp); exists b.
    + destruct (existsb _ patterns) eqn:E; [|done]. apply existsb_exists in E as (r & Hr & E). by rewrite (H2 r Hr) in E.
Qed.

(** ** Statements in terms of texts one after the other *)
Lemma match_texts search rematch e m t : plain_ends t -> literal e -> build_text_match search rematch false e = Ok m ->
  ((exists r, m t 0 = Some r) <-> exists j, one_by_one (placed (normalize t)) 0 (flat e) j).
Proof. intros Hpl L Hb. rewrite (literal_iff _ _ _ _ _ Hpl L Hb). apply flat_iff; [done|by eapply tbuild_inv]. Qed.
Lemma expect_texts search rematch strip_ansi splitlines text e (strip : bool) : let t := if strip then strip_ansi text else text in
  plain_ends t -> literal e -> buildable e ->
  exists b, expect_output search rematch strip_ansi splitlines (Some text) None (Some e) None strip false = Ok b /\
    (b = true <-> exists j, one_by_one (placed (normalize t)) 0 (flat e) j).
Proof.
  intros t Hpl L B. destruct (expect_text search rematch strip_ansi splitlines text e strip Hpl L B) as (b & H1 & H2). exists b. split; [done|].
  rewrite H2. by apply flat_iff.
Qed.
Lemma in_stream_texts search rematch strip_ansi det l e q args filter strict (strip stdout : bool) :
  let output p := filter ((fun t => if strip then strip_ansi t else t) (written l (de_name (det p)) stdout)) in
  let v := assert_in_stream search rematch strip_ansi det (ih_run l) e q args filter strict strip (if stdout then "stdout" else "stderr") in
  literal e -> buildable e -> (forall p, plain_ends (output p)) ->
  match resolve det (ih_processes (ih_run l)) q args strict with
  | Procs ps => (v = APasses <-> exists p j, In p ps /\ one_by_one (placed (normalize (output p))) 0 (flat e) j) /\ (v = APasses \/ v = AFails)
  | r => v = AUnresolved r
  end.
Proof.
  intros output v L B Hpl. pose proof (in_stream search rematch strip_ansi det l e q args filter strict strip stdout L B Hpl) as H.
  destruct (resolve det _ q args strict) as [ps| | |]; try exact H. destruct H as [H1 H2]. fold v in H1, H2. split.
  - rewrite H1. split.
    + intros (p & i & j & Hi & Hf). destruct (proj1 (flat_iff search _ e L B) (ex_intro _ i (ex_intro _ j Hf))) as (j' & ?). eauto.
    + intros (p & j & Hi & Hf). destruct (proj2 (flat_iff search _ e L B) (ex_intro _ j Hf)) as (i & j' & ?). eauto.
  - destruct v; [by left|by right|right; by apply H2|right; by apply H2].
Qed.

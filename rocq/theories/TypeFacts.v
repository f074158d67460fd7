(** Proofs about typed values (C48). *)
From Coq Require Import ssreflect.
From Verif Require Import SpecSubst SubstFacts SubstLaws ExWorld.

Section facts.
Context {S : Type}.
Implicit Types v : pv S.

Lemma isinstance_s_iff v t : isinstance_s v t = true <-> has_scalar v t.
Proof. split; [destruct v, t; try done; constructor|by destruct 1]. Qed.
Lemma isinstance_or_str_iff b v t : isinstance_or_str b t v = true <-> has_scalar_or_str b v t.
Proof.
  rewrite /isinstance_or_str /has_scalar_or_str orb_true_iff andb_true_iff !isinstance_s_iff. done.
Qed.
Lemma forallb_Forall {A} (f : A -> bool) (P : A -> Prop) l :
  (forall x, f x = true <-> P x) -> forallb f l = true <-> Forall P l.
Proof.
  intros H. induction l as [|x l IH]; simpl; [done|].
  by rewrite andb_true_iff Forall_cons H IH.
Qed.
Lemma is_scalar_spec v : is_scalar v = true -> exists t, has_scalar v t.
Proof. destruct v; try done; intros _; eexists; constructor. Qed.
Lemma valid_type_sound b v : is_instance_of_valid_type b v = true -> has_type b v None.
Proof.
  destruct v; simpl; try (intros [t Ht]%is_scalar_spec; by eapply ht_any_scalar).
  destruct l as [|x l]; [intros _; apply (ht_any_list _ _ TStr); constructor|].
  destruct (member_type (x :: l)) as [t|] eqn:E; [|done].
  intros H. apply (ht_any_list _ _ t). revert H. apply forallb_Forall. intros y. apply isinstance_or_str_iff.
Qed.
Lemma is_instance_sound b v d : is_instance_of b v d = Ok true -> has_type b v d.
Proof.
  destruct d as [d|]; simpl.
  - destruct d as [t|t|]; simpl.
    + intros [= H]. apply ht_scalar. by apply isinstance_or_str_iff.
    + destruct v; try done. intros [= H]. apply ht_list. revert H.
      apply forallb_Forall. intros y. apply isinstance_or_str_iff.
    + done.
  - intros [= H]. by apply valid_type_sound.
Qed.
(** A value of the type is recognised as such when it is one of those lists python's
    isinstance tests accept. *)
Lemma is_instance_complete b v d : d <> Some DBad -> d <> None -> has_type b v d -> is_instance_of b v d = Ok true.
Proof.
  intros Hb Hn H. destruct H as [v t H|l t H|v t H|l t H]; simpl; try done.
  - f_equal. by apply isinstance_or_str_iff.
  - f_equal. revert H. apply forallb_Forall. intros y. apply isinstance_or_str_iff.
Qed.

Context (yaml : string -> option (pv S)).

Lemma convert_sound b s v : convert_as_yaml yaml b s = Ok v -> has_type b v None.
Proof.
  rewrite /convert_as_yaml. destruct (String.eqb s ""); [intros [= <-]; apply (ht_any_scalar _ _ TStr); constructor|].
  destruct (yaml s) as [out|].
  - destruct (is_instance_of_valid_type b out) eqn:E; [|done]. intros [= <-]. by apply valid_type_sound.
  - destruct b; [|done]. intros [= <-]. apply (ht_any_scalar _ _ TStr); constructor.
Qed.
Lemma coerce_sound b s d v : coerce_to_type yaml b s d = Ok v -> has_type b v d.
Proof.
  destruct d as [[t|t|]|]; simpl.
  - destruct t.
    + destruct (py_int s) as [z|]; [intros [= <-]; apply ht_scalar; left; constructor|].
      destruct b; [|done]. intros [= <-]. apply ht_scalar. right. split; [done|constructor].
    + destruct (py_float s) as [z|]; [intros [= <-]; apply ht_scalar; left; constructor|].
      destruct b; [|done]. intros [= <-]. apply ht_scalar. right. split; [done|constructor].
    + destruct (convert_as_yaml _ _ _) as [out|e|]; simpl; [|done..].
      destruct (isinstance_or_str b TBool out) eqn:E; [|done]. intros [= <-]. apply ht_scalar.
      by apply isinstance_or_str_iff.
    + intros [= <-]. apply ht_scalar. left. constructor.
  - destruct (convert_as_yaml _ _ _) as [out|e|]; simpl; [|done..].
    destruct out; try done. destruct (forallb _ l) eqn:E; [|done]. intros [= <-]. apply ht_list.
    revert E. apply forallb_Forall. intros y. apply isinstance_or_str_iff.
  - done.
  - apply convert_sound.
Qed.
Lemma coerce_value_sound b d v v' : coerce_value yaml b d v = Ok v' -> has_type b v' d.
Proof. destruct v; try done. apply coerce_sound. Qed.
Lemma mapR_Forall {A B} (f : A -> res B) (P : B -> Prop) l l' :
  (forall x y, f x = Ok y -> P y) -> mapR f l = Ok l' -> Forall P l'.
Proof.
  intros Hf. revert l'. induction l as [|x l IH]; intros l'; simpl; [by intros [= <-]|].
  destruct (f x) as [y|e|] eqn:E; simpl; [|done..].
  destruct (mapR f l) as [ys|e|]; simpl; [|done..]. intros [= <-]. constructor; [by eapply Hf|by apply IH].
Qed.
Lemma coerce_list_sound b l t v : coerce_list yaml b l t = Ok v ->
  has_type b v (DList <$> t).
Proof.
  rewrite /coerce_list. destruct (mapR _ l) as [out|e|] eqn:E; simpl; [|done..].
  destruct (match out with [] => true | _ => _ end) eqn:Ev; [|done]. intros [= <-].
  destruct t as [t|]; simpl.
  - apply ht_list. eapply mapR_Forall; [|exact E]. intros x y H. simpl in H.
    apply coerce_value_sound in H. by inversion H; subst.
  - apply (valid_type_sound b (PList out)). exact Ev.
Qed.
Lemma get_typed_sound b v d v' : get_typed_value yaml b v d = Ok v' -> has_type b v' d.
Proof.
  destruct v as [?|?|?|?|l|?|?]; [apply coerce_value_sound..| |apply coerce_value_sound|apply coerce_value_sound].
  - simpl. destruct d as [[t|t|]|]; simpl; try done.
    + apply (coerce_list_sound b l (Some t)).
    + apply (coerce_list_sound b l None).
Qed.

(** with can_be_str: text that does not read as a number is kept *)
Lemma can_be_str_accepts s t : t <> TBool ->
  exists v, coerce_to_type yaml true s (Some (DScalar t)) = Ok v /\
    (has_scalar v t \/ v = PStr s).
Proof.
  intros Ht. destruct t; simpl; try done.
  - destruct (py_int s); eexists; (split; [done|]); [left; constructor|by right].
  - destruct (py_float s); eexists; (split; [done|]); [left; constructor|by right].
  - eexists. split; [done|by right].
Qed.
(** text that does read as a number gives the number *)
Lemma number_read s z f :
  (py_int s = Some z -> coerce_to_type yaml true s (Some (DScalar TInt)) = Ok (PInt z)
                        /\ coerce_to_type yaml false s (Some (DScalar TInt)) = Ok (PInt z)) /\
  (py_float s = Some f -> coerce_to_type yaml true s (Some (DScalar TFloat)) = Ok (PFloat f)
                        /\ coerce_to_type yaml false s (Some (DScalar TFloat)) = Ok (PFloat f)).
Proof. simpl. split; by intros ->. Qed.

Section perform.
Context {ST : Type} (perf : list S -> ST -> ST * res string).
Lemma perform_typed_sound v d s s' v' :
  perform_typed_substitution yaml perf v d s = (s', Ok v') -> has_type false v' d.
Proof.
  rewrite /perform_typed_substitution. destruct (is_scalar v) eqn:Es.
  { destruct d as [d|].
    - destruct (is_instance_of false v (Some d)) as [[]|e|] eqn:E; simpl; try done.
      intros [= <- <-]. by apply is_instance_sound.
    - intros [= <- <-]. apply is_scalar_spec in Es as [t Ht]. by eapply ht_any_scalar. }
  destruct v; try done. destruct (is_normalized_substitution (PList l)).
  { destruct (perf (subs_of l) s) as [s1 [txt|e|]]; simpl; [|done..].
    intros [= <- H]. by eapply coerce_sound. }
  destruct (match d with None => Ok None | _ => _ end) as [t|e|]; [|done..].
  destruct (perform_items yaml perf t l s) as [s1 [out|e|]]; [|done..].
  destruct (is_instance_of false (PList out) d) as [[]|e|] eqn:E; simpl; try done.
  intros [= <- <-]. by apply is_instance_sound.
Qed.
Lemma scalar_unchanged v d s : is_scalar v = true -> has_type false v d ->
  perform_typed_substitution yaml perf v d s = (s, Ok v).
Proof.
  intros Hs Ht. rewrite /perform_typed_substitution Hs. destruct d as [d|]; [|done].
  rewrite is_instance_complete //. by destruct d; inversion Ht.
Qed.
Lemma perform_items_unchanged t l s : Forall (fun v => is_normalized_substitution v = false) l ->
  perform_items yaml perf t l s = (s, Ok l).
Proof.
  induction 1 as [|x l Hx Hl IH]; simpl; [done|].
  assert (perform_item yaml perf t x s = (s, Ok x)) as ->.
  { destruct x; try done. simpl. simpl in Hx. by rewrite Hx. }
  by rewrite IH.
Qed.
Lemma list_unchanged l d t s : d = Some (DList t) -> has_type false (PList l) d ->
  perform_typed_substitution yaml perf (PList l) d s = (s, Ok (PList l)).
Proof.
  intros -> Ht. rewrite /perform_typed_substitution.
  assert (Forall (fun v => has_scalar v t) l) as Hl.
  { inversion Ht as [| ? ? HF | |]; subst. apply (Forall_impl _ _ _ HF). by intros x [H|[? _]]. }
  assert (is_normalized_substitution (PList l) = false) as ->.
  { destruct l as [|x l]; [done|]. simpl. inversion Hl as [|?? Hx _]; subst. by destruct Hx. }
  assert (is_scalar (PList l) = false) as -> by done.
  simpl. rewrite perform_items_unchanged; [|].
  { apply (Forall_impl _ _ _ Hl). by intros x []. }
  assert (forallb (isinstance_or_str false t) l = true) as H.
  { apply (forallb_Forall _ (fun v => has_scalar v t)); [|done]. intros x.
    rewrite isinstance_or_str_iff. split; [by intros [?|[? _]]|by left]. }
  by rewrite H.
Qed.
End perform.
End facts.

(** perform_bval is perform_typed_substitution(_, bool) on the normalised value. *)
Definition as_pv (v : bval) : pv subst :=
  match v with BV b => PBool b | BS l => PList (map PSub l) end.
Lemma subs_of_map l : subs_of (map PSub l) = (l : list subst).
Proof. induction l as [|x l IH]; simpl; [done|]. by rewrite IH. Qed.
Lemma perform_bval_spec w v c :
  v <> BS [] ->
  perform_bval w v c =
  (x <-- perform_typed_substitution (w_yaml w) (perform_substitutions w) (as_pv v) (Some (DScalar TBool)) ;;
   liftS (pv_bool x)) c.
Proof.
  destruct v as [b|l]; [done|]. intros Hl. simpl. rewrite /bindS /liftS /coerce_bool.
  rewrite /perform_typed_substitution.
  assert (is_scalar (PList (map PSub l)) = false) as -> by done.
  assert (is_normalized_substitution (PList (map PSub l)) = true) as ->.
  { destruct l as [|x l]; [done|]. clear. simpl. induction l as [|y l IH]; simpl; [done|]. exact IH. }
  rewrite subs_of_map. destruct (perform_substitutions w l c) as [c1 [t|e|]]; try done.
  cbn [res_bind]. by destruct (coerce_to_type _ _ _ _).
Qed.

(** normalize_typed_substitution leaves a typed value alone *)
Section norm.
Context {S : Type} (text : string -> S).
Lemma mapR_id {A} (f : A -> res A) l : Forall (fun x => f x = Ok x) l -> mapR f l = Ok l.
Proof. induction 1 as [|x l Hx Hl IH]; simpl; [done|]. by rewrite Hx IH. Qed.
Lemma normalize_scalar (v : pv S) d : is_scalar v = true -> has_type false v d ->
  normalize_typed_substitution text v d = Ok v.
Proof.
  intros Hs Ht. rewrite /normalize_typed_substitution Hs. destruct d as [d|].
  - rewrite is_instance_complete //. by destruct d; inversion Ht.
  - destruct v; try done.
Qed.
Lemma type_of_scalar (v : pv S) t : type_of v = Some t -> is_scalar v = true.
Proof. rewrite /is_scalar. by intros ->. Qed.
Lemma normalize_list (l : list (pv S)) t : l <> [] ->
  Forall (fun v => type_of v = Some t) l ->
  normalize_typed_substitution text (PList l) (Some (DList t)) = Ok (PList l).
Proof.
  intros Hne Hl. rewrite /normalize_typed_substitution.
  assert (forall v : pv S, type_of v = Some t -> is_substitution v = false) as Hns by (by intros []).
  assert (is_scalar (PList l) = false) as -> by done.
  assert (mapR item_kind l = Ok (map (fun _ => KScalar t) l)) as Hk.
  { clear Hne. induction Hl as [|x l Hx Hl IH]; simpl; [done|]. by rewrite /item_kind Hx /= IH. }
  assert (mapR (norm_if_sub text) l = Ok l) as Hn.
  { apply mapR_id. apply (Forall_impl _ _ _ Hl). intros x Hx. by rewrite /norm_if_sub Hns. }
  assert (t = TFloat -> mapR (to_float text) l = Ok l) as Hf.
  { intros ->. apply mapR_id. apply (Forall_impl _ _ _ Hl). intros x Hx.
    rewrite /to_float Hns //. by destruct x. }
  destruct l as [|x l]; [done|].
  assert (is_substitution (PList (x :: l)) = false) as ->.
  { inversion Hl as [|?? Hx Hl']; subst. destruct x; try done.
    simpl. destruct (forallb is_sub_or_str l) eqn:Ef; simpl; [|done]. injection Hx as <-.
    clear -Hl'. induction Hl' as [|y l Hy Hl IH]; simpl; [done|]. by destruct y. }
  rewrite Hk. destruct t; simpl; rewrite ?Hn ?Hf //.
  all: assert (forall (f : ikind -> bool) k, f k = true -> forallb f (map (fun _ : pv S => k) l) = true) as Hall
    by (intros f k Hfk; clear -Hfk; induction l; simpl; [done|]; by rewrite Hfk).
  all: rewrite ?Hall // /kinds_subset ?Hall //.
  2: simpl in Hf; by rewrite Hf.
  all: simpl in Hn; by rewrite Hn.
Qed.
End norm.
Lemma bool_refuted : exists (s : string) (v : pv subst),
  has_type true (PStr s : pv subst) (Some (DScalar TBool)) /\
  w_yaml w0 s = Some v /\ coerce_to_type (w_yaml w0) true s (Some (DScalar TBool)) = Exn XValue.
Proof. exists "5", (PInt 5). split; [|done]. constructor. right. split; [done|constructor]. Qed.
Lemma normalize_refuted :
  has_type false (PList [] : pv subst) (Some (DList TInt)) /\
  normalize_typed_substitution SText (PList []) (Some (DList TInt)) = Exn XType /\
  normalize_typed_substitution SText (PList [PInt 1; PInt 2]) (Some (DList TFloat)) = Exn XType /\
  normalize_typed_substitution SText (PList [PInt 1; PFloat (FFin 2)]) (Some (DList TFloat))
    = Ok (PList [PFloat (FFin 1); PFloat (FFin 2)]).
Proof. split; [|done]. constructor. constructor. Qed.
Lemma bool_read (S : Type) (yaml : string -> option (pv S)) (can_be_str b : bool) (s : string) :
  s = (if b then "1" else "0") /\ yaml (bool_str b) = Some (PBool b) \/
  s <> "1" /\ s <> "0" /\ s <> "" /\ yaml s = Some (PBool b) ->
  coerce_to_type yaml can_be_str s (Some (DScalar TBool)) = Ok (PBool b).
Proof.
  unfold coerce_to_type, convert_as_yaml. cbn [extract_type res_bind]. intros [[-> H]|(H1 & H2 & H3 & H)].
  - destruct b; cbn [bool_str] in H; cbn -[isinstance_or_str]; rewrite H; done.
  - destruct (String.eqb_spec s "1"); [done|]. destruct (String.eqb_spec s "0"); [done|]. destruct (String.eqb_spec s ""); [done|]. by rewrite H.
Qed.

(** Lemmas about the text shown for a launch description. *)
From Coq Require Import ssreflect.
From Verif Require Import SpecIntrospect.

Definition blanks (n : nat) : utext := repeat u_space n.
Definition solid (t : utext) : Prop := match t with c :: _ => u_isspace c = false | [] => False end.
Definition indented (x : nat * utext) : utext := blanks (4 * x.1) ++ x.2.
Lemma blanks_four : lit "    " = blanks 4.
Proof. reflexivity. Qed.
Lemma blanks_app m n : blanks m ++ blanks n = blanks (m + n).
Proof. by rewrite /blanks repeat_app. Qed.
Lemma indent_listing l : indent (map indented l) = map (fun x => indented (S x.1, x.2)) l.
Proof.
  rewrite /indent map_map. apply map_ext. intros [d t]. rewrite /indented blanks_four app_assoc blanks_app. f_equal. f_equal. simpl. lia.
Qed.
Fixpoint isize (e : ient) : nat := match e with IRegister _ h => S (hsize h) | _ => 1 end
with hsize (h : ihand) : nat := match h with IDescribed _ l => S (list_sum (map isize l)) | IOpaque _ => 1 end.
Lemma shift_map k (l : list (nat * utext)) : map indented (map (fun x => (k + x.1, x.2)) l) = map (fun x => blanks (4 * k) ++ indented x) l.
Proof.
  rewrite map_map. apply map_ext. intros [d t]. rewrite /indented /= app_assoc blanks_app. do 2 f_equal. lia.
Qed.
Lemma format_listing n e : isize e <= n -> forall d, map indented (listing d e) = map (app (blanks (4 * d))) (format_entity e).
Proof.
  revert e. induction n as [|n IH]; intros e Hn d; [destruct e; simpl in Hn; lia|].
  assert (forall t, map (app (blanks (4 * d))) (indent t) = map (app (blanks (4 * S d))) t) as HI.
  { intros t. rewrite /indent map_map. apply map_ext. intros x. rewrite blanks_four app_assoc blanks_app. do 2 f_equal. lia. }
  destruct e as [m|m|c w v s|s h|s|s]; try reflexivity. cbn [listing format_entity map]. f_equal. rewrite HI.
  destruct h as [t l|i]; [|reflexivity]. cbn [listing_handler format_event_handler map]. f_equal.
  assert (forall t, map (app (blanks (4 * S d))) (indent t) = map (app (blanks (4 * S (S d)))) t) as HJ.
  { intros u. rewrite /indent map_map. apply map_ext. intros x. rewrite blanks_four app_assoc blanks_app. do 2 f_equal. lia. }
  rewrite HJ. cbn [isize hsize] in Hn.
  assert (list_sum (map isize l) <= n) as Hl by lia. clear Hn HI HJ. induction l as [|e l IHl]; [done|].
  change (isize e + list_sum (map isize l) <= n) in Hl. cbn [map concat]. rewrite !map_app. rewrite IHl; [lia|]. rewrite IH; [lia|]. done.
Qed.
Definition all_listing (l : list ient) : list (nat * utext) := concat (map (listing 0) l).
Lemma format_all l : format_entities l = map indented (all_listing l).
Proof.
  rewrite /format_entities /all_listing. induction l as [|e l IH]; [done|]. cbn [map concat]. rewrite map_app -IH. f_equal.
  rewrite (format_listing (isize e) e (le_n _) 0). rewrite -[LHS]map_id. apply map_ext. done.
Qed.
Lemma own_solid e : solid (own_line e).
Proof. by destruct e. Qed.
Lemma listing_solid e d : described e -> Forall (fun x => solid x.2) (listing d e).
Proof.
  remember (isize e) as n eqn:En. assert (isize e <= n) as Hn by lia. clear En. revert e d Hn. induction n as [|n IH]; intros e d Hn Hd; [destruct e; simpl in Hn; lia|].
  inversion Hd as [e' Hne|s i|s c t l Hc Hl]; subst.
  - destruct e; cbn [listing]; try (by constructor; [apply own_solid|constructor]). by destruct (Hne shown h).
  - repeat constructor.
  - cbn [listing]. constructor; [apply own_solid|]. cbn [listing_handler]. constructor; [done|]. cbn [isize hsize] in Hn.
    assert (list_sum (map isize l) <= n) as Hs by lia. clear Hn Hd. induction Hl as [|e l He Hl IHl]; [constructor|].
    change (isize e + list_sum (map isize l) <= n) in Hs. cbn [map concat]. apply Forall_app. split; [apply IH; [lia|done]|apply IHl; lia].
Qed.

(** ** The tree *)
Lemma lstrip_indented n t : solid t -> u_lstrip (blanks n ++ t) = t.
Proof.
  intros Ht. induction n as [|n IH].
  - destruct t as [|c t]; [done|]. simpl in *. by rewrite Ht.
  - cbn. exact IH.
Qed.
(** A line as it is put in the result, before the lines after it are seen. *)
Definition raw (more last : bool) (x : nat * utext) : utext := stem x.1 last ++ [if more then u_tee else u_corner; u_dash; u_dash; u_space] ++ x.2.
Lemma starts_blank x : u_starts (lit "    ") (indented (S x.1, x.2)) = true.
Proof. rewrite /u_starts /indented. apply bool_decide_eq_true. replace (4 * (S x.1, x.2).1) with (4 + 4 * x.1) by (simpl; lia). by rewrite -blanks_app. Qed.
Lemma skipn_blanks n t : skipn n (blanks n ++ t) = t.
Proof. by rewrite /blanks skipn_app repeat_length Nat.sub_diag skipn_all2 ?repeat_length. Qed.
Lemma raw_line x : solid x.2 ->
  let old := indented (S x.1, x.2) in let first := length old - length (u_lstrip old) in
  first = 4 * S x.1 /\ firstn (first - 4) (u_bar :: skipn 1 old) ++ [u_corner; u_dash; u_dash; u_space] ++ skipn first (u_bar :: skipn 1 old) = raw false false x.
Proof.
  destruct x as [d t]. intros Ht old first. cbn [snd fst] in *.
  assert (first = 4 * S d) as ->.
  { rewrite /first /old /indented lstrip_indented // app_length /blanks repeat_length. cbn [fst snd]. lia. }
  split; [done|]. replace (4 * S d - 4) with (4 * d) by lia.
  assert (skipn 1 old = blanks (4 * d + 3) ++ t) as ->. { rewrite /old /indented. cbn [fst snd]. replace (4 * S d) with (S (4 * d + 3)) by lia. reflexivity. }
  assert (skipn (4 * S d) (u_bar :: blanks (4 * d + 3) ++ t) = t) as ->.
  { replace (4 * S d) with (S (4 * d + 3)) by lia. cbn [skipn]. by rewrite skipn_blanks. }
  rewrite /raw /stem. cbn [fst snd]. f_equal. destruct d as [|d]; [done|].
  replace (4 * S d) with (S (4 * d + 3)) by lia. cbn [firstn]. f_equal.
  replace (S (4 * d + 3) - 1) with (4 * d + 3) by lia. replace (S (4 * d + 3) + 3) with ((4 * d + 3) + 4) by lia.
  rewrite -blanks_app -app_assoc take_app_alt; [by rewrite /blanks repeat_length|done].
Qed.
Lemma last_app (f : utext -> utext) D x : on_last f (D ++ [x]) = D ++ [f x].
Proof. by rewrite /on_last rev_app_distr /= rev_involutive. Qed.
Lemma has_corner x : u_has u_corner (raw false false x) = true.
Proof. rewrite /u_has /raw !existsb_app /=. by rewrite orb_true_r. Qed.
Lemma replace_blanks n t : u_replace1 u_corner u_tee (blanks n ++ t) = blanks n ++ u_replace1 u_corner u_tee t.
Proof. induction n as [|n IH]; [done|]. cbn. f_equal. exact IH. Qed.
Lemma replace_corner x : u_replace1 u_corner u_tee (raw false false x) = raw true false x.
Proof.
  destruct x as [d t]. rewrite /raw /stem. cbn [fst snd]. destruct d as [|d]; [done|].
  cbn [app u_replace1]. replace (N.eqb u_bar u_corner) with false by reflexivity. f_equal. by rewrite (replace_blanks _ (_ :: _)).
Qed.
(** The lines before the stem of the last one is taken away. *)
Fixpoint drawing (l : list (nat * utext)) : list utext :=
  match l with
  | [] => []
  | x :: l' => raw (match l' with [] => false | y :: _ => Nat.leb x.1 y.1 end) false x :: drawing l'
  end.
Lemma tree_drawing l : Forall (fun x => solid x.2) l -> forall D x,
  tree_lines (map (fun x => indented (S x.1, x.2)) l) (D ++ [raw false false x]) (Some (4 * S x.1)) = D ++ drawing (x :: l).
Proof.
  induction 1 as [|y l Hy Hl IH]; intros D x; [done|].
  cbn [map tree_lines]. rewrite starts_blank. cbn [negb]. destruct (raw_line y Hy) as [Ef Er]. rewrite Er Ef last_app has_corner replace_corner.
  replace (Nat.leb (4 * S x.1) (4 * S y.1)) with (Nat.leb x.1 y.1); first last.
  { destruct (Nat.leb x.1 y.1) eqn:E1, (Nat.leb (4 * S x.1) (4 * S y.1)) eqn:E2; try done; apply Nat.leb_le in E1 || apply Nat.leb_nle in E1; apply Nat.leb_le in E2 || apply Nat.leb_nle in E2; lia. }
  rewrite IH. rewrite -app_assoc. f_equal. cbn [drawing app]. f_equal. by destruct (Nat.leb x.1 y.1).
Qed.
Lemma drawing_drawn l x : exists r y, rev (drawing (x :: l)) = raw false false y :: r /\ rev (drawn (x :: l)) = raw false true y :: r.
Proof.
  revert x. induction l as [|z l IH]; intros x.
  - exists [], x. destruct x as [d t]. done.
  - destruct (IH z) as (r & y & E1 & E2).
    exists (r ++ [raw (Nat.leb x.1 z.1) false x]), y. split.
    + change (drawing (x :: z :: l)) with (raw (Nat.leb x.1 z.1) false x :: drawing (z :: l)). cbn [rev]. by rewrite E1.
    + destruct x as [d t], z as [d' t'].
      change (drawn ((d, t) :: (d', t') :: l)) with (raw (Nat.leb d d') false (d, t) :: drawn ((d', t') :: l)). cbn [rev]. rewrite E2. done.
Qed.
Lemma last_line y : (if u_starts [u_bar] (raw false false y) then u_space :: skipn 1 (raw false false y) else raw false false y) = raw false true y.
Proof. destruct y as [[|d] t]; reflexivity. Qed.
Lemma tree_law l : l <> [] -> Forall (fun x => solid x.2) l -> tree_like_indent (map (fun x => indented (S x.1, x.2)) l) = Some (drawn l).
Proof.
  destruct l as [|x l]; [done|]. intros _ Hl. inversion_clear Hl as [|? ? Hx Hl'].
  rewrite /tree_like_indent. cbn [map tree_lines]. rewrite starts_blank. cbn [negb]. destruct (raw_line x Hx) as [Ef Er]. rewrite Er Ef.
  rewrite (tree_drawing l Hl' [] x). cbn [app]. destruct (drawing_drawn l x) as (r & y & E1 & E2). rewrite E1 last_line -E2 rev_involutive. done.
Qed.
Lemma shown_law l : l <> [] -> Forall described l -> tree_like_indent (indent (format_entities l)) = Some (drawn (concat (map (listing 0) l))).
Proof.
  intros Hl Hd. rewrite format_all indent_listing /all_listing. apply tree_law.
  - destruct l as [|e l]; [done|]. by destruct e.
  - clear Hl. induction Hd as [|e l He Hd IH]; [constructor|]. cbn [map concat]. apply Forall_app. split; [by apply listing_solid|done].
Qed.

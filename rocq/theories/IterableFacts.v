(** Facts about entities handed over in iterables (C93). *)
From Coq Require Import ssreflect.
From Verif Require Import SpecIterables.

Lemma until_entities l : entities l -> (until_other l).2 = false.
Proof.
  induction l as [|x l IH]; [done|]. move=> H. destruct (H x) as [n ->]; [by left|]. simpl. apply IH. intros y Hy. apply H. by right.
Qed.
Lemma until_not l : In Other l -> (until_other l).2 = true.
Proof. induction l as [|x l IH]; [done|]. move=> [->|H]; [done|]. destruct x; [|done]. simpl. by apply IH. Qed.
Definition full (k : kind) (l : list element) (h : holder) : Prop :=
  match k, h with
  | Description, KDescription l' => l' = l
  | Group, KGroup i c => match c with Some l' => l' = l | None => left i = l end
  | Timer, KTimer i | Handler, KHandler i | OnShut, KShutdown i => i = listed l
  | OnAction, KAction l' => l' = l /\ l <> []
  | _, _ => False
  end.
Lemma full_use k l h u : full k l h -> (use_holder u h).1 = whole k l u /\ full k l (use_holder u h).2.
Proof.
  destruct k, h; simpl; try done.
  - by intros ->.
  - destruct cache as [l'|]; simpl; [by intros ->|]. by intros ->.
  - by intros ->.
  - by intros ->.
  - intros ->. by destruct u.
  - intros [-> Hl]. destruct u; simpl; [done|]. by destruct l.
Qed.
Lemma full_all k l us h : full k l h -> use_all us h = map (whole k l) us.
Proof.
  revert h. induction us as [|u us IH]; intros h H; [done|]. simpl.
  destruct (full_use k l h u H) as [H1 H2]. destruct (use_holder u h) as [r h']. simpl in *. rewrite H1. f_equal. by apply IH.
Qed.
Lemma listed_whole k l us : entities l -> (k = OnAction -> l <> []) ->
  exists h, construct k (listed l) = Ok h /\ use_all us h = map (whole k l) us.
Proof.
  intros He Hn. destruct k; simpl; try (eexists; split; [reflexivity|]; by apply full_all).
  rewrite (until_entities _ He). eexists. split; [reflexivity|]. apply (full_all OnAction). simpl. split; [done|by apply Hn].
Qed.
Lemma copied_whole k l us : k = Description \/ k = Group ->
  exists h, construct k (generated l) = Ok h /\ use_all us h = map (whole k l) us.
Proof. intros [-> | ->]; simpl; eexists; (split; [reflexivity|]); [apply (full_all Description)|apply (full_all Group)]; done. Qed.
(** Used up. *)
Definition empty (k : kind) (h : holder) : Prop :=
  match k, h with
  | Timer, KTimer i | Handler, KHandler i | OnShut, KShutdown i => i = generated []
  | _, _ => False
  end.
Lemma empty_all k us h : empty k h -> use_all us h = map (fun _ => Ok []) us.
Proof.
  revert h. induction us as [|u us IH]; intros h H; [done|]. simpl.
  assert (use_holder u h = (Ok [], h)) as ->.
  { destruct k, h; try done; rewrite /= in H; subst; try done. by destruct u. }
  f_equal. by apply IH.
Qed.
Lemma once_only k l us u vs : k = Timer \/ k = Handler \/ k = OnShut -> (forall x, In x us -> ~ goes_through k x) -> goes_through k u ->
  exists h, construct k (generated l) = Ok h /\
    use_all (us ++ u :: vs) h = map (fun _ => Ok []) us ++ Ok l :: map (fun _ => Ok []) vs.
Proof.
  rewrite /goes_through. intros Hk Hus Hu. destruct Hk as [->|[->| ->]]; simpl; (eexists; split; [reflexivity|]).
  - destruct us as [|x us]; [|exfalso; apply (Hus x); [by left|by intros []]]. simpl. f_equal. by apply (empty_all Timer).
  - destruct us as [|x us]; [|exfalso; apply (Hus x); [by left|by intros []]]. simpl. f_equal. by apply (empty_all Handler).
  - induction us as [|x us IH].
    + simpl. destruct u; [by destruct Hu|]. simpl. f_equal. by apply (empty_all OnShut).
    + destruct x; [|exfalso; apply (Hus Produce); [by left|by intros []]]. simpl. f_equal. apply IH. intros y Hy. apply Hus. by right.
Qed.
Lemma action_generated l us : entities l ->
  exists h, construct OnAction (generated l) = Ok h /\ use_all us h = map (fun u => match u with Describe => Ok [] | Produce => Exn XAttr end) us.
Proof.
  intros He. simpl. rewrite (until_entities _ He). eexists. split; [reflexivity|]. induction us as [|u us IH]; [done|].
  destruct u; simpl; by rewrite IH.
Qed.
Lemma action_refused i : In Other (left i) -> construct OnAction i = Exn XType.
Proof. intros H. simpl. by rewrite (until_not _ H). Qed.

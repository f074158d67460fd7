(** Lemmas about the concatenation of strings. *)
From Coq Require Import ssreflect.
From Verif Require Import Base.
#[local] Arguments String.append : simpl nomatch.

Lemma str_app_assoc (a b c : string) : ((a ++ b) ++ c = a ++ b ++ c)%string.
Proof. induction a as [|x a IH]; simpl; [done|]. by rewrite IH. Qed.
Lemma str_app_nil (a : string) : (a ++ "" = a)%string.
Proof. induction a as [|x a IH]; simpl; [done|]. by rewrite IH. Qed.
Lemma str_app_length (a b : string) : String.length (a ++ b)%string = String.length a + String.length b.
Proof. induction a as [|x a IH]; simpl; [done|]. by rewrite IH. Qed.
Lemma str_app_inv_l (a b c : string) : (a ++ b = a ++ c)%string -> b = c.
Proof. induction a as [|x a IH]; simpl; [done|]. intros [= H]. by apply IH. Qed.
(** Equal concatenations whose first parts have equal lengths. *)
Lemma str_app_split (a b c d : string) : String.length a = String.length c -> (a ++ b = c ++ d)%string -> a = c /\ b = d.
Proof.
  revert c. induction a as [|x a IH]; destruct c as [|y c]; simpl; try done.
  intros [= Hl] [= -> H]. destruct (IH _ Hl H) as [-> ->]. done.
Qed.
Lemma str_app_split_r (a b c d : string) : String.length b = String.length d -> (a ++ b = c ++ d)%string -> a = c /\ b = d.
Proof.
  intros Hl H. apply str_app_split; [|done].
  apply (f_equal String.length) in H. rewrite !str_app_length in H. lia.
Qed.
Lemma str_app_inv_r (a b c : string) : (a ++ c = b ++ c)%string -> a = b.
Proof. intros H. by destruct (str_app_split_r _ _ _ _ eq_refl H). Qed.

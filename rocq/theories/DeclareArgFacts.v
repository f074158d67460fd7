(** Facts about the constructor of DeclareLaunchArgument (C94). *)
From Coq Require Import ssreflect.
From Verif Require Import SpecDeclareArg StrFacts.

Lemma elems_ok l : good_elements l -> exists k, normalize_elems l = Ok k.
Proof.
  rewrite /good_elements. induction l as [|x l IH]; [by exists []|]. intros H. destruct IH as [k Hk]; [intros Hx; apply H; by right|].
  simpl. rewrite Hk. destruct x; [by eexists|by eexists|]. destruct H. by left.
Qed.
Lemma elems_bad l : ~ good_elements l -> normalize_elems l = Exn XType.
Proof.
  rewrite /good_elements. induction l as [|x l IH]; [intros H; by destruct H; intros []|]. intros H. simpl.
  destruct x; [| |done]; (rewrite IH; [|done]); intros Hx; apply H; intros [E|E]; done.
Qed.
Lemma elems_dec l : good_elements l \/ ~ good_elements l.
Proof.
  rewrite /good_elements. induction l as [|x l IH]; [left; by intros []|].
  destruct x; [| |right; intros H; apply H; by left];
  (destruct IH as [IH|IH]; [left; by intros [?|?]|right; intros H; apply IH; intros Hx; apply H; by right]).
Qed.
Lemma existsb_In t l : existsb (String.eqb t) l = true <-> In t l.
Proof.
  rewrite existsb_exists. split.
  - move=> [x [H1 H2]]. apply String.eqb_eq in H2. by subst.
  - move=> H. exists t. by rewrite String.eqb_refl.
Qed.
Lemma allowed_spec d l : default_allowed d l = true <-> match d with DV_text t => In t l | DV_iter _ => False | _ => True end.
Proof. destruct d; simpl; try (by split). apply existsb_In. Qed.
Lemma accepted_law : forall str n d desc ch,
  (exists a t, declare_arg str n d desc ch = Ok (a, t)) <-> good_default d /\ good_choices d ch.
Proof.
  intros str n d desc ch. rewrite /declare_arg. split.
  - intros (a & t & H). assert (good_default d) as Hd.
    { destruct d as [| | |l|l]; try done; destruct (elems_dec l) as [Hg|Hg]; try done;
        by rewrite /normalize_default (elems_bad _ Hg) in H. }
    split; [done|]. destruct (normalize_default d) as [dv| |]; try done.
    destruct ch as [[|c l]|]; try done. destruct (default_allowed d (c :: l)) eqn:E; [|done].
    split; [done|]. by apply allowed_spec in E.
  - intros [Hd Hc]. assert (exists dv, normalize_default d = Ok dv) as [dv ->].
    { destruct d as [| | |l|l]; simpl; try (by eexists); destruct (elems_ok l Hd) as [k ->]; by eexists. }
    destruct ch as [l|]; [|by do 2 eexists]. destruct Hc as [Hl Hc]. destruct l as [|c l]; [done|].
    apply allowed_spec in Hc. rewrite Hc. by do 2 eexists.
Qed.
Lemma default_law : forall str n t desc ch a x (w : world) fuel i (s : st),
  declare_arg str n (DV_text t) desc ch = Ok (a, x) -> lc (cx s) !! n = None ->
  exists s' : st, exec_action w fuel i a s = (s', Ok []) /\ lc (cx s') !! n = Some t /\ s' = s <| cx ::= set_lc n t |>.
Proof.
  intros str n t desc ch a x w fuel i s H Hn.
  assert (good_choices (DV_text t) ch) as Hc. { by apply (accepted_law str n (DV_text t) desc ch); eauto. }
  assert (a = ADeclare n (Some [SText t]) ch) as ->.
  { rewrite /declare_arg in H. simpl in H. destruct ch as [[|c l]|]; [done| |by injection H]. destruct (existsb _ _); [|done]. by injection H. }
  exists (s <| cx ::= set_lc n t |>).
  assert (perform_st w [SText t] s = (s, Ok t)) as Hp.
  { rewrite /perform_st /on_ctx. simpl. rewrite str_app_nil. by destruct s. }
  split; [|split; [|done]].
  - destruct fuel; cbn [exec_action]; rewrite /exec_declare /bindS Hn Hp; simpl.
    + destruct ch as [l|]; [|done]. simpl. rewrite lookup_insert. destruct Hc as [_ Hc]. apply existsb_In in Hc. by rewrite Hc.
    + destruct ch as [l|]; [|done]. simpl. rewrite lookup_insert. destruct Hc as [_ Hc]. apply existsb_In in Hc. by rewrite Hc.
  - simpl. by rewrite lookup_insert.
Qed.
Lemma list_law str n t desc l : l <> [] -> ~ In t l ->
  exists a x, declare_arg str n (DV_list [DE_text t]) desc (Some l) = Ok (a, x) /\
    forall (w : world) fuel i (s : st), lc (cx s) !! n = None -> exists s', exec_action w fuel i a s = (s', Exn XRuntime).
Proof.
  intros Hl Ht. exists (ADeclare n (Some [SText t]) (Some l)). eexists. split.
  { rewrite /declare_arg /=. by destruct l. }
  intros w fuel i s Hn. exists (s <| cx ::= set_lc n t |>).
  assert (perform_st w [SText t] s = (s, Ok t)) as Hp.
  { rewrite /perform_st /on_ctx. simpl. rewrite str_app_nil. by destruct s. }
  assert (existsb (String.eqb t) l = false) as E. { apply not_true_is_false. by rewrite existsb_In. }
  destruct fuel; cbn [exec_action]; rewrite /exec_declare /bindS Hn Hp; simpl; by rewrite lookup_insert E.
Qed.
Lemma tuple_law str n t desc l : In t l -> declare_arg str n (DV_iter [DE_text t]) desc (Some l) = Exn XRuntime.
Proof. by destruct l. Qed.
Lemma dot_iff t : ends_with_dot t = true <-> exists u, t = (u ++ ".")%string.
Proof.
  rewrite /ends_with_dot. induction t as [|c t IH].
  { split; [done|]. by intros [[|? ?] H]. }
  destruct t as [|c' t].
  - simpl. rewrite Ascii.eqb_eq. split.
    + intros ->. by exists ""%string.
    + intros [[|x [|? ?]] H]; injection H; [done|done|done].
  - transitivity (exists u, String c' t = (u ++ ".")%string).
    + rewrite -IH. simpl. done.
    + split.
      * intros [u Hu]. exists (String c u). by rewrite Hu.
      * intros [[|x u] H]; [done|]. exists u. by injection H.
Qed.
Lemma described_law str n d desc ch a x : declare_arg str n d desc ch = Ok (a, x) ->
  match desc, ch with
  | None, None => x = "no description given"%string
  | None, Some l => x = ("One of: " ++ str l)%string
  | Some t, None => x = t
  | Some t, Some l => x = (t ++ " Valid choices are: " ++ str l)%string /\ (exists u, t = (u ++ ".")%string) \/
                      x = (t ++ ". Valid choices are: " ++ str l)%string /\ ~ (exists u, t = (u ++ ".")%string)
  end.
Proof.
  intros H. assert (x = describe_arg str desc ch) as ->.
  { rewrite /declare_arg in H. destruct (normalize_default d) as [dv| |]; try done.
    destruct ch as [[|c l]|]; [done| |by injection H]. destruct (default_allowed _ _); [by injection H|done]. }
  destruct desc as [t|], ch as [l|]; try done. rewrite /describe_arg. destruct (ends_with_dot t) eqn:E.
  - left. split; [done|]. by apply dot_iff.
  - right. split; [by rewrite str_app_assoc|]. rewrite -dot_iff E. done.
Qed.

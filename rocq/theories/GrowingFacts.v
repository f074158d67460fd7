(** Lemmas for descriptions that grow while they are visited (C99). *)
From Coq Require Import ssreflect.
From Verif Require Import SpecGrowing.

Lemma grown_refl s : grown s s.
Proof. intros d. exists []. by rewrite app_nil_r. Qed.
Lemma grown_trans s1 s2 s3 : grown s1 s2 -> grown s2 s3 -> grown s1 s3.
Proof. intros H1 H2 d. destruct (H1 d) as [l1 E1], (H2 d) as [l2 E2]. exists (l1 ++ l2). by rewrite E2 E1 app_assoc. Qed.
Lemma grown_saw e s : grown s (saw e s).
Proof. intros d. exists []. by rewrite app_nil_r. Qed.
Lemma grown_add s de : grown s (add_entity s de).
Proof. intros d. simpl. destruct (Nat.eqb d de.1); [by exists [de.2]|]. exists []. by rewrite app_nil_r. Qed.
Lemma grown_adds adds s : grown s (fold_left add_entity adds s).
Proof. revert s. induction adds as [|a adds IH]; intros s; simpl; [apply grown_refl|]. eapply grown_trans; [apply grown_add|apply IH]. Qed.
Lemma visited_adds adds s : visited (fold_left add_entity adds s) = visited s.
Proof. revert s. induction adds as [|a adds IH]; intros s; simpl; [done|]. by rewrite IH. Qed.
Lemma drop_nth {A} (l : list A) i e : nth_error l i = Some e -> drop i l = e :: drop (S i) l.
Proof. revert i. induction l as [|x l IH]; intros [|i]; simpl; try done; [by intros [= ->]|]. apply IH. Qed.
Lemma drop_none {A} (l : list A) i : nth_error l i = None -> drop i l = [].
Proof. revert i. induction l as [|x l IH]; intros [|i]; simpl; try done. apply IH. Qed.
Lemma nth_grown s s' d i e : grown s s' -> nth_error (lists s d) i = Some e -> nth_error (lists s' d) i = Some e.
Proof. intros H E. destruct (H d) as [l ->]. rewrite nth_error_app1; [|done]. apply nth_error_Some. by rewrite E. Qed.

Section visit.
Context (run : nat -> list ent -> res (list (nat * ent) * list ent)).
Notation go := (go run).
(** What is right about a tree that was made between two states. *)
Definition right_node (s s' : store) (t : tree) : Prop :=
  match root t with
  | Desc d => exists l1 l2, map root (subs t) = lists s d ++ l1 /\ lists s' d = map root (subs t) ++ l2
  | Call n => exists before adds, run n before = Ok (adds, map root (subs t))
  end.
Definition right_all (s s' : store) (ts : list tree) : Prop := forall t u, In u ts -> within t u -> right_node s s' t.
Lemma right_grown s0 s s' s1 t : grown s0 s -> grown s' s1 -> right_node s s' t -> right_node s0 s1 t.
Proof.
  rewrite /right_node. destruct (root t) as [d|n]; [|done]. intros H0 H1 (l1 & l2 & E1 & E2). destruct (H0 d) as [k0 F0], (H1 d) as [k1 F1].
  exists (k0 ++ l1), (l2 ++ k1). rewrite E1 F0 F1 E2 E1 F0 -!app_assoc. done.
Qed.
Lemma go_facts fuel t s s' ts : go fuel t s = Ok (s', ts) ->
  grown s s' /\ visited s' = visited s ++ flat_map preorder ts /\ right_all s s' ts /\
  map root ts = match t with One e => [e] | Rest l => l | From d i => drop i (lists s' d) end.
Proof.
  revert t s s' ts. induction fuel as [|fuel IH]; intros t s s' ts; [done|]. destruct t as [[d|n]|[|e l]|d i]; cbn [Growing.go].
  - destruct (go fuel (From d 0) (saw (Desc d) s)) as [[s1 us]| |] eqn:E; [|done|done]. intros [= <- <-].
    destruct (IH _ _ _ _ E) as (G & V & R & M). split_and!; [|by rewrite V /= app_nil_r -app_assoc| |done].
    + eapply grown_trans; [apply grown_saw|done].
    + intros t u [<-|[]] W. inversion W as [|? u ? ? Hu Wu]; subst.
      * rewrite /right_node /=. rewrite M drop_0. destruct (G d) as [k Ek]. exists k, []. by rewrite app_nil_r.
      * eapply right_grown; [apply grown_saw|apply grown_refl|]. by eapply R.
  - destruct (run n (visited s)) as [[adds ret]| |] eqn:Er; [|done|done]. cbn [res_bind].
    destruct (go fuel (Rest ret) _) as [[s1 us]| |] eqn:E; [|done|done]. intros [= <- <-].
    destruct (IH _ _ _ _ E) as (G & V & R & M).
    assert (grown s (fold_left add_entity adds (saw (Call n) s))) as G0 by (eapply grown_trans; [apply grown_saw|apply grown_adds]).
    split_and!; [by eapply grown_trans|by rewrite V visited_adds /= app_nil_r -app_assoc| |done].
    intros t u [<-|[]] W. inversion W as [|? u ? ? Hu Wu]; subst.
    + exists (visited s), adds. done.
    + eapply right_grown; [exact G0|apply grown_refl|]. by eapply R.
  - intros [= <- <-]. split_and!; [apply grown_refl|by rewrite /= app_nil_r|by intros ? ? []|done].
  - destruct (go fuel (One e) s) as [[s1 ts1]| |] eqn:E1; [|done|done]. cbn [res_bind].
    destruct (go fuel (Rest l) s1) as [[s2 ts2]| |] eqn:E2; [|done|done]. intros [= <- <-].
    destruct (IH _ _ _ _ E1) as (G1 & V1 & R1 & M1), (IH _ _ _ _ E2) as (G2 & V2 & R2 & M2).
    split_and!; [by eapply grown_trans|by rewrite V2 V1 flat_map_app app_assoc| |by rewrite map_app M1 M2].
    intros t u [Hu|Hu]%in_app_or W; [eapply right_grown; [apply grown_refl|exact G2|]; by eapply R1|eapply right_grown; [exact G1|apply grown_refl|]; by eapply R2].
  - destruct (nth_error (lists s d) i) as [e|] eqn:En.
    + destruct (go fuel (One e) s) as [[s1 ts1]| |] eqn:E1; [|done|done]. cbn [res_bind].
      destruct (go fuel (From d (S i)) s1) as [[s2 ts2]| |] eqn:E2; [|done|done]. intros [= <- <-].
      destruct (IH _ _ _ _ E1) as (G1 & V1 & R1 & M1), (IH _ _ _ _ E2) as (G2 & V2 & R2 & M2).
      assert (grown s s2) as G by by eapply grown_trans.
      split_and!; [done|by rewrite V2 V1 flat_map_app app_assoc| |].
      * intros t u [Hu|Hu]%in_app_or W; [eapply right_grown; [apply grown_refl|exact G2|]; by eapply R1|eapply right_grown; [exact G1|apply grown_refl|]; by eapply R2].
      * rewrite map_app M1 M2. by rewrite (drop_nth _ _ _ (nth_grown _ _ _ _ _ G En)).
    + intros [= <- <-]. split_and!; [apply grown_refl|by rewrite /= app_nil_r|by intros ? ? []|]. by rewrite (drop_none _ _ En).
Qed.
Lemma go_more fuel t s r : go fuel t s <> OutOfFuel -> go fuel t s = r -> go (S fuel) t s = r.
Proof.
  revert t s r. induction fuel as [|fuel IH]; intros t s r; [done|]. intros Hn <-. revert Hn.
  assert (forall t s, go fuel t s <> OutOfFuel -> go (S fuel) t s = go fuel t s) as K by (intros; by apply IH).
  change (go (S (S fuel)) t s) with (match t with
      | One (Desc d) => res_bind (go (S fuel) (From d 0) (saw (Desc d) s)) (fun '(s, ts) => Ok (s, [T (Desc d) ts]))
      | One (Call n) =>
          res_bind (run n (visited s)) (fun '(adds, ret) =>
          res_bind (go (S fuel) (Rest ret) (fold_left add_entity adds (saw (Call n) s))) (fun '(s, ts) => Ok (s, [T (Call n) ts])))
      | Rest [] => Ok (s, [])
      | Rest (e :: l) => res_bind (go (S fuel) (One e) s) (fun '(s, ts) => res_bind (go (S fuel) (Rest l) s) (fun '(s, us) => Ok (s, ts ++ us)))
      | From d i =>
          match nth_error (lists s d) i with
          | None => Ok (s, [])
          | Some e => res_bind (go (S fuel) (One e) s) (fun '(s, ts) => res_bind (go (S fuel) (From d (S i)) s) (fun '(s, us) => Ok (s, ts ++ us)))
          end
      end).
  change (go (S fuel) t s) with (match t with
      | One (Desc d) => res_bind (go fuel (From d 0) (saw (Desc d) s)) (fun '(s, ts) => Ok (s, [T (Desc d) ts]))
      | One (Call n) =>
          res_bind (run n (visited s)) (fun '(adds, ret) =>
          res_bind (go fuel (Rest ret) (fold_left add_entity adds (saw (Call n) s))) (fun '(s, ts) => Ok (s, [T (Call n) ts])))
      | Rest [] => Ok (s, [])
      | Rest (e :: l) => res_bind (go fuel (One e) s) (fun '(s, ts) => res_bind (go fuel (Rest l) s) (fun '(s, us) => Ok (s, ts ++ us)))
      | From d i =>
          match nth_error (lists s d) i with
          | None => Ok (s, [])
          | Some e => res_bind (go fuel (One e) s) (fun '(s, ts) => res_bind (go fuel (From d (S i)) s) (fun '(s, us) => Ok (s, ts ++ us)))
          end
      end).
  destruct t as [[d|n]|[|e l]|d i].
  - intros Hn. rewrite K; [|done]. intros H. by rewrite H in Hn.
  - destruct (run n (visited s)) as [[adds ret]| |]; [|done|done]. cbn [res_bind]. intros Hn. rewrite K; [|done]. intros H. by rewrite H in Hn.
  - done.
  - intros Hn. rewrite K; [intros H; by rewrite H in Hn|]. destruct (go fuel (One e) s) as [[s1 ts1]| |] eqn:E1; [|done|done]. cbn [res_bind] in Hn |- *.
    rewrite K; [|done]. intros H. by rewrite H in Hn.
  - destruct (nth_error (lists s d) i) as [e|]; [|done]. intros Hn. rewrite K; [intros H; by rewrite H in Hn|].
    destruct (go fuel (One e) s) as [[s1 ts1]| |] eqn:E1; [|done|done]. cbn [res_bind] in Hn |- *. rewrite K; [|done]. intros H. by rewrite H in Hn.
Qed.
Lemma go_enough fuel n t s : go fuel t s <> OutOfFuel -> go (n + fuel) t s = go fuel t s.
Proof.
  intros H. induction n as [|n IH]; [done|]. change (S n + fuel)%nat with (S (n + fuel)). apply go_more; [by rewrite IH|done].
Qed.
End visit.
Lemma go_forever run n d : (forall before, run n before = Ok ([(d, Call n)], [])) ->
  forall fuel i s, Forall (eq (Call n)) (lists s d) -> i < length (lists s d) -> go run fuel (From d i) s = OutOfFuel.
Proof.
  intros Hr. induction fuel as [|fuel IH]; intros i s Ha Hi; [done|]. cbn [go].
  assert (nth_error (lists s d) i = Some (Call n)) as ->.
  { destruct (nth_error (lists s d) i) as [e|] eqn:E; [|by apply nth_error_None in E; lia]. f_equal. symmetry.
    apply nth_error_In in E. by eapply List.Forall_forall in Ha. }
  destruct (go run fuel (One (Call n)) s) as [[s1 ts1]|e|] eqn:E; [|exfalso|done].
  - cbn [res_bind]. assert (lists s1 d = lists s d ++ [Call n]) as El.
    { destruct fuel as [|fuel]; [done|]. cbn [go] in E. rewrite Hr in E. cbn [res_bind] in E. destruct fuel as [|fuel]; [done|].
      cbn [go res_bind] in E. injection E as <- <-. simpl. by rewrite Nat.eqb_refl. }
    rewrite IH; [|rewrite El app_length /=; lia|done].
    rewrite El. apply Forall_app. split; [done|]. by constructor.
  - destruct fuel as [|fuel]; [done|]. cbn [go] in E. rewrite Hr in E. cbn [res_bind] in E. by destruct fuel.
Qed.

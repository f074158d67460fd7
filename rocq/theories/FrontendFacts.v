(** Lemmas about the markup frontends (C49, C50). *)
From Coq Require Import ssreflect.
From Verif Require Import SpecSubst TypeFacts SpecFrontend.
#[local] Arguments String.append : simpl nomatch.

(** ** Splitting at a separator *)
Lemma app_str_assoc (a b c : string) : ((a ++ b) ++ c = a ++ b ++ c)%string.
Proof. induction a as [|x a IH]; simpl; [done|]. by rewrite IH. Qed.
Lemma app_str_nil (a : string) : (a ++ "" = a)%string.
Proof. induction a as [|x a IH]; simpl; [done|]. by rewrite IH. Qed.
Lemma starts_with_drop p s : starts_with p s = true -> s = (p ++ drop_str (String.length p) s)%string.
Proof.
  revert s. induction p as [|c p IH]; intros s; [done|]. destruct s as [|d s]; [done|]. cbn [starts_with]. destruct (Ascii.eqb_spec c d) as [<-|]; [|done].
  intros H. cbn [String.length drop_str append]. f_equal. by apply IH.
Qed.
Lemma starts_with_app p s : starts_with p (p ++ s) = true.
Proof. induction p as [|c p IH]; [done|]. cbn [append starts_with]. by rewrite Ascii.eqb_refl. Qed.
Lemma contains_split p s : contains p s = true -> exists a b, s = (a ++ p ++ b)%string.
Proof.
  induction s as [|c s IH]; cbn [contains].
  - rewrite orb_false_r. intros H%starts_with_drop. exists "", (drop_str (String.length p) ""). done.
  - destruct (starts_with p (String c s)) eqn:E.
    + intros _. apply starts_with_drop in E. exists "". eexists. exact E.
    + intros (a & b & ->)%IH. by exists (String c a), b.
Qed.
Lemma split_skip sep s k cur : split_go sep s k cur = split_go sep (drop_str k s) 0 cur.
Proof.
  revert k. induction s as [|c s IH]; intros [|k]; try done. cbn [split_go drop_str]. apply IH.
Qed.
Lemma split_nonempty sep s k cur : exists x l, split_go sep s k cur = x :: l.
Proof.
  revert k cur. induction s as [|c s IH]; intros k cur; [by eexists _, _|]. cbn [split_go]. destruct k; [|apply IH].
  destruct (starts_with sep (String c s)); [by eexists _, _|apply IH].
Qed.
Definition no_start (sep cur s : string) : Prop := forall a b, cur = (a ++ b)%string -> b <> "" -> starts_with sep (b ++ s) = false.
Lemma no_start_snoc sep cur c s : no_start sep cur (String c s) -> starts_with sep (String c s) = false -> no_start sep (cur ++ String c "") s.
Proof.
  intros H Hc a b. revert a b H. induction cur as [|x cur IH]; intros a b H E Hb.
  - destruct a as [|y a]; cbn [append] in E; [by subst b|]. injection E as -> E. destruct a; [simpl in E; by subst b|done].
  - destruct a as [|y a].
    + cbn [append] in E. subst b. rewrite -[(_ ++ s)%string]/(String x ((cur ++ String c "") ++ s)) app_str_assoc.
      apply (H "" (String x cur)); done.
    + cbn [append] in E. injection E as <- E. apply (IH a b); [|done|done]. intros a' b' -> Hb'. apply (H (String x a') b'); done.
Qed.
Lemma no_start_contains sep cur s : sep <> "" -> no_start sep cur s -> contains sep cur = false.
Proof.
  intros Hs H. destruct (contains sep cur) eqn:E; [|done]. apply contains_split in E as (a & b & ->).
  assert (sep ++ b <> "")%string as Hb by (by destruct sep). specialize (H a (sep ++ b)%string eq_refl Hb). by rewrite app_str_assoc starts_with_app in H.
Qed.
Lemma drop_length n s : (String.length (drop_str n s) <= String.length s)%nat.
Proof. revert s. induction n as [|n IH]; intros [|c s]; simpl; try lia. specialize (IH s). lia. Qed.
Lemma split_go_spec sep n : sep <> "" -> forall s cur, (String.length s <= n)%nat -> no_start sep cur s ->
  join sep (split_go sep s 0 cur) = (cur ++ s)%string /\ Forall (fun x => contains sep x = false) (split_go sep s 0 cur).
Proof.
  intros Hs. induction n as [|n IH]; intros s cur Hn Hc.
  - destruct s; [|simpl in Hn; lia]. cbn [split_go join]. rewrite app_str_nil. split; [done|]. constructor; [by eapply no_start_contains|done].
  - destruct s as [|c s].
    + cbn [split_go join]. rewrite app_str_nil. split; [done|]. constructor; [by eapply no_start_contains|done].
    + cbn [split_go]. destruct (starts_with sep (String c s)) eqn:E.
      * rewrite split_skip. destruct (IH (drop_str (String.length sep - 1) s) "") as [H1 H2].
        { pose proof (drop_length (String.length sep - 1) s). simpl in Hn. lia. }
        { intros a b Ea Hb. destruct a; [|done]. simpl in Ea. by subst b. }
        split.
        { destruct (split_nonempty sep (drop_str (String.length sep - 1) s) 0 "") as (x & l & Ex). rewrite Ex in H1 |- *.
          change (join sep (cur :: x :: l)) with (cur ++ sep ++ join sep (x :: l))%string. rewrite H1. f_equal. apply starts_with_drop in E.
          destruct sep as [|d sep]; [done|]. rewrite [RHS]E. simpl. by rewrite Nat.sub_0_r. }
        { constructor; [by eapply no_start_contains|done]. }
      * destruct (IH s (cur ++ String c "")%string) as [H1 H2]. { simpl in Hn. lia. } { by apply no_start_snoc. }
        rewrite H1 app_str_assoc. done.
Qed.
Lemma py_split_spec s sep l : py_split s sep = Ok l -> splits sep s l.
Proof.
  rewrite /py_split. destruct sep as [|c sep]; [done|]. intros [= <-]. apply (split_go_spec _ (String.length s)); [done|done|].
  intros a b Ea Hb. destruct a; [|done]. simpl in Ea. by subst b.
Qed.
Lemma py_split_error s sep : py_split s sep = Exn XValue <-> sep = "".
Proof. by destruct sep. Qed.

(** ** What has been read *)
Lemma assoc_in {V} k (l : list (string * V)) v : assoc k l = Some v -> In k (map fst l).
Proof. induction l as [|[k' v'] l IH]; [done|]. simpl. destruct (String.eqb_spec k k') as [->|]; [by left|]. intros H. right. by apply IH. Qed.
Lemma assoc_not_in {V} k (l : list (string * V)) : assoc k l = None <-> ~ In k (map fst l).
Proof.
  induction l as [|[k' v'] l IH]; simpl; [split; [by intros _ []|done]|]. destruct (String.eqb_spec k k') as [->|Hk].
  - split; [done|]. intros H. destruct H. by left.
  - rewrite IH. split; [intros H [?|?]; [congruence|done]|]. intros H ?. apply H. by right.
Qed.
Lemma mem_in k l : mem k l = true <-> In k l.
Proof.
  rewrite /mem existsb_exists. split.
  - intros (x & Hx & ->%String.eqb_eq). done.
  - intros H. exists k. by rewrite String.eqb_refl.
Qed.
Lemma sep_neq a : a <> (a ++ "-sep")%string.
Proof. induction a as [|c a IH]; [done|]. cbn [append]. by intros [= E]. Qed.
Lemma sep_inj a b : (a ++ "-sep" = b ++ "-sep")%string -> a = b.
Proof.
  revert b. induction a as [|c a IH]; intros [|d b]; cbn [append]; try done.
  - intros E. assert (String.length (String "-" "sep") = String.length (String d (b ++ "-sep"))) as HL by (by rewrite -E). revert HL.
    cbn [String.length]. assert (forall x y, String.length (x ++ y) = (String.length x + String.length y)%nat) as -> by (induction x; simpl; congruence). simpl. lia.
  - intros E. assert (String.length (String c (a ++ "-sep")) = String.length "-sep") as HL by (by rewrite E). revert HL.
    cbn [String.length]. assert (forall x y, String.length (x ++ y) = (String.length x + String.length y)%nat) as -> by (induction x; simpl; congruence). simpl. lia.
  - intros [= -> E]. f_equal. by apply IH.
Qed.

Lemma xar_app l l2 h e a : x_attr_read (l ++ l2) h e a <-> x_attr_read l h e a \/ x_attr_read l2 h e a.
Proof.
  rewrite /x_attr_read. setoid_rewrite in_app_iff. split.
  - intros [(d & o & c & r & [H|H] & Hr)|(n & d & o & c & r & En & [H|H] & Hn)]; naive_solver.
  - intros [[(d & o & c & r & H & Hr)|(n & d & o & c & r & En & H & Hn)]|[(d & o & c & r & H & Hr)|(n & d & o & c & r & En & H & Hn)]]; naive_solver.
Qed.
Lemma xkr_app l l2 h t : x_kid_read (l ++ l2) h t <-> x_kid_read l h t \/ x_kid_read l2 h t.
Proof. rewrite /x_kid_read. setoid_rewrite in_app_iff. naive_solver. Qed.
Lemma ykr_app l l2 h t : y_key_read (l ++ l2) h t <-> y_key_read l h t \/ y_key_read l2 h t.
Proof. rewrite /y_key_read. setoid_rewrite in_app_iff. naive_solver. Qed.
Lemma chi_app (l l2 : list tr) h : (exists r, In (TChildren h r) (l ++ l2)) <-> (exists r, In (TChildren h r) l) \/ (exists r, In (TChildren h r) l2).
Proof. setoid_rewrite in_app_iff. naive_solver. Qed.
(** The entity whose reads an event belongs to. *)
Definition of_ent (t : tr) : option nat := match t with TAttr h _ _ _ _ _ => Some h | TChildren h _ => Some h | TAccepted _ => None end.
Lemma xar_other t h e a : of_ent t <> Some h -> ~ x_attr_read [t] h e a.
Proof. intros H [(d & o & c & r & [->|[]] & _)|(n & d & o & c & r & _ & [->|[]] & _)]; by apply H. Qed.
Lemma xkr_other t h k : of_ent t <> Some h -> ~ x_kid_read [t] h k.
Proof. intros H [(r & [->|[]])|(o & c & r & [->|[]])]; by apply H. Qed.
Lemma ykr_other t h k : of_ent t <> Some h -> ~ y_key_read [t] h k.
Proof. intros H [(_ & r & [->|[]])|(u & o & c & r & [->|[]])]; by apply H. Qed.
Lemma chi_other (t : tr) h : of_ent t <> Some h -> ~ exists r, In (TChildren h r) [t].
Proof. intros H (r & [->|[]]); by apply H. Qed.

(** The sets kept by an entity are the reads in the record. *)
Definition ok_ent (l : list tr) (h : nat) (e : ent) : Prop :=
  match e with
  | EX x => (forall a, In a (map fst (x_attrs (xs_el x))) -> (In a (xs_attrs x) <-> x_attr_read l h (xs_el x) a))
            /\ (forall k, In k (x_kids (xs_el x)) -> (In (x_tag k) (xs_kids x) <-> x_kid_read l h (x_tag k)))
  | EY y => (forall d k, ys_el y = YDict d -> In k (map fst d) -> (In k (ys_keys y) <-> y_key_read l h k))
            /\ (ys_called y = true <-> exists r, In (TChildren h r) l)
  end.
Lemma ok_ent_other l t h e : of_ent t <> Some h -> ok_ent l h e -> ok_ent (l ++ [t]) h e.
Proof.
  intros Ht. destruct e as [x|y]; intros [H1 H2]; split.
  - intros a Ha. rewrite xar_app (H1 a Ha). pose proof (xar_other t h (xs_el x) a Ht). tauto.
  - intros k Hk. rewrite xkr_app (H2 k Hk). pose proof (xkr_other t h (x_tag k) Ht). tauto.
  - intros d k Ed Hk. rewrite ykr_app (H1 d k Ed Hk). pose proof (ykr_other t h k Ht). tauto.
  - rewrite chi_app H2. pose proof (chi_other t h Ht). tauto.
Qed.
Lemma ok_ent_new l h e : (forall t, In t l -> of_ent t <> Some h) -> ok_ent l h (new_ent e).
Proof.
  intros Hl. assert (forall e a, ~ x_attr_read l h e a) as N1.
  { intros e0 a [(d & o & c & r & H & _)|(n & d & o & c & r & _ & H & _)]; by apply (Hl _ H). }
  assert (forall t, ~ x_kid_read l h t) as N2. { intros t [(r & H)|(o & c & r & H)]; by apply (Hl _ H). }
  assert (forall t, ~ y_key_read l h t) as N3. { intros t [(_ & r & H)|(u & o & c & r & H)]; by apply (Hl _ H). }
  destruct e as [x|t v]; (split; [|]); simpl.
  - intros a _. split; [done|]. intros H. by apply N1 in H.
  - intros k _. split; [done|]. intros H. by apply N2 in H.
  - intros d k _ _. split; [done|]. intros H. by apply N3 in H.
  - split; [done|]. intros (r & H). by destruct (Hl _ H).
Qed.
Lemma assert_iff l h e : ok_ent l h e -> (e_assert e = Ok tt <-> all_read l h (el_of e)).
Proof.
  destruct e as [[x xa xk]|[ty v yk yc]]; intros [H1 H2]; cbn in *.
  - rewrite /x_assert /=. split.
    + destruct (existsb _ (x_kids x)) eqn:E1; [done|]. destruct (existsb _ (x_attrs x)) eqn:E2; [done|]. intros _. split.
      * intros a Ha. apply H1; [done|]. apply in_map_iff in Ha as ([a' v] & <- & Ha). destruct (mem a' xa) eqn:Em; [by apply mem_in|].
        assert (existsb (fun a => negb (mem (fst a) xa)) (x_attrs x) = true) as HH; [|by rewrite HH in E2]. apply existsb_exists. exists (a', v). by rewrite /= Em.
      * intros k Hk. apply H2; [done|]. destruct (mem (x_tag k) xk) eqn:Em; [by apply mem_in|].
        assert (existsb (fun k => negb (mem (x_tag k) xk)) (x_kids x) = true) as HH; [|by rewrite HH in E1]. apply existsb_exists. exists k. by rewrite Em.
    + intros [A1 A2]. assert (existsb (fun k => negb (mem (x_tag k) xk)) (x_kids x) = false) as ->.
      { destruct (existsb _ _) eqn:E; [|done]. apply existsb_exists in E as (k & Hk & Hm). apply A2 in Hk as Hr. apply (H2 k Hk) in Hr. apply mem_in in Hr. by rewrite Hr in Hm. }
      assert (existsb (fun a => negb (mem (fst a) xa)) (x_attrs x) = false) as ->; [|done].
      destruct (existsb _ _) eqn:E; [|done]. apply existsb_exists in E as ([a v] & Ha & Hm). assert (In a (map fst (x_attrs x))) as Hi by (apply in_map_iff; by exists (a, v)).
      apply A1 in Hi as Hr. apply (H1 a Hi) in Hr. apply mem_in in Hr. cbn [fst] in Hm. by rewrite Hr in Hm.
  - rewrite /y_assert /=. destruct v as [| | | | |vl|d]; try (by split).
    + rewrite -H2. by destruct yc.
    + split.
      * destruct (existsb _ d) eqn:E; [done|]. intros _ k Hk. apply (H1 d); [done|done|]. apply in_map_iff in Hk as ([k' v] & <- & Ha). destruct (mem k' yk) eqn:Em; [by apply mem_in|].
        assert (existsb (fun a => negb (mem (fst a) yk)) d = true) as HH; [|by rewrite HH in E]. apply existsb_exists. exists (k', v). by rewrite /= Em.
      * intros A. assert (existsb (fun a => negb (mem (fst a) yk)) d = false) as ->; [|done].
        destruct (existsb _ _) eqn:E; [|done]. apply existsb_exists in E as ([a v] & Ha & Hm). assert (In a (map fst d)) as Hi by (apply in_map_iff; by exists (a, v)).
        apply A in Hi as Hr. apply (H1 d a eq_refl Hi) in Hr. apply mem_in in Hr. cbn [fst] in Hm. by rewrite Hr in Hm.
Qed.

(** ** One read *)
Lemma value_to_type_no {A} (r : res A) : value_to_type r <> Exn XValue.
Proof. destruct r as [|[]|]; done. Qed.
Lemma bind_no {A B} (r : res A) (f : A -> B) : r <> Exn XValue -> res_bind r (fun v => Ok (f v)) <> Exn XValue.
Proof. destruct r; simpl; congruence. Qed.

Section read.
Context (yaml : string -> option (pv subst)).
(** The record of an answer agrees with the answer about ValueError. *)
Definition same_err (r : res (option got)) (r' : res (option hgot)) : Prop := r = Exn XValue <-> r' = Exn XValue.

Lemma x_get_ok l h x name t o c x' r r' : x_get yaml x name t o c = (x', r) -> same_err r r' -> ok_ent l h (EX x) ->
  ok_ent (l ++ [TAttr h name t o c r']) h (EX x') /\ xs_el x' = xs_el x.
Proof.
  intros E Hr [H1 H2]. destruct x as [e xa xk]. cbn [xs_el xs_attrs xs_kids] in *. unfold x_get in E. cbn [xs_el xs_attrs xs_kids] in E.
  assert (forall a, x_attr_read [TAttr h name t o c r'] h e a <-> (exists d, t = RVal d) /\ ((a = name /\ r' <> Exn XValue) \/ (a = (name ++ "-sep")%string /\ In name (map fst (x_attrs e))))) as HA.
  { intros a. rewrite /x_attr_read. split.
    - intros [(d & o' & c' & r0 & [[= -> -> -> -> ->]|[]] & Hn)|(n & d & o' & c' & r0 & En & [[= -> -> -> -> ->]|[]] & Hn)]; (split; [by eexists|]); by auto.
    - intros [[d ->] [[-> Hn]|[-> Hn]]]; [left; exists d, o, c, r'; split; [by left|done]|right; exists name, d, o, c, r'; split; [done|]; split; [by left|done]]. }
  assert (forall k, x_kid_read [TAttr h name t o c r'] h k <-> t = REnts /\ k = name) as HK.
  { intros k. rewrite /x_kid_read. split.
    - intros [(r0 & [?|[]])|(o' & c' & r0 & [[= -> -> -> -> ->]|[]])]; done.
    - intros [-> ->]. right. exists o, c, r'. by left. }
  destruct t as [d|].
  - assert (forall xa', (forall a, In a (map fst (x_attrs e)) -> (In a xa' <-> In a xa \/ (a = name /\ r' <> Exn XValue) \/ (a = (name ++ "-sep")%string /\ In name (map fst (x_attrs e))))) ->
      ok_ent (l ++ [TAttr h name (RVal d) o c r']) h (EX (Xst e xa' xk)) /\ e = e) as HG.
    { intros xa' HX. split; [|done]. split; cbn [xs_el xs_attrs xs_kids].
      - intros a Ha. rewrite (HX a Ha) xar_app HA (H1 a Ha). split; [|naive_solver]. intros [?|?]; [by left|right]. split; [by eexists|done].
      - intros k Hk. rewrite xkr_app HK (H2 k Hk). naive_solver. }
    destruct (assoc name (x_attrs e)) as [v|] eqn:Ev.
    + apply assoc_in in Ev as Hin. destruct (assoc (name ++ "-sep")%string (x_attrs e)) as [sep|] eqn:Es.
      * apply assoc_in in Es as Hin2. destruct (py_split v sep) as [pieces|ex|] eqn:Ep.
        -- injection E as <- <-. assert (r' <> Exn XValue) as Hn.
           { intros HE. apply Hr in HE. revert HE. apply bind_no, value_to_type_no. }
           apply HG. intros a Ha. simpl. naive_solver.
        -- assert (ex = XValue) as ->. { revert Ep. rewrite /py_split. destruct sep; [by intros [= <-]|done]. }
           injection E as <- <-. assert (r' = Exn XValue) as Hn by (by apply Hr).
           apply HG. intros a Ha. simpl. naive_solver.
        -- revert Ep. rewrite /py_split. by destruct sep.
      * injection E as <- <-. assert (r' <> Exn XValue) as Hn.
        { intros HE. apply Hr in HE. revert HE. apply bind_no, value_to_type_no. }
        apply assoc_not_in in Es. apply HG. intros a Ha. simpl. split; [naive_solver|]. intros [?|[[-> _]|[-> _]]]; [by right|by left|done].
    + injection E as <- <-. apply assoc_not_in in Ev. apply HG. intros a Ha. split; [by left|]. intros [?|[[-> _]|[-> ?]]]; done.
  - assert (forall xk', (forall k, In k (x_kids e) -> (In (x_tag k) xk' <-> In (x_tag k) xk \/ x_tag k = name)) ->
      ok_ent (l ++ [TAttr h name REnts o c r']) h (EX (Xst e xa xk')) /\ e = e) as HG.
    { intros xk' HX. split; [|done]. split; cbn [xs_el xs_attrs xs_kids].
      - intros a Ha. rewrite xar_app HA (H1 a Ha). naive_solver.
      - intros k Hk. rewrite (HX k Hk) xkr_app HK (H2 k Hk). naive_solver. }
    destruct (List.filter _ (x_kids e)) as [|k0 ks] eqn:Ef.
    + injection E as <- <-. apply HG. intros k Hk. split; [by left|]. intros [?|En]; [done|].
      assert (In k (List.filter (fun k => String.eqb (x_tag k) name) (x_kids e))) as HF by (apply filter_In; split; [done|by apply String.eqb_eq]). by rewrite Ef in HF.
    + injection E as <- <-. apply HG. intros k Hk. simpl. naive_solver.
Qed.
Lemma y_get_ok l h y name t o c y' r r' : y_get y name t o c = (y', r) -> ok_ent l h (EY y) ->
  ok_ent (l ++ [TAttr h name t o c r']) h (EY y') /\ ys_el y' = ys_el y /\ ys_type y' = ys_type y.
Proof.
  intros E [H1 H2]. destruct y as [ty v yk yc]. cbn [ys_el ys_keys ys_called ys_type] in *.
  assert (forall k, y_key_read [TAttr h name t o c r'] h k <-> k = name) as HK.
  { intros k. rewrite /y_key_read. split.
    - intros [(_ & r0 & [?|[]])|(u & o' & c' & r0 & [[= -> -> -> -> ->]|[]])]; done.
    - intros ->. right. exists t, o, c, r'. by left. }
  assert (forall yk', (forall d k, v = YDict d -> In k (map fst d) -> (In k yk' <-> In k yk \/ k = name)) -> y' = Yst ty v yk' yc ->
     ok_ent (l ++ [TAttr h name t o c r']) h (EY y') /\ ys_el y' = v /\ ys_type y' = ty) as HG.
  { intros yk' HX ->. split; [|done]. split; cbn [ys_el ys_keys ys_called ys_type].
    - intros d k Ed Hk. rewrite (HX d k Ed Hk) ykr_app HK (H1 d k Ed Hk). done.
    - rewrite chi_app H2. split; [by left|]. intros [?|(r0 & [?|[]])]; done. }
  unfold y_get in E. cbn [ys_el ys_keys ys_called ys_type] in E. destruct (y_in name v) as [[|]|ex|] eqn:Ei.
  - apply (HG (name :: yk)); [intros d k _ _; simpl; naive_solver|].
    destruct v as [| | | | | |d]; try (by injection E as <- <-). destruct (assoc name d) as [data|]; [|by injection E as <- <-].
    destruct t; [by injection E as <- <-|]. destruct data as [| | | | |[|? ?]|]; by injection E as <- <-.
  - injection E as <- <-. apply (HG yk); [|done]. intros d k -> Hk. split; [by left|]. intros [?| ->]; [done|]. revert Ei. cbn [y_in].
    destruct (assoc name d) eqn:Ea; [done|]. by apply assoc_not_in in Ea.
  - injection E as <- <-. apply (HG yk); [|done]. by intros d k ->.
  - injection E as <- <-. apply (HG yk); [|done]. by intros d k ->.
Qed.
Lemma e_get_ok l h e name t o c e' r r' : e_get yaml e name t o c = (e', r) -> same_err r r' -> ok_ent l h e ->
  ok_ent (l ++ [TAttr h name t o c r']) h e' /\ el_of e' = el_of e.
Proof.
  destruct e as [x|y]; cbn [e_get].
  - destruct (x_get yaml x name t o c) as [x' r0] eqn:E. intros [= <- <-] Hr Ho. destruct (x_get_ok _ _ _ _ _ _ _ _ _ _ E Hr Ho) as [H1 H2]. split; [done|]. by rewrite /= H2.
  - destruct (y_get y name t o c) as [y' r0] eqn:E. intros [= <- <-] Hr Ho. destruct (y_get_ok _ _ _ _ _ _ _ _ _ r' E Ho) as (H1 & H2 & H3). split; [done|]. by rewrite /= H2 H3.
Qed.
Lemma e_children_ok l h e e' r r' : e_children e = (e', r) -> ok_ent l h e -> ok_ent (l ++ [TChildren h r']) h e' /\ el_of e' = el_of e.
Proof.
  assert (exists r0, In (TChildren h r0) [TChildren h r']) as HC by (exists r'; by left).
  destruct e as [[x xa xk]|[ty v yk yc]]; cbn [e_children].
  - intros [= <- <-] [H1 H2]. split; [|done]. split; cbn [xs_el xs_attrs xs_kids] in *.
    + intros a Ha. rewrite xar_app (H1 a Ha). split; [by left|]. intros [?|[(d & o & c & r0 & [?|[]] & _)|(n & d & o & c & r0 & _ & [?|[]] & _)]]; done.
    + intros k Hk. split; [intros _|intros _; by apply in_map]. rewrite xkr_app. right. by left.
  - destruct (y_children _) as [y' r0] eqn:E. intros [= <- <-] [H1 H2]. cbn [ys_el ys_keys ys_called ys_type] in *.
    assert (forall yk', (forall d k, v = YDict d -> In k (map fst d) -> (In k yk' <-> In k yk \/ k = "children"%string)) -> y' = Yst ty v yk' true ->
      ok_ent (l ++ [TChildren h r']) h (EY y') /\ el_of (EY y') = ElY ty v) as HG.
    { intros yk' HX ->. split; [|done]. split; cbn [ys_el ys_keys ys_called ys_type].
      - intros d k Ed Hk. rewrite (HX d k Ed Hk) ykr_app (H1 d k Ed Hk). rewrite {3}/y_key_read. split.
        + intros [?| ->]; [by left|]. right. by left.
        + intros [?|[[-> _]|(u & o & c & r1 & [?|[]])]]; [by left|by right|done].
      - rewrite chi_app. split; [by right|done]. }
    unfold y_children in E. cbn [ys_el ys_keys ys_called ys_type] in E. destruct v as [| | | | |vl|d]; try (injection E as <- <-; by apply (HG yk)).
    destruct (assoc "children" d) as [cv|] eqn:Ea; injection E as <- <-.
    + apply (HG ("children"%string :: yk)); [|done]. intros d' k _ _. simpl. naive_solver.
    + apply (HG yk); [|done]. intros d' k [= <-] Hk. split; [by left|]. intros [?| ->]; [done|]. by apply assoc_not_in in Ea.
Qed.

(** The answers. *)
Lemma x_get_answer x name t o c x' r : x_get yaml x name t o c = (x', r) ->
  match r with
  | Ok (Some (GVal v)) => exists d, t = RVal d /\ In name (map fst (x_attrs (xs_el x))) /\ has_type c v d
  | Ok (Some (GEnts l)) => t = REnts /\ l <> [] /\ map el_of l = named_kids (ElX (xs_el x)) name
  | Ok None => o = true /\ match t with RVal _ => ~ In name (map fst (x_attrs (xs_el x))) | REnts => named_kids (ElX (xs_el x)) name = [] end
  | _ => True
  end.
Proof.
  assert (forall v d r, r = res_bind (value_to_type (get_typed_value yaml c v d)) (fun v => Ok (Some (GVal v))) -> In name (map fst (x_attrs (xs_el x))) ->
    match r with Ok (Some (GVal v)) => exists d', RVal d = RVal d' /\ In name (map fst (x_attrs (xs_el x))) /\ has_type c v d' | Ok (Some (GEnts _)) => False | Ok None => False | _ => True end) as HT.
  { intros v d r0 -> Hin. destruct (get_typed_value yaml c v d) as [w|ex|] eqn:Et; [|by destruct ex|done]. simpl. exists d. split; [done|]. split; [done|]. by eapply get_typed_sound. }
  rewrite /x_get. destruct t as [d|].
  - destruct (assoc name (x_attrs (xs_el x))) as [v|] eqn:Ev.
    + apply assoc_in in Ev as Hin. destruct (assoc (name ++ "-sep")%string _) as [sep|].
      * destruct (py_split v sep); intros [= <- <-]; try done. specialize (HT (PList (map PStr a)) d _ eq_refl Hin). by destruct (res_bind _ _) as [[[]|]| |].
      * intros [= <- <-]. specialize (HT (PStr v) d _ eq_refl Hin). by destruct (res_bind _ _) as [[[]|]| |].
    + intros [= <- <-]. apply assoc_not_in in Ev. by destruct o.
  - rewrite /named_kids. destruct (List.filter _ _) as [|k ks]; intros [= <- <-]; [by destruct o|]. split; [done|]. split; [done|]. simpl. f_equal. rewrite map_map. done.
Qed.
Lemma y_get_answer y name t o c y' r : y_get y name t o c = (y', r) ->
  match r with
  | Ok (Some (GVal v)) => exists d, t = RVal d /\ has_attr (ElY (ys_type y) (ys_el y)) name /\ has_type c v d
  | Ok (Some (GEnts l)) => t = REnts /\ l <> [] /\ map el_of l = named_kids (ElY (ys_type y) (ys_el y)) name
  | Ok None => o = true /\ match t with RVal _ => ~ has_attr (ElY (ys_type y) (ys_el y)) name | REnts => named_kids (ElY (ys_type y) (ys_el y)) name = [] end
  | _ => True
  end.
Proof.
  rewrite /y_get. destruct y as [ty v yk yc]. cbn [ys_type ys_el ys_keys ys_called]. destruct v as [| | | | |vl|d]; cbn [y_in]; try (by intros [= <- <-]).
  - destruct (contains _ _); intros [= <- <-]; [done|]. destruct o; [|done]. split; [done|]. destruct t; [by intros []|done].
  - destruct (existsb _ _); intros [= <- <-]; [done|]. destruct o; [|done]. split; [done|]. destruct t; [by intros []|done].
  - cbn [has_attr named_kids]. destruct (assoc name d) as [data|] eqn:Ea; cycle 1.
    { intros [= <- <-]. destruct o; [|done]. split; [done|]. destruct t; [by apply assoc_not_in|done]. }
    apply assoc_in in Ea as Hin. destruct t as [dt|].
    + destruct (is_instance_of c (to_pv data) dt) as [[|]|ex|] eqn:Ei; intros [= <- <-]; try done. simpl. exists dt. split; [done|]. split; [done|]. by apply is_instance_sound.
    + destruct data as [| | | | |[|d0 l']|]; intros [= <- <-]; try done. destruct (is_dict d0); [|done]. split; [done|]. split; [done|]. cbn [map]. f_equal. by rewrite map_map.
Qed.
Lemma kids_map l ks : mapR y_child l = Ok ks -> Forall2 (fun v k => exists t' w, v = YDict [(t', w)] /\ k = ElY t' w) l (map el_of ks).
Proof.
  revert ks. induction l as [|v l IH]; intros ks; cbn [mapR]; [intros [= <-]; constructor|].
  assert (forall e, y_child v = Ok e -> exists t' w, v = YDict [(t', w)] /\ el_of e = ElY t' w) as Hv.
  { intros e. destruct v as [| | | |s|vl|[|[t w] [|? ?]]]; cbn [y_child]; try done; [by destruct s as [|? [|? ?]]|by destruct vl as [|? [|? ?]]|]. intros [= <-]. by exists t, w. }
  destruct (y_child v) as [e| |]; try done. cbn [res_bind]. destruct (mapR y_child l) as [es| |]; try done. cbn [res_bind]. intros [= <-]. cbn [map]. constructor; [by apply Hv|by apply IH].
Qed.
Lemma iter_kids t d c ks : assoc "children" d = Some c -> res_bind (y_iter c) (mapR y_child) = Ok ks -> kids_of (ElY t (YDict d)) (map el_of ks).
Proof.
  intros Ea. destruct c as [| | | |s|l|d']; cbn [y_iter res_bind]; try done.
  - destruct s as [|ch s]; [intros [= <-]; by apply ko_empty_str|]. done.
  - intros H%kids_map. by eapply ko_dict.
  - destruct d' as [|[k v] d']; [intros [= <-]; by apply ko_empty_dict|]. cbn [map mapR y_child fst]. by destruct k as [|? [|? ?]].
Qed.
Lemma e_children_answer e e' l : e_children e = (e', Ok l) -> kids_of (el_of e) (map el_of l).
Proof.
  destruct e as [x|y]; cbn [e_children].
  - rewrite /x_children. intros [= <- <-]. cbn [el_of]. rewrite map_map. apply ko_x.
  - rewrite /y_children. destruct y as [ty v yk yc]. cbn [ys_type ys_el ys_keys ys_called el_of].
    destruct v as [| | | | |vl|d]; try done.
    + intros [= <- H%kids_map]. by apply ko_list.
    + destruct (assoc "children" d) as [c|] eqn:Ea; [|done]. intros [= <- H]. by eapply iter_kids.
Qed.
End read.

(** ** The heap *)
Definition ext (hp hp' : heap) : Prop := (length hp <= length hp')%nat /\ forall h e, elems hp h = Some e -> elems hp' h = Some e.
Lemma ext_refl hp : ext hp hp. Proof. by split. Qed.
Lemma ext_trans a b c : ext a b -> ext b c -> ext a c.
Proof. intros [L1 H1] [L2 H2]. split; [lia|]. intros h e H. by apply H2, H1. Qed.
Definition J (hp : heap) (l : list tr) : Prop :=
  (forall t h, In t l -> of_ent t = Some h -> (h < length hp)%nat) /\ (forall h e, hp !! h = Some e -> ok_ent l h e).
Inductive good (hp : heap) : list tr -> list tr -> Prop :=
| good_nil l0 : good hp l0 []
| good_cons l0 t l : event_ok hp l0 t -> good hp (l0 ++ [t]) l -> good hp l0 (t :: l).
Lemma map_mono (f g : nat -> option elem) hs ks : (forall h e, f h = Some e -> g h = Some e) -> map f hs = map Some ks -> map g hs = map Some ks.
Proof. intros H. revert ks. induction hs as [|h hs IH]; intros [|k ks]; simpl; try done. intros [= E1 E2]. f_equal; [by apply H|by apply IH]. Qed.
Lemma event_mono hp hp' l0 t : ext hp hp' -> event_ok hp l0 t -> event_ok hp' l0 t.
Proof.
  intros [_ Hx]. destruct t as [g name ty o c r|g r|g]; cbn [event_ok]; intros (e & He & H); exists e; (split; [by apply Hx|]); [| |done].
  - revert H. rewrite /good_answer. destruct r as [[[v|hs]|]| |]; try done. intros (H1 & H2 & H3). split; [done|]. split; [done|]. by eapply map_mono.
  - intros hs Er. destruct (H hs Er) as (ks & H1 & H2). exists ks. split; [done|]. by eapply map_mono.
Qed.
Lemma good_mono hp hp' l0 l : ext hp hp' -> good hp l0 l -> good hp' l0 l.
Proof. intros Hx. induction 1 as [|l0 t l H1 H2 IH]; constructor; [by eapply event_mono|done]. Qed.
Lemma good_app hp l0 l1 l2 : good hp l0 l1 -> good hp (l0 ++ l1) l2 -> good hp l0 (l1 ++ l2).
Proof.
  revert l0. induction l1 as [|t l1 IH]; intros l0; [by rewrite app_nil_r|]. intros H G. inversion H; subst. constructor; [done|]. apply IH; [done|]. by rewrite -app_assoc.
Qed.
Lemma good_split hp l0 l1 t l2 : good hp l0 (l1 ++ t :: l2) -> event_ok hp (l0 ++ l1) t.
Proof.
  revert l0. induction l1 as [|x l1 IH]; intros l0 H; inversion H; subst; [by rewrite app_nil_r|]. rewrite (app_assoc l0 [x] l1). by apply IH.
Qed.
Lemma elems_insert hp h e e' : hp !! h = Some e -> el_of e' = el_of e -> forall g, elems (<[h:=e']> hp) g = elems hp g.
Proof.
  intros Hh He g. rewrite /elems. destruct (decide (g = h)) as [->|Hn].
  - rewrite list_lookup_insert; [by eapply lookup_lt_Some|]. by rewrite Hh /= He.
  - by rewrite list_lookup_insert_ne.
Qed.
Lemma elems_app hp l g e : elems hp g = Some e -> elems (hp ++ l) g = Some e.
Proof. rewrite /elems. destruct (hp !! g) as [x|] eqn:E; [|done]. by rewrite (lookup_app_l_Some _ _ _ _ E). Qed.
Lemma elems_alloc hp (l : list ent) : map (elems (hp ++ l)) (seq (length hp) (length l)) = map Some (map el_of l).
Proof.
  apply list_eq. intros i. rewrite !list_lookup_fmap. destruct (decide (i < length l)%nat) as [Hi|Hi].
  - rewrite lookup_seq_lt //. destruct (lookup_lt_is_Some_2 l i Hi) as [e He]. rewrite He /= /elems lookup_app_r; [lia|].
    replace (length hp + i - length hp)%nat with i by lia. by rewrite He.
  - rewrite lookup_seq_ge; [lia|]. rewrite lookup_ge_None_2 //. lia.
Qed.
Lemma J_step hp l h e e' t : J hp l -> hp !! h = Some e -> of_ent t = Some h -> ok_ent (l ++ [t]) h e' -> J (<[h:=e']> hp) (l ++ [t]).
Proof.
  intros [HB HO] Hh Ht He. split.
  - intros t' g Hin Hg. rewrite insert_length. apply in_app_iff in Hin as [Hin|[<-|[]]]; [by eapply HB|]. rewrite Ht in Hg. injection Hg as <-. by eapply lookup_lt_Some.
  - intros g x. destruct (decide (g = h)) as [->|Hn].
    + rewrite list_lookup_insert; [by eapply lookup_lt_Some|]. by intros [= <-].
    + rewrite list_lookup_insert_ne //. intros Hx. apply ok_ent_other; [congruence|by apply HO].
Qed.
Lemma J_alloc hp l ents : J hp l -> (forall e, In e ents -> exists el, e = new_ent el) -> J (hp ++ ents) l.
Proof.
  intros [HB HO] Hn. split.
  - intros t h Ht Hh. rewrite app_length. specialize (HB t h Ht Hh). lia.
  - intros h e. rewrite lookup_app_Some. intros [Hh|[Hh He]]; [by apply HO|]. apply elem_of_list_lookup_2, elem_of_list_In, Hn in He as [el ->].
    apply ok_ent_new. intros t Ht Ho. specialize (HB t h Ht Ho). lia.
Qed.
Lemma J_accept hp l g : J hp l -> J hp (l ++ [TAccepted g]).
Proof.
  intros [HB HO]. split.
  - intros t h Hin Hh. apply in_app_iff in Hin as [Hin|[<-|[]]]; [by eapply HB|done].
  - intros h e Hh. apply ok_ent_other; [done|by apply HO].
Qed.
Lemma get_new yaml e name t o c e' l : e_get yaml e name t o c = (e', Ok (Some (GEnts l))) -> forall x, In x l -> exists el, x = new_ent el.
Proof.
  destruct e as [x|y]; cbn [e_get].
  - rewrite /x_get. destruct t as [d|].
    + destruct (assoc name _) as [v|]; [|by destruct o]. destruct (assoc (name ++ "-sep")%string _) as [sep|].
      * destruct (py_split v sep); [|done|done]. destruct (value_to_type _); done.
      * destruct (value_to_type _); done.
    + destruct (List.filter _ _) as [|k ks]; [by destruct o|]. intros [= <- <-] z Hz. apply (in_map_iff new_x (k :: ks)) in Hz as (k' & <- & _). by exists (ElX k').
  - rewrite /y_get. destruct (y_in name (ys_el y)) as [[|]| |]; [|by destruct o|done|done]. destruct (ys_el y) as [| | | | | |d]; try done.
    cbn. destruct (assoc name d) as [data|]; [|done]. destruct t as [dt|]; [by destruct (is_instance_of _ _ _) as [[]| |]|].
    destruct data as [| | | | |[|d0 l']|]; try done. destruct (is_dict d0); [|done]. intros [= <- <-] z Hz. apply (in_map_iff (new_y name) (d0 :: l')) in Hz as (k' & <- & _). by exists (ElY name k').
Qed.
Lemma mapR_child_new l ks : mapR y_child l = Ok ks -> forall x, In x ks -> exists el, x = new_ent el.
Proof.
  revert ks. induction l as [|v l IH]; intros ks; cbn [mapR]; [by intros [= <-]|].
  assert (forall e, y_child v = Ok e -> exists el, e = new_ent el) as Hv.
  { intros e. destruct v as [| | | |s|vl|[|[t w] [|? ?]]]; cbn [y_child]; try done; [by destruct s as [|? [|? ?]]|by destruct vl as [|? [|? ?]]|]. intros [= <-]. by exists (ElY t w). }
  destruct (y_child v) as [e| |]; try done. cbn [res_bind]. destruct (mapR y_child l) as [es| |]; try done. cbn [res_bind]. intros [= <-] x [<-|Hx]; [by apply Hv|by eapply IH].
Qed.
Lemma children_new e e' l : e_children e = (e', Ok l) -> forall x, In x l -> exists el, x = new_ent el.
Proof.
  destruct e as [x|y]; cbn [e_children].
  - rewrite /x_children. intros [= <- <-] z Hz. apply in_map_iff in Hz as (k' & <- & _). by exists (ElX k').
  - rewrite /y_children. destruct (ys_el _) as [| | | | |vl|d]; try done.
    + intros [= <- H]. by eapply mapR_child_new.
    + destruct (assoc "children" d) as [c|]; [|done]. intros [= <- H]. destruct (y_iter c) as [li| |]; try done. by eapply mapR_child_new.
Qed.

Section run.
Context (yaml : string -> option (pv subst)) {K A : Type}.
Context (methods : string -> option (nat -> prog K A)) (construct : K -> res A).
Lemma h_get_step hp l0 h name t o c hp' r : (h < length hp)%nat -> h_get yaml hp h name t o c = (hp', r) -> J hp l0 ->
  J hp' (l0 ++ [TAttr h name t o c r]) /\ ext hp hp' /\ event_ok hp' l0 (TAttr h name t o c r).
Proof.
  intros Hl E HJ. destruct (lookup_lt_is_Some_2 hp h Hl) as [e He]. unfold h_get in E. rewrite He in E.
  destruct (e_get yaml e name t o c) as [e' r0] eqn:Eg.
  assert (forall r', same_err r0 r' -> J (<[h:=e']> hp) (l0 ++ [TAttr h name t o c r']) /\ el_of e' = el_of e) as HS.
  { intros r' Hs. destruct (e_get_ok _ l0 h _ _ _ _ _ _ _ r' Eg Hs) as [H1 H2]; [by apply HJ|]. split; [|done]. by eapply J_step. }
  assert (el_of e' = el_of e) as Hel.
  { destruct (HS (match r0 with Exn XValue => Exn XValue | _ => OutOfFuel end)); [|done]. rewrite /same_err. by destruct r0 as [|[]|]. }
  assert (forall g, elems (<[h:=e']> hp) g = elems hp g) as HE by (by eapply elems_insert).
  assert (ext hp (<[h:=e']> hp)) as HX. { split; [by rewrite insert_length|]. intros g x Hg. by rewrite HE. }
  assert (elems (<[h:=e']> hp) h = Some (el_of e)) as Hh by (by rewrite HE /elems He).
  assert (match r0 with
  | Ok (Some (GVal v)) => exists d, t = RVal d /\ has_attr (el_of e) name /\ has_type c v d
  | Ok (Some (GEnts l)) => t = REnts /\ l <> [] /\ map el_of l = named_kids (el_of e) name
  | Ok None => o = true /\ match t with RVal _ => ~ has_attr (el_of e) name | REnts => named_kids (el_of e) name = [] end
  | _ => True end) as HA.
  { destruct e as [x|y]; cbn [e_get] in Eg.
    - destruct (x_get yaml x name t o c) as [x' r1] eqn:E1. injection Eg as <- <-. exact (x_get_answer _ _ _ _ _ _ _ _ E1).
    - destruct (y_get y name t o c) as [y' r1] eqn:E1. injection Eg as <- <-. exact (y_get_answer _ _ _ _ _ _ _ E1). }
  destruct r0 as [[[v|ents]|]|ex|].
  - injection E as <- <-. split; [by apply HS|]. split; [done|]. exists (el_of e). split; [done|exact HA].
  - cbn [alloc] in E. injection E as <- <-. destruct HA as (-> & HA2 & HA3). split.
    { apply J_alloc; [by apply HS|]. by eapply get_new. }
    split; [eapply ext_trans; [exact HX|]; split; [rewrite app_length insert_length; lia|intros; by apply elems_app]|].
    exists (el_of e). split; [by apply elems_app|]. split; [done|]. split; [by destruct ents|]. rewrite elems_alloc. by rewrite HA3.
  - injection E as <- <-. split; [by apply HS|]. split; [done|]. exists (el_of e). split; [done|exact HA].
  - injection E as <- <-. split; [apply HS; split; by intros [= ->]|]. split; [done|]. by exists (el_of e).
  - injection E as <- <-. split; [by apply HS|]. split; [done|]. by exists (el_of e).
Qed.
Lemma h_children_step hp l0 h hp' r : (h < length hp)%nat -> h_children hp h = (hp', r) -> J hp l0 ->
  J hp' (l0 ++ [TChildren h r]) /\ ext hp hp' /\ event_ok hp' l0 (TChildren h r).
Proof.
  intros Hl E HJ. destruct (lookup_lt_is_Some_2 hp h Hl) as [e He]. unfold h_children in E. rewrite He in E.
  destruct (e_children e) as [e' r0] eqn:Eg.
  assert (forall r', J (<[h:=e']> hp) (l0 ++ [TChildren h r']) /\ el_of e' = el_of e) as HS.
  { intros r'. destruct (e_children_ok yaml l0 h _ _ _ r' Eg) as [H1 H2]; [by apply HJ|]. split; [|done]. by eapply J_step. }
  destruct (HS OutOfFuel) as [_ Hel].
  assert (forall g, elems (<[h:=e']> hp) g = elems hp g) as HE by (by eapply elems_insert).
  assert (ext hp (<[h:=e']> hp)) as HX. { split; [by rewrite insert_length|]. intros g x Hg. by rewrite HE. }
  assert (elems (<[h:=e']> hp) h = Some (el_of e)) as Hh by (by rewrite HE /elems He).
  destruct r0 as [ents|ex|].
  - cbn [alloc] in E. injection E as <- <-. split.
    { apply J_alloc; [by apply HS|]. by eapply children_new. }
    split; [eapply ext_trans; [exact HX|]; split; [rewrite app_length insert_length; lia|intros; by apply elems_app]|].
    exists (el_of e). split; [by apply elems_app|]. intros hs [= <-]. exists (map el_of ents). split; [by eapply e_children_answer|]. apply elems_alloc.
  - injection E as <- <-. split; [by apply HS|]. split; [done|]. by exists (el_of e).
  - injection E as <- <-. split; [by apply HS|]. split; [done|]. by exists (el_of e).
Qed.

Definition sound {X Y} (f : heap -> X -> outcome Y) : Prop := forall hp x hp' l r l0, f hp x = (hp', l, r) -> J hp l0 ->
  J hp' (l0 ++ l) /\ ext hp hp' /\ good hp' l0 l.
Lemma usable_lt own hp h : usable own hp h = true -> (h < length hp)%nat /\ In h own.
Proof. rewrite /usable. intros [H1 H2]%andb_prop. split; [by apply Nat.ltb_lt|]. apply existsb_exists in H1 as (x & Hx & ->%Nat.eqb_eq). done. Qed.
Lemma run_sound act own : sound act -> sound (run_with yaml (K := K) (A := A) act own).
Proof.
  intros Hact hp p. revert own hp.
  assert (forall hp l0 (r : res K) hp' l r', (hp, [], r) = (hp', l, r') -> J hp l0 -> J hp' (l0 ++ l) /\ ext hp hp' /\ good hp' l0 l) as HN.
  { intros hp l0 r hp' l r' [= <- <- <-] HJ. rewrite app_nil_r. split; [done|]. split; [apply ext_refl|constructor]. }
  induction p as [r0|h name t o c k IH|h k IH|h k IH|h k IH|h k IH]; intros own hp hp' l r l0; cbn [run_with]; [apply HN|..];
    (destruct (usable own hp h) eqn:El; cbn [negb]; [|apply HN]; apply usable_lt in El as [El _]).
  - destruct (h_get yaml hp h name t o c) as [hp1 r1] eqn:E1. destruct (run_with yaml act _ hp1 (k r1)) as [[hp2 l2] r2] eqn:E2.
    intros [= <- <- <-] HJ. destruct (h_get_step _ _ _ _ _ _ _ _ _ El E1 HJ) as (J1 & X1 & V1). destruct (IH _ _ _ _ _ _ _ E2 J1) as (J2 & X2 & G2).
    rewrite -app_assoc in J2. split; [done|]. split; [by eapply ext_trans|]. constructor; [by eapply event_mono|done].
  - destruct (h_children hp h) as [hp1 r1] eqn:E1. destruct (run_with yaml act _ hp1 (k r1)) as [[hp2 l2] r2] eqn:E2.
    intros [= <- <- <-] HJ. destruct (h_children_step _ _ _ _ _ El E1 HJ) as (J1 & X1 & V1). destruct (IH _ _ _ _ _ _ _ E2 J1) as (J2 & X2 & G2).
    rewrite -app_assoc in J2. split; [done|]. split; [by eapply ext_trans|]. constructor; [by eapply event_mono|done].
  - intros E HJ. by eapply IH.
  - intros E HJ. by eapply IH.
  - destruct (act hp h) as [[hp1 l1] r1] eqn:E1. destruct (run_with yaml act own hp1 (k r1)) as [[hp2 l2] r2] eqn:E2. intros [= <- <- <-] HJ.
    destruct (Hact _ _ _ _ _ _ E1 HJ) as (J1 & X1 & G1). destruct (IH _ _ _ _ _ _ _ E2 J1) as (J2 & X2 & G2). rewrite app_assoc. split; [done|].
    split; [by eapply ext_trans|]. apply good_app; [by eapply good_mono|done].
Qed.
Lemma act_sound run : (forall own, sound (run own)) -> sound (act_with methods construct run).
Proof.
  intros Hrun hp h hp' l r l0. rewrite /act_with. destruct (hp !! h) as [e|] eqn:Eh; cycle 1.
  { intros [= <- <- <-] HJ. rewrite app_nil_r. split; [done|]. split; [apply ext_refl|constructor]. }
  destruct (methods (type_name e)) as [m|]; cycle 1.
  { intros [= <- <- <-] HJ. rewrite app_nil_r. split; [done|]. split; [apply ext_refl|constructor]. }
  destruct (run [h] hp (m h)) as [[hp1 l1] r1] eqn:E1. intros E HJ. destruct (Hrun _ _ _ _ _ _ _ E1 HJ) as (J1 & X1 & G1).
  destruct r1 as [k|ex|]; try (injection E as <- <- <-; done). destruct (h_assert hp1 h) as [u|ex|] eqn:Ea; injection E as <- <- <-; try done.
  rewrite app_assoc. split; [by apply J_accept|]. split; [done|]. apply good_app; [done|]. constructor; [|constructor].
  revert Ea. rewrite /h_assert. destruct (hp1 !! h) as [e1|] eqn:Eh1; [|done]. destruct u. intros Ea.
  assert (elems hp1 h = Some (el_of e1)) as Hel by (by rewrite /elems Eh1). exists (el_of e1). split; [done|].
  apply (assert_iff (l0 ++ l1) h e1); [by apply J1|done].
Qed.
Lemma parse_action_sound n : sound (parse_action yaml methods construct n).
Proof.
  induction n as [|n IH]; [|by apply act_sound; intros own; apply run_sound].
  intros hp h hp' l r l0 [= <- <- <-] HJ. rewrite app_nil_r. split; [done|]. split; [apply ext_refl|constructor].
Qed.
Lemma parse_action_accepts n hp h hp' l a : parse_action yaml methods construct n hp h = (hp', l, Ok a) -> In (TAccepted h) l.
Proof.
  destruct n as [|n]; [done|]. cbn [parse_action]. rewrite /act_with. destruct (hp !! h) as [e|]; [|done]. destruct (methods (type_name e)) as [m|]; [|done].
  destruct (run_with _ _ _ _ _) as [[hp1 l1] [k|ex|]]; try done. destruct (h_assert hp1 h); try done. intros [= <- <- _]. apply in_app_iff. right. by left.
Qed.
Lemma parse_each_sound n : sound (parse_each yaml methods construct n).
Proof.
  intros hp hs. revert hp. induction hs as [|h hs IH]; intros hp hp' l r l0; cbn [parse_each].
  { intros [= <- <- <-] HJ. rewrite app_nil_r. split; [done|]. split; [apply ext_refl|constructor]. }
  destruct (parse_action _ _ _ n hp h) as [[hp1 l1] r1] eqn:E1. intros E HJ. destruct (parse_action_sound _ _ _ _ _ _ _ E1 HJ) as (J1 & X1 & G1).
  destruct r1 as [a|ex|]; try (injection E as <- <- <-; done). destruct (parse_each _ _ _ n hp1 hs) as [[hp2 l2] r2] eqn:E2. injection E as <- <- <-.
  destruct (IH _ _ _ _ _ E2 J1) as (J2 & X2 & G2). rewrite app_assoc. split; [done|]. split; [by eapply ext_trans|]. apply good_app; [by eapply good_mono|done].
Qed.
Lemma parse_each_accepts n hp hs hp' l r : parse_each yaml methods construct n hp hs = (hp', l, Ok r) -> (forall h, In h hs -> In (TAccepted h) l) /\ length r = length hs.
Proof.
  revert hp hp' l r. induction hs as [|h hs IH]; intros hp hp' l r; cbn [parse_each]; [by intros [= <- <- <-]|].
  destruct (parse_action _ _ _ n hp h) as [[hp1 l1] [a|ex|]] eqn:E1; try done. destruct (parse_each _ _ _ n hp1 hs) as [[hp2 l2] [r2|ex|]] eqn:E2; try done.
  intros [= <- <- <-]. destruct (IH _ _ _ _ E2) as [H1 H2]. split; [|by rewrite /= H2].
  intros g [<-|Hg]; apply in_app_iff; [left; by eapply parse_action_accepts|right; by apply H1].
Qed.
Lemma J_new el : J [new_ent el] [].
Proof. split; [done|]. intros h e He. apply list_lookup_singleton_Some in He as [-> <-]. by apply ok_ent_new. Qed.
Lemma description_sound n el hp' l r : parse_description yaml methods construct n (new_ent el) = (hp', l, r) -> good hp' [] l /\ elems hp' 0 = Some el.
Proof.
  rewrite /parse_description. assert (elems [new_ent el] 0 = Some el) as H0 by (by destruct el).
  destruct (negb _); [intros [= <- <- <-]; split; [constructor|done]|]. destruct (h_get _ _ _ _ _ _ _) as [hp1 r1] eqn:E1.
  destruct (h_get_step [new_ent el] [] 0 _ _ _ _ _ _ ltac:(simpl; lia) E1 (J_new el)) as (J1 & X1 & V1).
  assert (good hp1 [] [TAttr 0 "deprecated" (RVal (Some (DScalar TStr))) true true r1]) as G1 by (constructor; [done|constructor]).
  destruct r1 as [a1|ex|]; try (intros [= <- <- <-]; split; [done|by apply X1]). destruct (h_children hp1 0) as [hp2 r2] eqn:E2.
  assert (0 < length hp1)%nat as L1 by (destruct X1 as [HL _]; simpl in HL; lia).
  destruct (h_children_step _ _ _ _ _ L1 E2 J1) as (J2 & X2 & V2).
  assert (good hp2 [] [TAttr 0 "deprecated" (RVal (Some (DScalar TStr))) true true (Ok a1); TChildren 0 r2]) as G2.
  { constructor; [by eapply event_mono|]. constructor; [done|constructor]. }
  destruct r2 as [hs|ex|]; try (intros [= <- <- <-]; split; [done|by apply X2, X1]). destruct (parse_each _ _ _ n hp2 hs) as [[hp3 l3] r3] eqn:E3. intros [= <- <- <-].
  destruct (parse_each_sound _ _ _ _ _ _ _ E3 J2) as (J3 & X3 & G3). split; [|by apply X3, X2, X1].
  apply (good_app _ [] [_; _] l3); [by eapply good_mono|done].
Qed.
(** Every event of the record is in order; in particular every accepted action was read completely. *)
Lemma description_events n el hp' l r l1 t l2 : parse_description yaml methods construct n (new_ent el) = (hp', l, r) -> l = l1 ++ t :: l2 -> event_ok hp' l1 t.
Proof. intros [G _]%description_sound ->. by apply good_split in G. Qed.
(** A description is accepted only if all children of the root are. *)
Lemma description_children n el hp' l acts : parse_description yaml methods construct n (new_ent el) = (hp', l, Ok acts) ->
  exists hs ks, kids_of el ks /\ map (elems hp') hs = map Some ks /\ length acts = length ks /\ forall h, In h hs -> In (TAccepted h) l.
Proof.
  intros E. destruct (description_sound _ _ _ _ _ E) as [G H0]. revert E. rewrite /parse_description. destruct (negb _); [done|].
  destruct (h_get _ _ _ _ _ _ _) as [hp1 r1] eqn:E1. destruct r1 as [a1|ex|]; try done. destruct (h_children hp1 0) as [hp2 r2] eqn:E2. destruct r2 as [hs|ex|]; try done.
  destruct (parse_each _ _ _ n hp2 hs) as [[hp3 l3] r3] eqn:E3. intros [= <- <- ->]. destruct (parse_each_accepts _ _ _ _ _ _ E3) as [HA HL].
  pose proof (good_split _ [] [_] _ _ G) as (e & He & Hk). rewrite H0 in He. injection He as <-. destruct (Hk hs eq_refl) as (ks & H1 & H2).
  exists hs, ks. split; [done|]. split; [done|]. split. { rewrite HL. pose proof (f_equal length H2) as HH. by rewrite !map_length in HH. }
  intros h Hh. right. right. by apply HA.
Qed.
(** Exactly what was read decides. *)
Lemma accept_iff n el m hp1 l k : methods (type_name (new_ent el)) = Some m ->
  run_with yaml (parse_action yaml methods construct n) [0%nat] [new_ent el] (m 0%nat) = (hp1, l, Ok k) ->
  (all_read l 0 el -> parse_action yaml methods construct (S n) [new_ent el] 0 = (hp1, l ++ [TAccepted 0], construct k))
  /\ (~ all_read l 0 el -> exists e, parse_action yaml methods construct (S n) [new_ent el] 0 = (hp1, l, Exn e)).
Proof.
  intros Hm E. destruct (run_sound _ _ (parse_action_sound n) _ _ _ _ _ [] E (J_new el)) as (HJ & HX & _). cbn [app] in HJ.
  assert (elems hp1 0 = Some el) as H0 by (apply HX; by destruct el). revert H0. rewrite /elems. destruct (hp1 !! 0%nat) as [e1|] eqn:E1; [|done]. intros [= He].
  assert (forall X (x : X) r, parse_action yaml methods construct (S n) [new_ent el] 0 = r <->
     match e_assert e1 with Ok _ => (hp1, l ++ [TAccepted 0], construct k) | Exn e => (hp1, l, Exn e) | OutOfFuel => (hp1, l, OutOfFuel) end = r) as HP.
  { intros X x r. cbn [parse_action]. rewrite /act_with. cbn [lookup list_lookup]. rewrite Hm E /h_assert E1. done. }
  pose proof (assert_iff l 0 e1 (proj2 HJ _ _ E1)) as HA. rewrite He in HA. split.
  - intros Hr. apply (HP _ tt). apply HA in Hr. by rewrite Hr.
  - intros Hr. destruct (e_assert e1) as [[]|ex|] eqn:Ea; [by destruct Hr; apply HA|exists ex; by apply (HP _ tt)|].
    revert Ea. destruct e1 as [x|y]; cbn [e_assert]; [rewrite /x_assert; by repeat case_match|rewrite /y_assert; by repeat case_match].
Qed.
End run.

(** ** Choice of a parser *)
Section parsers.
Context {R : Type}.
Implicit Types (ps l : list (fparser R)).
Lemma attempts_cons p l pos : attempts (p :: l) pos = (fp_id p, pos) :: attempts l 0.
Proof. rewrite /attempts imap_cons /=. f_equal. apply imap_ext. intros i x _. simpl. by destruct i. Qed.
Lemma try_spec l pos att out : try_each l pos = (att, out) ->
  match out with
  | Ok r => exists l1 p l2, l = l1 ++ p :: l2 /\ att = attempts (l1 ++ [p]) pos /\ (forall i q, l1 !! i = Some q -> fails q (pos_at pos i)) /\ fp_load p (pos_at pos (length l1)) = Ok r
  | Exn _ => att = attempts l pos /\ (forall i q, l !! i = Some q -> fails q (pos_at pos i))
  | OutOfFuel => exists p pos, In p l /\ fp_load p pos = OutOfFuel
  end.
Proof.
  revert pos att. induction l as [|p l IH]; intros pos att; cbn [try_each]; [by intros [= <- <-]|].
  destruct (fp_load p pos) as [r|e|] eqn:Ep.
  - intros [= <- <-]. exists [], p, l. done.
  - destruct (try_each l 0) as [a out'] eqn:Et. intros [= <- <-]. specialize (IH _ _ Et). destruct out' as [r|e'|].
    + destruct IH as (l1 & q & l2 & -> & -> & Hf & Hq). exists (p :: l1), q, l2. split; [done|]. split; [by rewrite /= attempts_cons|]. split.
      * intros [|i] q' Hi; [injection Hi as <-; by exists e|]. simpl. destruct (Hf i q' Hi) as [e' He]. exists e'. by destruct i.
      * simpl. by destruct l1.
    + destruct IH as [-> Hf]. split; [by rewrite attempts_cons|]. intros [|i] q' Hi; [injection Hi as <-; by exists e|]. simpl. destruct (Hf i q' Hi) as [e2 He]. exists e2. by destruct i.
    + destruct IH as (q & x & Hq & E). exists q, x. split; [by right|done].
  - intros [= <- <-]. exists p, pos. split; [by left|done].
Qed.
Lemma ends_with_iff x y : ends_with x y = true <-> exists pre, y = (pre ++ x)%string.
Proof.
  rewrite /ends_with. split.
  - destruct (_ <=? _)%nat eqn:El; [|done]. apply Nat.leb_le in El. intros E%String.eqb_eq.
    assert (forall n t, (n <= String.length t)%nat -> exists pre, t = (pre ++ drop_str n t)%string) as HD.
    { induction n as [|n IH]; intros t Hn; [by exists ""%string|]. destruct t as [|c t]; simpl in Hn; [lia|].
      destruct (IH t) as [pre Hp]; [lia|]. exists (String c pre). by rewrite {1}Hp. }
    destruct (HD (String.length y - String.length x)%nat y) as [pre Hp]; [lia|]. exists pre. by rewrite {1}Hp E.
  - intros [pre ->]. assert (forall t u, String.length (t ++ u) = (String.length t + String.length u)%nat) as HL.
    { intros t u. induction t as [|c t IH]; [done|]. simpl. by rewrite IH. }
    rewrite HL. assert ((String.length x <=? String.length pre + String.length x)%nat = true) as -> by (apply Nat.leb_le; lia).
    apply String.eqb_eq. replace (String.length pre + String.length x - String.length x)%nat with (String.length pre) by lia.
    clear. induction pre as [|c pre IH]; [by destruct x|done].
Qed.
Lemma may_parse_iff (p : fparser R) f : may_parse p f = true <-> for_extension p f.
Proof.
  rewrite /may_parse existsb_exists. split.
  - intros (e & He & (pre & ->)%ends_with_iff). by exists e, pre.
  - intros (e & pre & He & ->). exists e. split; [done|]. apply ends_with_iff. by exists pre.
Qed.
Lemma implementations_order ps f : NoDup (map fp_id ps) -> tried_order ps (implementations ps f) f.
Proof.
  intros Hn. exists (fun p => may_parse p f). eexists _, _. split; [done|]. split; [intros p; apply may_parse_iff|]. split; [done|]. apply List.filter_ext_in. intros p Hp. f_equal.
  destruct (may_parse p f) eqn:Em.
  - apply existsb_exists. exists p. split; [by apply filter_In|by apply Nat.eqb_eq].
  - destruct (existsb _ _) eqn:E; [|done]. apply existsb_exists in E as (q & [Hq Hm]%filter_In & Eid%Nat.eqb_eq).
    assert (p = q) as ->; [|congruence]. revert Hn Hp Hq Eid. clear. induction ps as [|x ps IH]; [done|]. cbn [map]. intros [Hx Hn]%NoDup_cons [<-|Hp] [<-|Hq] E; try done.
    + destruct Hx. rewrite E. apply elem_of_list_In, in_map. done.
    + destruct Hx. rewrite -E. apply elem_of_list_In, in_map. done.
    + by apply IH.
Qed.
Lemma order_perm ps l f : tried_order ps l f -> Permutation l ps.
Proof.
  intros (fits & m & o & -> & _ & -> & ->). induction ps as [|p ps IH]; [done|]. simpl. destruct (fits p); simpl; [by constructor|].
  rewrite -Permutation_middle. by constructor.
Qed.
Lemma attempts_ids l pos : map fst (attempts l pos) = map fp_id l.
Proof. revert pos. induction l as [|p l IH]; intros pos; [done|]. rewrite attempts_cons /=. by rewrite IH. Qed.
Lemma load_spec ps f pos att out : NoDup (map fp_id ps) -> load ps f pos = (att, out) ->
  exists order, tried_order ps order f /\ NoDup (map fst att) /\
  match out with
  | Ok r => exists l1 p l2, order = l1 ++ p :: l2 /\ att = attempts (l1 ++ [p]) pos /\ (forall i q, l1 !! i = Some q -> fails q (pos_at pos i)) /\ fp_load p (pos_at pos (length l1)) = Ok r
  | Exn _ => att = attempts order pos /\ (forall i q, order !! i = Some q -> fails q (pos_at pos i))
  | OutOfFuel => exists p pos, In p ps /\ fp_load p pos = OutOfFuel
  end.
Proof.
  intros Hn E. pose proof (implementations_order ps f Hn) as Ho. exists (implementations ps f). split; [done|]. rewrite /load in E.
  pose proof (order_perm _ _ _ Ho) as Hp. assert (NoDup (map fp_id (implementations ps f))) as Hd.
  { eapply NoDup_Permutation_proper; [|exact Hn]. by apply Permutation_map. }
  assert (exists l1 l2, implementations ps f = l1 ++ l2 /\ map fst att = map fp_id l1) as (l1 & l2 & El & Ea).
  { clear -E. revert E. generalize (implementations ps f) pos. intros l. revert att. induction l as [|p l IH]; intros att pos0; cbn [try_each]; [intros [= <- <-]; by exists [], []|].
    destruct (fp_load p pos0); try (intros [= <- <-]; by exists [p], l). destruct (try_each l 0) as [a o] eqn:Et. intros [= <- <-]. destruct (IH _ _ Et) as (l1 & l2 & -> & H).
    exists (p :: l1), l2. split; [done|]. simpl. by rewrite H. }
  split. { rewrite Ea. rewrite El map_app in Hd. by apply NoDup_app in Hd as [? _]. }
  apply try_spec in E. destruct out as [r|e|]; [done|done|]. destruct E as (p & x & Hin & Hx). exists p, x. split; [|done]. by eapply Permutation_in.
Qed.
Lemma dup_refuted : exists (ps : list (fparser unit)) f att out, load ps f 0 = (att, out) /\ ~ NoDup (map fst att).
Proof.
  exists [FParser 0 ["xml"] (fun _ => Exn XValue); FParser 0 ["xml"] (fun _ => Exn XValue)], "a.xml". eexists _, _. split; [vm_compute; reflexivity|].
  intros H. apply NoDup_cons in H as [H _]. apply H. by left.
Qed.
End parsers.

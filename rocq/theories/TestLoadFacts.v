(** Lemmas about loading launch tests. *)
From Coq Require Import ssreflect Permutation.
From Verif Require Import ExposedFacts LaunchPytestFacts SpecTestLoad.

Lemma mem_iff k l : existsb (String.eqb k) l = true <-> In k l.
Proof. rewrite existsb_exists. split; [intros (x & H & E); apply String.eqb_eq in E; by subst|intros H; exists k; split; [done|apply String.eqb_refl]]. Qed.
Section facts.
Context {V : Type}.
Implicit Types (d l : @pdict V) (names : list string) (vals : list V).
Lemma dget_maps d k v : dget k d = Some v <-> maps d k v.
Proof.
  split.
  - induction d as [|[k' v'] d IH]; [done|]. cbn [dget]. destruct (String.eqb_spec k k') as [<-|Hn].
    + intros [= <-]. exists [], d. split; [done|intros []].
    + intros H. destruct (IH H) as (a & b & -> & Ha). exists ((k', v') :: a), b. split; [done|]. cbn. intros [?|?]; [congruence|done].
  - intros (a & b & -> & Ha). induction a as [|[k' v'] a IH]; cbn [app dget]; [by rewrite String.eqb_refl|]. destruct (String.eqb_spec k k') as [<-|Hn]; [exfalso; apply Ha; by left|]. apply IH. intros ?. apply Ha. by right.
Qed.
Lemma dget_none d k : dget k d = None <-> ~ In k (map fst d).
Proof.
  induction d as [|[k' v'] d IH]; cbn [dget map fst]; [split; [intros _ []|done]|]. destruct (String.eqb_spec k k') as [<-|Hn]; [split; [done|intros H; exfalso; apply H; by left]|].
  rewrite IH. cbn. split; [intros H [?|?]; [congruence|done]|intros H ?; apply H; by right].
Qed.
Lemma dget_in d k : In k (map fst d) <-> exists v, dget k d = Some v.
Proof. destruct (dget k d) as [v|] eqn:E; [split; [eauto|intros _]|split; [intros H; by apply dget_none in E|intros [? ?]; done]]. apply dget_maps in E as (a & b & -> & _). rewrite map_app. apply in_or_app. right. by left. Qed.
Lemma dget_dset d k k' v : dget k (dset k' v d) = if String.eqb k k' then Some v else dget k d.
Proof.
  induction d as [|[k1 v1] d IH]; [done|]. cbn [dset]. destruct (String.eqb_spec k' k1) as [<-|Hn]; cbn [dget]; [by destruct (String.eqb k k')|]. rewrite IH. destruct (String.eqb_spec k k1) as [<-|]; [|done]. by destruct (String.eqb_spec k k') as [<-|].
Qed.
Lemma dget_app d l k : dget k (d ++ l) = match dget k d with Some v => Some v | None => dget k l end.
Proof. induction d as [|[k' v'] d IH]; [done|]. cbn [app dget]. by destruct (String.eqb k k'). Qed.
Lemma dget_dupdate l d k : dget k (dupdate d l) = match dget k (rev l) with Some v => Some v | None => dget k d end.
Proof.
  rewrite /dupdate. induction l as [|[k' v'] l IH] using rev_ind; [done|]. rewrite fold_left_app rev_app_distr. cbn [fold_left rev app fst snd dget]. rewrite dget_dset IH. by destruct (String.eqb k k').
Qed.
Lemma dset_keys d k v : map fst (dset k v d) = if existsb (String.eqb k) (map fst d) then map fst d else map fst d ++ [k].
Proof.
  induction d as [|[k' v'] d IH]; [done|]. cbn [dset map fst existsb]. destruct (String.eqb_spec k k') as [<-|Hn]; [done|]. cbn [map fst orb]. rewrite IH. by destruct (existsb _ _).
Qed.
Lemma dupdate_keys l d : List.NoDup (map fst d) -> List.NoDup (map fst (dupdate d l)).
Proof.
  revert d. induction l as [|[k v] l IH]; intros d Hd; [done|]. apply (IH (dset k v d)). rewrite dset_keys. destruct (existsb _ _) eqn:E; [done|].
  apply (Permutation_NoDup (Permutation_cons_append (map fst d) k)). constructor; [|done]. intros H. apply mem_iff in H. congruence.
Qed.
Lemma dupdate_fresh l d : List.NoDup (map fst (d ++ l)) -> dupdate d l = d ++ l.
Proof.
  revert d. induction l as [|[k v] l IH]; intros d Hd; [by rewrite app_nil_r|]. change (dupdate (dset k v d) l = d ++ (k, v) :: l).
  assert (E : dset k v d = d ++ [(k, v)]).
  { clear IH. rewrite map_app in Hd. cbn in Hd. apply NoDup_remove_2 in Hd. induction d as [|[k' v'] d IH]; [done|]. cbn [dset app]. destruct (String.eqb_spec k k') as [<-|Hn]; [exfalso; apply Hd; by left|]. f_equal. apply IH. intros H. apply Hd. by right. }
  rewrite E IH -app_assoc //.
Qed.
Lemma combine_get names : forall vals n v, dget n (rev (combine names vals)) = Some v <-> pairs names vals n v.
Proof.
  induction names as [|n0 names IH]; intros vals n v; [split; [done|intros (i & H & _); by destruct i]|].
  destruct vals as [|v0 vals]; [split; [done|intros (i & _ & H & _); by destruct i]|]. cbn [combine rev]. rewrite dget_app. split.
  - destruct (dget n (rev (combine names vals))) as [w|] eqn:E.
    + intros [= <-]. apply IH in E as (i & H1 & H2 & H3). exists (S i). split_and!; [done..|]. intros [|j] Hj; [lia|]. apply H3. lia.
    + cbn [dget]. destruct (String.eqb_spec n n0) as [<-|]; [|done]. intros [= <-]. exists 0. split_and!; [done..|]. intros [|j] Hj Hn; [lia|]. cbn in Hn |- *. destruct (nth_error vals j) as [w|] eqn:Ew; [|done]. exfalso.
      apply dget_none in E. apply E. apply in_map_iff. exists (n, w). split; [done|]. rewrite -in_rev. clear -Hn Ew. revert vals j Hn Ew. induction names as [|a names IH]; intros vals j Hn Ew; [by destruct j|]. destruct vals as [|b vals]; [by destruct j|]. destruct j as [|j]; cbn in Hn, Ew; [injection Hn as ->; injection Ew as ->; by left|right; by apply (IH vals j)].
  - intros (i & H1 & H2 & H3). destruct i as [|i].
    + cbn in H1, H2. injection H1 as ->. injection H2 as ->. assert (E : dget n (rev (combine names vals)) = None).
      { destruct (dget n (rev (combine names vals))) as [w|] eqn:E; [|done]. apply IH in E as (j & Hj1 & Hj2 & _). specialize (H3 (S j)). cbn in H3. rewrite H3 in Hj2; [lia|done|done]. }
      rewrite E /= String.eqb_refl //.
    + assert (E : dget n (rev (combine names vals)) = Some v); [|by rewrite E]. apply IH. exists i. split_and!; [done..|]. intros j Hj. apply (H3 (S j)). lia.
Qed.
Lemma args_iff names vals n v : maps (dupdate [] (combine names vals)) n v <-> pairs names vals n v.
Proof. rewrite -dget_maps dget_dupdate -combine_get. by destruct (dget n (rev (combine names vals))). Qed.
Lemma pairs_nodup names vals n v : List.NoDup names -> (pairs names vals n v <-> exists i, nth_error names i = Some n /\ nth_error vals i = Some v).
Proof.
  intros Hn. split; [intros (i & H1 & H2 & _); eauto|]. intros (i & H1 & H2). exists i. split_and!; [done..|]. intros j Hj H. exfalso. assert (i = j); [|lia]. apply (proj1 (NoDup_nth_error names) Hn); [|congruence]. apply nth_error_Some. congruence.
Qed.
(** Decorators *)
Lemma names_iff t names : arg_names t = names <-> names_in t names.
Proof. rewrite /arg_names /names_in. split; [intros <-; eexists; split; [by apply module_names_iff|done]|]. intros (all & H & ->). apply module_names_iff in H. by rewrite H. Qed.
Lemma decorated_app (f : func V) cs c : decorated f (cs ++ [c]) = decorate c (decorated f cs).
Proof. by rewrite /decorated fold_left_app. Qed.
Lemma attrs_set a (x : desc V) : attrs_of (set_attrs a x) = a.
Proof. by destruct x. Qed.
Lemma attrs_keep (f : func V) cs : da_keep (attrs_of (decorated f cs)) = true <-> In KKeepAlive cs.
Proof.
  induction cs as [|c cs IH] using rev_ind; [split; [done|intros []]|]. rewrite decorated_app in_app_iff -IH. destruct c; cbn [decorate]; rewrite ?attrs_set; cbn [da_keep attrs_of In]; intuition congruence.
Qed.
Lemma attrs_timeout (f : func V) cs : last_timeout cs (match da_timeout (attrs_of (decorated f cs)) with Some n => n | None => 15 end) /\ (da_timeout (attrs_of (decorated f cs)) = None -> forall m, ~ In (KTimeout m) cs).
Proof.
  induction cs as [|c cs [IH1 IH2]] using rev_ind; [split; [apply lt_default; intros m []|intros _ m []]|]. rewrite decorated_app.
  assert (Hc : forall x, da_timeout (attrs_of (decorate c (decorated f cs))) = x -> (x = da_timeout (attrs_of (decorated f cs)) /\ forall m, c <> KTimeout m) \/ exists n, c = KTimeout n /\ x = Some n).
  { intros x <-. destruct c as [n| |a vs]; cbn [decorate]; rewrite ?attrs_set; cbn [da_timeout attrs_of]; [right; eauto|by left|by left]. }
  destruct (Hc _ eq_refl) as [[-> Hm]|(n & -> & ->)].
  - split; [|intros H m Hi; apply in_app_or in Hi as [Hi|[Hi|[]]]; [by apply (IH2 H m)|by apply (Hm m)]]. clear Hc IH2. revert IH1. generalize (match da_timeout (attrs_of (decorated f cs)) with Some n => n | None => 15 end). intros q IH1. destruct IH1 as [a n b Hb|cs' Hn].
    + rewrite -app_assoc. cbn [app]. constructor. intros m Hi. apply in_app_or in Hi as [Hi|[Hi|[]]]; [by apply (Hb m)|by apply (Hm m)].
    + constructor. intros m Hi. apply in_app_or in Hi as [Hi|[Hi|[]]]; [by apply (Hn m)|by apply (Hm m)].
  - split; [|done]. apply (lt_given cs n []). intros m [].
Qed.
Lemma last_timeout_unique cs n m : @last_timeout V cs n -> last_timeout cs m -> n = m.
Proof.
  assert (H : forall a b n a' b' m, (forall k, ~ In (KTimeout k) b) -> (forall k, ~ In (KTimeout k) b') -> a ++ @KTimeout V n :: b = a' ++ KTimeout m :: b' -> n = m).
  { clear. induction a as [|x a IH]; intros b n a' b' m Hb Hb' E; destruct a' as [|x' a']; cbn in E; injection E; intros.
    - done.
    - exfalso. apply (Hb m). subst. apply in_or_app. right. by left.
    - exfalso. apply (Hb' n). subst. apply in_or_app. right. by left.
    - by apply (IH b n a' b' m). }
  intros H1 H2. destruct H1 as [a n b Hb|cs Hn].
  - inversion H2 as [a' m' b' Hb' E1 E2|? Hm E1 E2]; subst; [by apply (H a b n a' b' m)|]. exfalso. apply (Hm n). apply in_or_app. right. by left.
  - inversion H2 as [a' m' b' Hb' E1 E2|? Hm E1 E2]; subst; [|done]. exfalso. apply (Hn m). apply in_or_app. right. by left.
Qed.
Lemma decorate_above (f : func V) below p above : (forall a vs, ~ In (KParametrize a vs) above) -> exists own,
  decorated f (below ++ KParametrize (fst p) (snd p) :: above) = DParam own (decorated f below) (arg_names (fst p)) (map to_tuple (snd p)).
Proof.
  induction above as [|c above IH] using rev_ind; intros Hn.
  - rewrite decorated_app. eexists. reflexivity.
  - change (KParametrize (fst p) (snd p) :: above ++ [c]) with ((KParametrize (fst p) (snd p) :: above) ++ [c]). rewrite app_assoc decorated_app.
    destruct IH as [own ->]; [intros a vs Hi; apply (Hn a vs), in_or_app; by left|]. destruct c as [n| |a vs]; [eexists; reflexivity|eexists; reflexivity|]. exfalso. apply (Hn a vs), in_or_app. right. by left.
Qed.
Lemma decorated_plain (f : func V) cs : plain cs -> exists a, decorated f cs = DFun a f.
Proof.
  induction cs as [|c cs IH] using rev_ind; intros Hn; [by eexists|]. rewrite decorated_app. destruct IH as [a ->]; [intros ? ? ?; eapply Hn, in_or_app; by left|].
  destruct c as [n| |x vs]; [by eexists|by eexists|]. exfalso. apply (Hn x vs), in_or_app. right. by left.
Qed.
(** Calls *)
Lemma fill_called (ps : list (fparam V)) kw args : fill ps kw = Some args <-> called ps (maps kw) args.
Proof.
  rewrite /called. revert args. induction ps as [|p ps IH]; intros args; cbn [fill]; [split; [intros [= <-]; constructor|inversion 1; done]|]. split.
  - destruct (match dget (fp_name p) kw with Some v => Some v | None => fp_default p end) as [v|] eqn:E; [|done]. destruct (fill ps kw) as [d|]; [|done]. intros [= <-]. constructor; [|by apply IH]. split; [done|]. cbn [snd].
    destruct (dget (fp_name p) kw) as [w|] eqn:Ew; [injection E as ->; left; by apply dget_maps|right; split; [|done]]. intros w Hw. apply dget_maps in Hw. congruence.
  - inversion 1 as [|? [k v] ? d [Hk Hv] Hd]; subst. cbn in Hk, Hv. subst k. apply IH in Hd as ->. destruct Hv as [Hv|[Hn Hv]].
    + apply dget_maps in Hv as ->. done.
    + destruct (dget (fp_name p) kw) as [w|] eqn:Ew; [exfalso; apply dget_maps in Ew; by apply (Hn w)|]. by rewrite Hv.
Qed.
Lemma fill_some (ps : list (fparam V)) kw : (forall p, In p ps -> In (fp_name p) (map fst kw)) -> exists args, fill ps kw = Some args.
Proof.
  induction ps as [|p ps IH]; intros H; [by eexists|]. cbn [fill]. destruct IH as [d ->]; [intros; apply H; by right|]. destruct (proj1 (dget_in kw (fp_name p)) (H p (or_introl eq_refl))) as [v ->]. by eexists.
Qed.
Lemma no_others (ps : list (fparam V)) kw : (forall k, In k (map fst kw) -> In k (map fp_name ps)) -> List.filter (fun kv : string * V => negb (existsb (String.eqb (fst kv)) (map fp_name ps))) kw = [].
Proof.
  induction kw as [|[k v] kw IH]; intros H; [done|]. cbn [List.filter fst]. rewrite (proj2 (mem_iff k _)); [apply H; by left|]. cbn [negb]. apply IH. intros; apply H; by right.
Qed.
Lemma others_none (ps : list (fparam V)) kw : List.filter (fun kv : string * V => negb (existsb (String.eqb (fst kv)) (map fp_name ps))) kw = [] -> forall k, In k (map fst kw) -> In k (map fp_name ps).
Proof.
  induction kw as [|[k v] kw IH]; [intros _ k []|]. cbn [List.filter fst]. destruct (existsb _ _) eqn:E; [|done]. cbn [negb]. intros H k' [<-|Hk]; [by apply mem_iff|by apply IH].
Qed.
Lemma validate_fun a (f : func V) kw : validate_run (DFun a f, kw) = Ok tt <-> forall n, In n (map fp_name (fn_params f)) <-> In n (map fst kw).
Proof.
  rewrite /validate_run. cbn [fst snd base_fn can_call]. rewrite /dmem. split.
  - destruct (forallb _ (map fst kw)) eqn:E1; [|done]. destruct (forallb _ (map fp_name (fn_params f))) eqn:E2; [|done]. intros _ n. rewrite forallb_forall in E1. rewrite forallb_forall in E2. split; intros H; [apply E2 in H|apply E1 in H]; by apply mem_iff in H.
  - intros H. rewrite (proj2 (forallb_forall _ _)); [intros k Hk; by apply mem_iff, H|]. rewrite (proj2 (forallb_forall _ (map fp_name (fn_params f)))); [intros k Hk; by apply mem_iff, H|].
    rewrite /bind_call. destruct (fill_some (fn_params f) kw) as [args ->]; [intros p Hp; apply H; by apply in_map|]. rewrite no_others; [intros k; apply H|]. by rewrite orb_true_r.
Qed.
Lemma call_fun a (f : func V) kw : (forall n, In n (map fp_name (fn_params f)) <-> In n (map fst kw)) -> exists args, call (DFun a f) kw = fn_body f args /\ called (fn_params f) (maps kw) args.
Proof.
  intros H. cbn [call]. rewrite /bind_call. destruct (fill_some (fn_params f) kw) as [args E]; [intros p Hp; apply H; by apply in_map|]. rewrite E no_others; [intros k; apply H|]. rewrite orb_true_r app_nil_r. exists args. split; [done|by apply fill_called].
Qed.
Lemma validate_all (rs : list (desc V * @pdict V)) : validate rs = Ok tt <-> forall r, In r rs -> validate_run r = Ok tt.
Proof.
  induction rs as [|r rs IH]; [split; [intros _ r []|done]|]. cbn [validate]. destruct (validate_run r) as [[]| |] eqn:E.
  - rewrite IH. split; [intros H r' [<-|Hr]; [done|by apply H]|intros H r' Hr; apply H; by right].
  - split; [done|]. intros H. rewrite (H r (or_introl eq_refl)) in E. done.
  - split; [done|]. intros H. rewrite (H r (or_introl eq_refl)) in E. done.
Qed.
Lemma keys_pairs names vals n : In n (map fst (dupdate [] (combine names vals))) <-> exists v, pairs names vals n v.
Proof. rewrite dget_in. split; intros [v H]; exists v; [apply args_iff; by apply dget_maps|apply dget_maps; by apply args_iff]. Qed.
(** Test classes *)
Lemma marked_iff : forall c : tclass V, marked c = true <-> post_class c.
Proof.
  fix IH 1. intros [i m b ts]. cbn [marked]. destruct m; [split; [intros _; constructor|done]|]. destruct b as [c|].
  - rewrite (IH c). split; [intros; by constructor|]. inversion 1; by subst.
  - split; [done|]. inversion 1.
Qed.
Lemma tests_iff post (cs : list (tclass V)) m : In m (load_tests post cs) <-> exists c, In c cs /\ In m (class_tests c) /\ (post = true <-> post_class c).
Proof.
  rewrite /load_tests. split.
  - intros H. apply in_concat in H as (l & Hl & Hm). apply in_map_iff in Hl as (c & <- & Hc). destruct (Bool.eqb (marked c) post) eqn:E; [|done]. apply eqb_prop in E. exists c. split_and!; [done..|]. by rewrite -marked_iff E.
  - intros (c & Hc & Hm & Hp). apply in_concat. exists (class_tests c). split; [|done]. apply in_map_iff. exists c. split; [|done]. rewrite -marked_iff in Hp. assert (E : marked c = post) by (destruct (marked c), post; intuition congruence). by rewrite E eqb_reflx.
Qed.
Lemma tests_partition (cs : list (tclass V)) : Permutation (load_tests false cs ++ load_tests true cs) (concat (map class_tests cs)).
Proof.
  rewrite /load_tests. induction cs as [|c cs IH]; [done|]. cbn [map concat]. destruct (marked c); cbn [Bool.eqb app].
  - rewrite app_assoc. rewrite (Permutation_app_comm (concat _) (class_tests c)). rewrite -app_assoc. by apply Permutation_app_head.
  - rewrite -app_assoc. by apply Permutation_app_head.
Qed.
(** What is injected *)
Lemma injected_iff post g (ctx args : @pdict V) n v : dget n (injected post g ctx args) = Some v <-> injects (fixed_names post g) (rev args) ctx n v.
Proof.
  rewrite /injected !dget_dupdate.
  assert (Hf : dget n (rev (if post then [("proc_info", gv_info_after g); ("proc_output", gv_output_after g); ("test_args", gv_args g)] else [("launch_service", gv_service g); ("proc_info", gv_info g); ("proc_output", gv_output g); ("test_args", gv_args g)])) = dget n (fixed_names post g)).
  { rewrite /fixed_names. destruct post; cbn [rev app dget];
      destruct (String.eqb_spec n "test_args") as [->|]; [done| |done|]; destruct (String.eqb_spec n "proc_output") as [->|]; [done| |done|]; by destruct (String.eqb_spec n "proc_info") as [->|]. }
  rewrite Hf. destruct (dget n (fixed_names post g)) as [w|] eqn:E1.
  { split; [intros [= <-]; by apply in_fixed, dget_maps|]. intros [H|H _|H _ _]; [apply dget_maps in H; congruence| |]; exfalso; apply H, dget_in; eauto. }
  pose proof (proj1 (dget_none _ _) E1) as H1. destruct (dget n (rev args)) as [w|] eqn:E2.
  { split; [intros [= <-]; by apply in_args, dget_maps|]. intros [H|_ H|_ H _]; [apply dget_maps in H; congruence|apply dget_maps in H; congruence|]; exfalso; apply H, dget_in; eauto. }
  pose proof (proj1 (dget_none _ _) E2) as H2. split; [intros H; apply in_ctx; [done..|by apply dget_maps]|]. intros [H|_ H|_ _ H]; apply dget_maps in H; congruence.
Qed.
Lemma nodup_rev_get d k : List.NoDup (map fst d) -> dget k (rev d) = dget k d.
Proof.
  intros Hn. induction d as [|[k' v'] d IH]; [done|]. cbn [rev dget map fst] in *. inversion Hn as [|? ? Hk Hd]; subst. rewrite dget_app IH //. cbn [dget]. destruct (String.eqb_spec k k') as [<-|]; [by rewrite (proj2 (dget_none d k) Hk)|by destruct (dget k d)].
Qed.
Lemma matching_get (ps : list (fparam V)) ctx k : In k (map fp_name ps) -> dget k (matching ps ctx) = dget k ctx.
Proof.
  intros Hk. rewrite /matching. induction ctx as [|[k' v'] ctx IH]; [done|]. cbn [List.filter fst dget]. destruct (String.eqb_spec k k') as [<-|Hn].
  - rewrite (proj2 (mem_iff k _) Hk). cbn [dget]. by rewrite String.eqb_refl.
  - destruct (existsb _ _); [|done]. cbn [dget]. by destruct (String.eqb_spec k k').
Qed.
Lemma matching_keys (ps : list (fparam V)) ctx k : In k (map fst (matching ps ctx)) -> In k (map fp_name ps).
Proof. rewrite /matching. intros H. apply in_map_iff in H as ([k' v] & <- & H). apply filter_In in H as [_ H]. by apply mem_iff in H. Qed.
Lemma called_ext (ps : list (fparam V)) (s1 s2 : string -> V -> Prop) args : (forall k v, In k (map fp_name ps) -> (s1 k v <-> s2 k v)) -> called ps s1 args -> called ps s2 args.
Proof.
  rewrite /called. intros H HF. induction HF as [|p kv ps args [H1 H2] HF IH]; [constructor|]. constructor; [|apply IH; intros k v Hk; apply H; by right].
  split; [done|]. assert (Hp : forall v, s1 (fp_name p) v <-> s2 (fp_name p) v) by (intros v; apply H; by left). destruct H2 as [H2|[H2 H3]]; [left; by apply Hp|right; split; [|done]]. intros v Hv. by apply (H2 v), Hp.
Qed.
Lemma test_call_iff (ps : list (fparam V)) ctx args : test_call ps ctx = Some args <-> called ps (maps ctx) args.
Proof.
  rewrite /test_call /bind_call no_others; [apply matching_keys|]. cbn [orb].
  assert (He : forall k v, In k (map fp_name ps) -> (maps (matching ps ctx) k v <-> maps ctx k v)) by (intros k v Hk; by rewrite -!dget_maps matching_get).
  split.
  - destruct (fill ps (matching ps ctx)) as [d|] eqn:E; [|done]. rewrite app_nil_r. intros [= <-]. apply fill_called in E. revert E. by apply called_ext.
  - intros H. assert (E : fill ps (matching ps ctx) = Some args); [|by rewrite E app_nil_r]. apply fill_called. revert H. apply called_ext. intros k v Hk. by rewrite He.
Qed.
Lemma test_call_none (ps : list (fparam V)) ctx : test_call ps ctx = None <-> exists p, In p ps /\ fp_default p = None /\ forall v, ~ maps ctx (fp_name p) v.
Proof.
  rewrite /test_call /bind_call no_others; [apply matching_keys|]. cbn [orb].
  assert (H : forall qs, (forall q, In q qs -> In q ps) -> fill qs (matching ps ctx) = None <-> exists p, In p qs /\ fp_default p = None /\ forall v, ~ maps ctx (fp_name p) v).
  { induction qs as [|q qs IH]; intros Hq; [split; [done|intros (? & [] & _)]|]. cbn [fill]. rewrite matching_get; [apply in_map, Hq; by left|]. destruct IH as [IH1 IH2]; [intros; apply Hq; by right|]. split.
    - intros E. destruct (dget (fp_name q) ctx) as [v|] eqn:Ev.
      + destruct (fill qs (matching ps ctx)); [done|]. destruct (IH1 eq_refl) as (p & Hp & H). exists p. split; [by right|done].
      + destruct (fp_default q) as [v|] eqn:Ed; [|exists q; split_and!; [by left|done|]; intros v Hv; apply dget_maps in Hv; congruence]. destruct (fill qs (matching ps ctx)); [done|]. destruct (IH1 eq_refl) as (p & Hp & H). exists p. split; [by right|done].
    - intros (p & [<-|Hp] & Hd & Hn).
      + destruct (dget (fp_name q) ctx) as [v|] eqn:Ev; [exfalso; apply (Hn v); by apply dget_maps|]. by rewrite Hd.
      + rewrite IH2; [by exists p|]. by destruct (dget (fp_name q) ctx), (fp_default q). }
  rewrite -(H ps); [done|]. by destruct (fill ps (matching ps ctx)).
Qed.
End facts.
(** The first ReadyToTest action *)
Fixpoint tsize (e : tent) : nat := let '(TEnt _ _ subs cond) := e in S (list_sum (map tsize subs) + list_sum (map (fun l => list_sum (map tsize l)) cond)).
Definition msize (es : list tent) : nat := list_sum (map tsize es).
Lemma sum_concat (cond : list (list tent)) : list_sum (map (fun l => list_sum (map tsize l)) cond) = msize (concat cond).
Proof. rewrite /msize. induction cond as [|l cond IH]; [done|]. cbn [map concat]. rewrite map_app list_sum_app -IH //. Qed.
Lemma ready_of_ent id r subs cond : ready_actions (TEnt id r subs cond) = (if r then [id] else []) ++ concat (map ready_actions (subs ++ concat cond)).
Proof. cbn [ready_actions]. f_equal. rewrite map_app concat_app. f_equal. induction cond as [|l cond IH]; [done|]. cbn [map concat]. rewrite map_app concat_app IH //. Qed.
Lemma first_iff es a : (exists l, concat (map ready_actions es) = a :: l) <-> first_in es a.
Proof.
  split.
  - remember (msize es) as n eqn:Hn. revert es Hn. induction n as [n IH] using lt_wf_ind. intros [|[id r subs cond] es] -> [l E]; [done|]. cbn [map concat] in E. rewrite ready_of_ent in E. destruct r; [injection E as <- _; constructor|]. cbn [app] in E.
    destruct (concat (map ready_actions (subs ++ concat cond))) as [|b l'] eqn:Es.
    + apply fi_later; [intros b Hb; apply has_ready_iff in Hb; by rewrite Es in Hb|]. apply (IH (msize es)); [|done|by exists l]. rewrite /msize. cbn [map]. cbn [list_sum fold_right tsize]. rewrite /list_sum. lia.
    + injection E as -> _. apply fi_inside. apply (IH (msize (subs ++ concat cond))); [|done|by exists l']. rewrite /msize map_app list_sum_app. cbn [map]. change (list_sum (tsize (TEnt id false subs cond) :: map tsize es)) with (tsize (TEnt id false subs cond) + list_sum (map tsize es)). cbn [tsize]. rewrite sum_concat /msize. lia.
  - induction 1 as [id subs cond es|id subs cond es a H [l IH]|id subs cond es a Hn H [l IH]]; cbn [map concat]; rewrite ready_of_ent.
    + by eexists.
    + rewrite IH. by eexists.
    + assert (E : concat (map ready_actions (subs ++ concat cond)) = []); [|rewrite E IH; by eexists]. destruct (concat (map ready_actions (subs ++ concat cond))) as [|b l'] eqn:E; [done|]. exfalso. apply (Hn b), has_ready_iff. rewrite E. by left.
Qed.

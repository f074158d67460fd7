(** Lemmas about sources of launch descriptions. *)
From Coq Require Import ssreflect Permutation Sorting.Sorted.
From Verif Require Import SpecSources.
From Verif Require StrFacts.

Section source.
Context {D : Type} (expand : nat -> res string) (text : string) (load : nat -> string -> res (option D)).
Notation get := (so_get expand load).
Notation try := (so_try expand load).
Notation use := (so_use expand text load).
Notation uses := (so_uses expand text load).
Lemma get_some c s s' d : get c s = (s', Ok (Some d)) -> so_desc s' = Some d /\ so_loc s' <> None.
Proof.
  rewrite /so_get. destruct (so_loc s) as [l|] eqn:El.
  - destruct (so_desc s) as [d'|] eqn:Ed; [intros [= <- <-]; split; [done|by rewrite El]|]. rewrite /do_load. destruct (load _ l) as [[d'|]| |]; intros [= <- <-]; cbn. split; [done|by rewrite El].
  - destruct (expand c) as [l| |]; [|done|done]. cbn. destruct (so_desc s) as [d'|] eqn:Ed; [by intros [= <- <-]|]. rewrite /do_load. cbn. destruct (load _ l) as [[d'|]| |]; by intros [= <- <-].
Qed.
Lemma settled_use s d l u : so_desc s = Some d -> so_loc s = Some l -> use u s = (s, answer d l u).
Proof. intros Hd Hl. destruct u; cbn; rewrite /so_get /so_try /so_location ?Hl ?Hd; done. Qed.
Lemma settled_uses s d l us : so_desc s = Some d -> so_loc s = Some l -> uses us s = (s, map (answer d l) us).
Proof. intros Hd Hl. induction us as [|u us IH]; [done|]. cbn [so_uses]. by rewrite (settled_use s d l u Hd Hl) IH. Qed.
Lemma get_once c s s' d us : get c s = (s', Ok (Some d)) -> uses us s' = (s', map (answer d (so_location text s')) us).
Proof. intros H. destruct (get_some _ _ _ _ H) as [Hd Hl]. destruct (so_loc s') as [l|] eqn:El; [|done]. rewrite /so_location El. by apply settled_uses. Qed.
(** Description of a state: kept by every use. *)
Lemma use_desc u s s' r d : use u s = (s', r) -> so_desc s = Some d -> so_desc s' = Some d /\ so_loads s' = so_loads s /\ forall d', got r d' -> d' = d.
Proof.
  intros H Hd. rewrite /got. destruct u; cbn in H.
  - destruct (get c s) as [s1 r1] eqn:E. injection H as <- <-. rewrite /so_get Hd in E. destruct (so_loc s); [injection E as <- <-; split_and!; try done; by intros d' [[= ->]|?]|]. destruct (expand c); cbn in E; rewrite ?Hd in E; injection E as <- <-; split_and!; try done; by intros d' [[= ?]|?].
  - destruct (try c s) as [s1 r1] eqn:E. injection H as <- <-. rewrite /so_try Hd in E. injection E as <- <-. split_and!; try done. by intros d' [?|[= ->]].
  - injection H as <- <-. split_and!; try done. by intros d' [|].
Qed.
Lemma uses_desc us : forall s s' rs d, uses us s = (s', rs) -> so_desc s = Some d -> so_desc s' = Some d /\ so_loads s' = so_loads s /\ forall r d', In r rs -> got r d' -> d' = d.
Proof.
  induction us as [|u us IH]; intros s s' rs d; cbn [so_uses]; [intros [= <- <-]; done|]. destruct (use u s) as [s1 r1] eqn:E1. destruct (uses us s1) as [s2 rs2] eqn:E2. intros [= <- <-] Hd.
  destruct (use_desc _ _ _ _ _ E1 Hd) as (Hd1 & Hl1 & Hg1). destruct (IH _ _ _ _ E2 Hd1) as (Hd2 & Hl2 & Hg2). split; [done|]. split; [congruence|]. intros r d' [<-|Hin]; [apply Hg1|by apply Hg2].
Qed.
Lemma use_get_sets u s s' d : use u s = (s', RGet (Ok (Some d))) -> so_desc s' = Some d.
Proof. destruct u; cbn; [|by destruct (try c s)|done]. destruct (get c s) as [s1 r1] eqn:E. intros [= <- ->]. by eapply get_some. Qed.
Lemma gets_same us : forall s s' rs d d', uses us s = (s', rs) -> In (RGet (Ok (Some d))) rs -> In (RGet (Ok (Some d'))) rs -> d = d'.
Proof.
  induction us as [|u us IH]; intros s s' rs d d'; cbn [so_uses]; [by intros [= <- <-]|]. destruct (use u s) as [s1 r1] eqn:E1. destruct (uses us s1) as [s2 rs2] eqn:E2. intros [= <- <-].
  intros [->|H1] [Hx|H2].
  - by injection Hx as ->.
  - apply use_get_sets in E1. destruct (uses_desc _ _ _ _ _ E2 E1) as (_ & _ & Hg). symmetry. eapply Hg; [exact H2|by left].
  - rewrite Hx in E1. apply use_get_sets in E1. destruct (uses_desc _ _ _ _ _ E2 E1) as (_ & _ & Hg). eapply Hg; [exact H1|by left].
  - by eapply IH.
Qed.
(** Locations *)
Definition loc_ok (s : source D) : Prop := forall l, In l (get_loads s) -> so_loc s = Some l.
Lemma get_loc c s s' r : get c s = (s', r) -> so_loc s' = match so_loc s with Some l => Some l | None => match expand c with Ok l => Some l | _ => None end end /\ (loc_ok s -> loc_ok s').
Proof.
  rewrite /so_get. destruct (so_loc s) as [l|] eqn:El.
  - destruct (so_desc s) as [d'|] eqn:Ed; [by intros [= <- <-]|]. rewrite /do_load. cbn. intros H.
    assert (so_loc s' = so_loc s /\ so_loads s' = so_loads s ++ [(true, l)]) as [Hs Hl]. { destruct (load _ l) as [[d'|]| |]; by injection H as <- <-. }
    rewrite Hs El. split; [done|]. intros Hok x Hx. rewrite Hs. rewrite /get_loads Hl List.filter_app map_app in_app_iff in Hx. destruct Hx as [Hx|[<-|[]]]; [by apply Hok|done].
  - destruct (expand c) as [l| |]; [|by intros [= <- <-]|by intros [= <- <-]]. cbn. destruct (so_desc s) as [d'|] eqn:Ed.
    + intros [= <- <-]. cbn. split; [done|]. intros Hok x Hx. cbn in Hx. specialize (Hok x Hx). congruence.
    + rewrite /do_load. cbn. intros H. assert (so_loc s' = Some l /\ so_loads s' = so_loads s ++ [(true, l)]) as [Hs Hl]. { destruct (load _ l) as [[d'|]| |]; by injection H as <- <-. }
      rewrite Hs. split; [done|]. intros Hok x Hx. rewrite Hs. rewrite /get_loads Hl List.filter_app map_app in_app_iff in Hx. destruct Hx as [Hx|[<-|[]]]; [|done]. specialize (Hok x Hx). congruence.
Qed.
Lemma try_keeps c s s' r : try c s = (s', r) -> so_desc s' = so_desc s /\ so_loc s' = so_loc s /\ get_loads s' = get_loads s /\ (so_loads s' = so_loads s \/ exists l, expand c = Ok l /\ so_loads s' = so_loads s ++ [(false, l)]).
Proof.
  rewrite /so_try. destruct (so_desc s) eqn:Ed; [intros [= <- <-]; split_and!; try done; by left|]. destruct (expand c) as [l| |] eqn:Ex; [|intros [= <- <-]; split_and!; try done; by left|intros [= <- <-]; split_and!; try done; by left].
  rewrite /do_load. intros [= <- <-]. cbn. split_and!; try done; [rewrite /get_loads; cbn; rewrite List.filter_app map_app; cbn; by rewrite app_nil_r|]. right. by exists l.
Qed.
Lemma use_loc u s s' r : use u s = (s', r) -> so_loc s' = match so_loc s with Some l => Some l | None => match u with UGet c => match expand c with Ok l => Some l | _ => None end | _ => None end end /\ (loc_ok s -> loc_ok s').
Proof.
  destruct u; cbn.
  - destruct (get c s) as [s1 r1] eqn:E. intros [= <- <-]. by eapply get_loc.
  - destruct (try c s) as [s1 r1] eqn:E. intros [= <- <-]. destruct (try_keeps _ _ _ _ E) as (_ & H & Hg & _). split; [rewrite H; by destruct (so_loc s)|]. rewrite /loc_ok Hg H. done.
  - intros [= <- <-]. split; [by destruct (so_loc s)|done].
Qed.
Lemma uses_loc_ok us : forall s s' rs, uses us s = (s', rs) -> loc_ok s -> loc_ok s'.
Proof.
  induction us as [|u us IH]; intros s s' rs; cbn [so_uses]; [by intros [= <- <-]|]. destruct (use u s) as [s1 r1] eqn:E1. destruct (uses us s1) as [s2 rs2] eqn:E2. intros [= <- <-] H. eapply IH; [exact E2|]. by apply (use_loc _ _ _ _ E1).
Qed.
Lemma uses_loc us : forall s s' rs l, uses us s = (s', rs) -> so_loc s = None ->
  (so_loc s' = Some l <-> exists us1 c us2, us = us1 ++ UGet c :: us2 /\ expand c = Ok l /\ forall c', In (UGet c') us1 -> forall l', expand c' <> Ok l').
Proof.
  induction us as [|u us IH]; intros s s' rs l; cbn [so_uses].
  - intros [= <- <-] ->. split; [done|]. by intros ([|] & ? & ? & ? & _).
  - destruct (use u s) as [s1 r1] eqn:E1. destruct (uses us s1) as [s2 rs2] eqn:E2. intros [= <- <-] Hn. destruct (use_loc _ _ _ _ E1) as [Hl _]. rewrite Hn in Hl.
    assert (forall us s s' rs l, uses us s = (s', rs) -> so_loc s = Some l -> so_loc s' = Some l) as Hkeep.
    { clear. induction us as [|u us IH]; intros s s' rs l; cbn [so_uses]; [by intros [= <- <-]|]. destruct (use u s) as [s1 r1] eqn:E1. destruct (uses us s1) as [s2 rs2] eqn:E2. intros [= <- <-] H. eapply IH; [exact E2|]. destruct (use_loc _ _ _ _ E1) as [-> _]. by rewrite H. }
    destruct (so_loc s1) as [l1|] eqn:El1.
    + rewrite (Hkeep _ _ _ _ _ E2 El1). destruct u as [c| |]; try done. destruct (expand c) as [l0| |] eqn:Ex; try done. injection Hl as ->. split.
      * intros [= ->]. exists [], c, us. done.
      * intros ([|u1 us1] & c' & us2 & [= <- E] & Hx & Hno); [congruence|]. destruct (Hno c (or_introl eq_refl) l0). done.
    + rewrite (IH _ _ _ l E2 El1). assert (forall c, u = UGet c -> forall l', expand c <> Ok l') as Hu. { intros c -> l' Ex. by rewrite Ex in Hl. } split.
      * intros (us1 & c & us2 & -> & Hx & Hno). exists (u :: us1), c, us2. split; [done|]. split; [done|]. intros c' [->|Hin]; [by apply Hu|by apply Hno].
      * intros ([|u1 us1] & c & us2 & E & Hx & Hno); injection E as Eu E; [by destruct (Hu c Eu l)|]. exists us1, c, us2. split; [done|]. split; [done|]. intros c' Hin. apply Hno. by right.
Qed.
(** A source that is given its description. *)
Lemma given_uses d us s rs : uses us (so_new (Some d)) = (s, rs) -> so_loads s = [] /\ forall r, In r rs -> match r with RGet (Ok x) => x = Some d | RTry x => x = Some d | _ => True end.
Proof.
  intros H. destruct (uses_desc us _ _ _ d H eq_refl) as (_ & Hl & _). split; [done|]. clear Hl. revert H. assert (so_desc (so_new (Some d)) = Some d) as Hd by done. revert Hd. generalize (so_new (Some d)) s rs. induction us as [|u us IH]; intros s0 s' rs' Hd; cbn [so_uses]; [by intros [= <- <-]|].
  destruct (use u s0) as [s1 r1] eqn:E1. destruct (uses us s1) as [s2 rs2] eqn:E2. intros [= <- <-]. destruct (use_desc _ _ _ _ _ E1 Hd) as (Hd1 & _ & _). intros r [<-|Hin]; [|by eapply IH].
  destruct u; cbn in E1.
  - destruct (get c s0) as [s3 r3] eqn:E. injection E1 as <- <-. rewrite /so_get Hd in E. destruct (so_loc s0); [by injection E as <- <-|]. destruct (expand c); cbn in E; rewrite ?Hd in E; by injection E as <- <-.
  - destruct (try c s0) as [s3 r3] eqn:E. injection E1 as <- <-. rewrite /so_try Hd in E. by injection E as <- <-.
  - by injection E1 as <- <-.
Qed.
(** Where nothing is given, each get loads again. *)
Lemma get_none c s : so_desc s = None -> (forall n l, load n l = Ok None) -> forall l, (so_loc s = Some l \/ (so_loc s = None /\ expand c = Ok l)) ->
  exists s', get c s = (s', Ok None) /\ so_desc s' = None /\ so_loads s' = so_loads s ++ [(true, l)].
Proof.
  intros Hd HL l [El|[El Ex]]; rewrite /so_get El ?Ex; cbn; rewrite ?Hd; rewrite /do_load; cbn; rewrite HL; by eexists.
Qed.
End source.

(** ** Extensions *)
Lemma without_cons c d s : without c (String d s) <-> c <> d /\ without c s.
Proof.
  split.
  - intros H. split; [intros ->; by apply (H "" s)|]. intros a b ->. by apply (H (String d a) b).
  - intros [H1 H2] [|x a] b; cbn; intros [= ? ?]; subst; [done|by eapply H2].
Qed.
Lemma without_nil c : without c "".
Proof. by intros [|]. Qed.
Lemma without_app c a b : without c (a ++ b) <-> without c a /\ without c b.
Proof. induction a as [|d a IH]; [split; [intros H; split; [apply without_nil|done]|by intros []]|]. change (String d a ++ b)%string with (String d (a ++ b)). rewrite !without_cons IH. tauto. Qed.
Definition dir_end (d : string) : Prop := d = "" \/ exists d', d = (d' ++ "/")%string.
Lemma last_part_law s : forall acc, without "/" acc -> exists dir, (acc ++ s)%string = (dir ++ last_part acc s)%string /\ dir_end dir /\ without "/" (last_part acc s).
Proof.
  induction s as [|c s IH]; intros acc Ha; cbn [last_part].
  - exists "". split; [by rewrite StrFacts.str_app_nil|]. split; [by left|done].
  - destruct (Ascii.eqb_spec c "/") as [->|Hne].
    + destruct (IH "" (without_nil _)) as (dir & E & Hd & Hw). exists (acc ++ String "/" dir)%string. split; [rewrite StrFacts.str_app_assoc; change ("" ++ s)%string with s in E; rewrite {1}E; done|]. split; [|done]. right. destruct Hd as [->|(d' & ->)]; [by exists acc|]. exists (acc ++ String "/" d')%string. by rewrite StrFacts.str_app_assoc.
    + destruct (IH (acc ++ String c "")%string) as (dir & E & Hd & Hw). { apply without_app. split; [done|]. apply without_cons. split; [congruence|apply without_nil]. }
      exists dir. split; [|done]. rewrite -E StrFacts.str_app_assoc. done.
Qed.
Lemma last_part_base acc base : without "/" base -> last_part acc base = (acc ++ base)%string.
Proof. revert acc. induction base as [|c b IH]; intros acc H; cbn [last_part]; [by rewrite StrFacts.str_app_nil|]. apply without_cons in H as [H1 H2]. destruct (Ascii.eqb_spec c "/"); [congruence|]. rewrite IH //. by rewrite StrFacts.str_app_assoc. Qed.
Lemma last_part_dir d base : without "/" base -> forall acc, last_part acc (d ++ String "/" base) = base.
Proof. intros Hb. induction d as [|c d IH]; intros acc. - change ("" ++ String "/" base)%string with (String "/" base). cbn [last_part]. by rewrite last_part_base. - change (String c d ++ String "/" base)%string with (String c (d ++ String "/" base)). cbn [last_part]. destruct (Ascii.eqb c "/"); apply IH. Qed.
Lemma last_part_eq dir base : dir_end dir -> without "/" base -> last_part "" (dir ++ base) = base.
Proof. intros [->|(d & ->)] Hb; [by rewrite last_part_base|]. rewrite StrFacts.str_app_assoc. change ("/" ++ base)%string with (String "/" base). by apply last_part_dir. Qed.
Lemma last_part_idem p : last_part "" (last_part "" p) = last_part "" p.
Proof. destruct (last_part_law p "" (without_nil _)) as (dir & _ & _ & Hw). rewrite last_part_base //. Qed.
Lemma skip_dots_law s : exists dots, s = (dots ++ skip_dots s)%string /\ only_dots dots.
Proof.
  induction s as [|c s (dots & E & Hd)]; [exists ""; split; [done|]; by intros [|]|]. cbn [skip_dots]. destruct (Ascii.eqb_spec c ".") as [->|Hne].
  - exists (String "." dots). split; [rewrite {1}E; done|]. intros [|x a] b d; cbn; intros [= ? ?]; subst; [done|]. by eapply Hd.
  - exists "". split; [done|]. by intros [|].
Qed.
Lemma skip_dots_eq dots c s : only_dots dots -> c <> "."%char -> skip_dots (dots ++ String c s) = String c s.
Proof.
  induction dots as [|d dots IH]; intros Hd Hc.
  - change ("" ++ String c s)%string with (String c s). cbn [skip_dots]. destruct (Ascii.eqb_spec c "."); [congruence|done].
  - change (String d dots ++ String c s)%string with (String d (dots ++ String c s)). cbn [skip_dots]. rewrite (Hd "" dots d eq_refl). cbn. apply IH; [|done]. intros a b e ->. by apply (Hd (String d a) b e).
Qed.
Lemma skip_dots_head s c r : skip_dots s = String c r -> c <> "."%char.
Proof. induction s as [|d s IH]; [done|]. cbn. destruct (Ascii.eqb_spec d "."); [done|]. by intros [= <- <-]. Qed.
Lemma last_dot_none s : last_dot s = None <-> without "." s.
Proof.
  induction s as [|c s IH]; cbn [last_dot]; [split; [intros _; apply without_nil|done]|]. rewrite without_cons -IH. destruct (last_dot s); [split; [done|]; by intros [_ ?]|]. destruct (Ascii.eqb_spec c ".") as [->|Hne]; [split; [done|]; by intros [? _]|]. split; [intros _; split; [congruence|done]|done].
Qed.
Lemma last_dot_law s e : last_dot s = Some e <-> exists a, s = (a ++ String "." e)%string /\ without "." e.
Proof.
  revert e. induction s as [|c s IH]; intros e; cbn [last_dot]; [split; [done|]; by intros ([|] & ? & _)|]. destruct (last_dot s) as [e'|] eqn:E.
  - destruct (proj1 (IH e') eq_refl) as (a & -> & Hw). split.
    + intros [= ->]. by exists (String c a).
    + intros (a' & E' & Hw'). destruct a' as [|x a']; cbn in E'; injection E' as -> E'.
      * exfalso. rewrite -E' in Hw'. by apply (Hw' a e').
      * apply IH. by exists a'.
  - apply last_dot_none in E. split.
    + destruct (Ascii.eqb_spec c ".") as [->|]; [|done]. intros [= ->]. by exists "".
    + intros ([|x a'] & E' & Hw'); cbn in E'; injection E' as -> E'; [by subst|]. exfalso. by apply (E a' e).
Qed.
Lemma extension_law name e : e <> "" -> extension name = e <-> has_ext name e.
Proof.
  intros He. rewrite /extension. split.
  - destruct (last_dot _) as [e'|] eqn:E; [|congruence]. intros ->. apply last_dot_law in E as (a & E & Hw). destruct (last_part_law name "" (without_nil _)) as (dir & En & Hd & Hwd). change ("" ++ name)%string with name in En.
    destruct (skip_dots_law (last_part "" name)) as (dots & Es & Hdots). destruct a as [|c stem]; [by apply skip_dots_head in E|]. exists dir, dots, c, stem. rewrite E in Es. split; [rewrite {1}En Es; done|]. split; [done|]. split; [by rewrite Es in Hwd|]. split; [done|]. split; [by eapply skip_dots_head|done].
  - intros (dir & dots & c & stem & -> & Hd & Hw & Hdots & Hc & Hwe). rewrite last_part_eq // skip_dots_eq //. assert (last_dot (String c (stem ++ String "." e)) = Some e) as HX; [|by rewrite HX]. apply last_dot_law. by exists (String c stem).
Qed.
Lemma extension_base p : extension (last_part "" p) = extension p.
Proof. by rewrite /extension last_part_idem. Qed.

(** ** Any launch file *)
Section any.
Context {D E : Type} (run : loader -> loaded D E) (valid : bool).
Lemma two_loaders ext a b : try_loaders run ext [a; b] [] =
  match run a with
  | LDone d => ([a], ADone d)
  | LExit e => ([a], AExit e)
  | LError e => ([a; b], match run b with LDone d => ADone d | LExit e' => AExit e' | LError e' => AInvalid ext [e; e'] end)
  end.
Proof. cbn. destruct (run a); try done. by destruct (run b). Qed.
End any.

(** ** The registry *)
Lemma ascii_compare a b : Ascii.compare a b = N.compare (N_of_ascii a) (N_of_ascii b).
Proof. done. Qed.
Lemma leb_cons a s b t : String.leb (String a s) (String b t) = true <-> (N_of_ascii a < N_of_ascii b)%N \/ (a = b /\ String.leb s t = true).
Proof.
  rewrite /String.leb. cbn [String.compare]. rewrite ascii_compare. destruct (N.compare_spec (N_of_ascii a) (N_of_ascii b)) as [E|E|E].
  - assert (a = b) as <-. { by rewrite -(ascii_N_embedding a) -(ascii_N_embedding b) E. } split; [by right|]. intros [?|[_ ?]]; [lia|done].
  - split; [by left|done].
  - split; [done|]. intros [?|[-> _]]; lia.
Qed.
Lemma leb_trans s t u : String.leb s t = true -> String.leb t u = true -> String.leb s u = true.
Proof.
  revert t u. induction s as [|a s IH]; intros [|b t] [|c u]; try done. rewrite !leb_cons. intros [H1|[-> H1]] [H2|[-> H2]]; [left; lia|by left|by left|]. right. split; [done|]. by eapply IH.
Qed.
Section registry.
Context {P : Type}.
Implicit Type l : list (string * P).
Definition lt_key (x y : string * P) : Prop := String.leb (fst x) (fst y) = true /\ fst x <> fst y.
Lemma insert_perm (x : string * P) l : Permutation (reg_insert x l) (x :: l).
Proof. induction l as [|y l IH]; [done|]. cbn. destruct (String.leb _ _); [done|]. rewrite IH. constructor. Qed.
Lemma sort_perm l : Permutation (reg_sort l) l.
Proof. induction l as [|x l IH]; [done|]. change (reg_sort (x :: l)) with (reg_insert x (reg_sort l)). by rewrite insert_perm IH. Qed.
Lemma insert_sorted (x : string * P) l : StronglySorted lt_key l -> ~ In (fst x) (map fst l) -> StronglySorted lt_key (reg_insert x l).
Proof.
  induction 1 as [|y l Hs IH Hf]; intros Hn; [repeat constructor|]. cbn in Hn |- *. destruct (String.leb (fst x) (fst y)) eqn:E.
  - assert (lt_key x y) as Hxy. { split; [done|]. intros Hx. apply Hn. by left. }
    constructor; [by constructor|]. apply List.Forall_cons; [done|]. apply List.Forall_forall. intros z Hz. pose proof (proj1 (List.Forall_forall _ _) Hf z Hz) as [Hl _]. split; [by eapply leb_trans|]. intros Hx. apply Hn. right. rewrite Hx. by apply in_map.
  - constructor; [apply IH; intros ?; apply Hn; by right|]. apply List.Forall_forall. intros z Hz. apply (Permutation_in _ (insert_perm x l)) in Hz as [<-|Hz]; [|by apply (proj1 (List.Forall_forall _ _) Hf)].
    split; [destruct (String.leb_total (fst x) (fst y)); congruence|]. intros Hx. apply Hn. by left.
Qed.
Lemma sort_sorted l : List.NoDup (map fst l) -> StronglySorted lt_key (reg_sort l).
Proof.
  induction l as [|x l IH]; intros H; [constructor|]. cbn in H. inversion H as [|? ? Hn H']; subst. change (reg_sort (x :: l)) with (reg_insert x (reg_sort l)). apply insert_sorted; [by apply IH|]. intros Hi. apply Hn. by apply (Permutation_in _ (Permutation_map fst (sort_perm l))).
Qed.
Lemma reg_set_in k v l : List.NoDup (map fst l) -> List.NoDup (map fst (reg_set k v l)) /\ forall k' v', In (k', v') (reg_set k v l) <-> (k' = k /\ v' = v) \/ (k' <> k /\ In (k', v') l).
Proof.
  induction l as [|[a b] l IH]; intros H; cbn.
  - split; [apply List.NoDup_cons; [by intros []|apply List.NoDup_nil]|]. intros k' v'. split; [intros [[= -> ->]|[]]; by left|]. intros [[-> ->]|[_ []]]. by left.
  - cbn in H. inversion H as [|? ? Hn H']; subst. destruct (String.eqb_spec k a) as [->|Hne]; cbn.
    + split; [done|]. intros k' v'. split.
      * intros [[= -> ->]|Hi]; [by left|]. right. split; [intros ->; apply Hn, in_map_iff; by exists (a, v')|by right].
      * intros [[-> ->]|[Hk [[= -> ->]|Hi]]]; [by left|done|by right].
    + destruct (IH H') as [IH1 IH2]. split.
      * constructor; [|done]. intros Hi. apply in_map_iff in Hi as ([k' v'] & Ek & Hi). cbn in Ek. subst k'. apply IH2 in Hi as [[-> _]|[_ Hi]]; [done|]. apply Hn, in_map_iff. by exists (a, v').
      * intros k' v'. rewrite IH2. split.
        -- intros [[= -> ->]|[?|[? ?]]]; [right; split; [congruence|by left]|by left|right; split; [done|by right]].
        -- intros [?|[? [[= -> ->]|?]]]; [by right; left|by left|by right; right].
Qed.
Definition reg_fold (eps : list (string * option P)) : list (string * P) :=
  fold_left (fun l e => match snd e with Some p => reg_set (fst e) p l | None => l end) eps [].
Lemma reg_fold_in eps : List.NoDup (map fst (reg_fold eps)) /\ forall n p, In (n, p) (reg_fold eps) <-> last_entry eps n p.
Proof.
  induction eps as [|[k o] eps [IH1 IH2]] using rev_ind.
  - split; [constructor|]. intros n p. split; [done|]. by intros ([|] & ? & ? & _).
  - rewrite /reg_fold fold_left_app. cbn [fold_left snd fst]. rewrite -/(reg_fold eps).
    assert (forall (l : list (string * option P)) e pre e' post, l ++ [e] = pre ++ e' :: post -> (pre = l /\ e' = e /\ post = []) \/ exists post', post = post' ++ [e] /\ l = pre ++ e' :: post') as HS.
    { intros l e pre e' post H. destruct post as [|y m _] using rev_ind; [apply app_inj_tail in H as [-> ->]; by left|]. right. exists m. rewrite app_comm_cons app_assoc in H. apply app_inj_tail in H as [-> ->]. done. }
    destruct o as [v|].
    + destruct (reg_set_in k v _ IH1) as [H1 H2]. split; [done|]. intros n p. rewrite H2 IH2. split.
      * intros [[-> ->]|[Hk (pre & post & -> & Hno)]]; [exists eps, []; by split; [|intros ? []]|]. exists pre, (post ++ [(k, Some v)]). split; [by rewrite -app_assoc|]. intros q Hi. apply in_app_iff in Hi as [Hi|[[= -> _]|[]]]; [by apply (Hno q)|done].
      * intros (pre & post & E & Hno). apply HS in E as [(-> & [= -> ->] & ->)|(post' & -> & ->)]; [by left|]. right. split; [intros ->; apply (Hno v), in_app_iff; right; by left|]. exists pre, post'. split; [done|]. intros q Hi. apply (Hno q), in_app_iff. by left.
    + split; [done|]. intros n p. rewrite IH2. split.
      * intros (pre & post & -> & Hno). exists pre, (post ++ [(k, None)]). split; [by rewrite -app_assoc|]. intros q Hi. apply in_app_iff in Hi as [Hi|[|[]]]; [by apply (Hno q)|done].
      * intros (pre & post & E & Hno). apply HS in E as [(-> & ? & ->)|(post' & -> & ->)]; [done|]. exists pre, post'. split; [done|]. intros q Hi. apply (Hno q), in_app_iff. by left.
Qed.
Lemma registry_law eps : StronglySorted lt_key (registry eps) /\ forall n p, In (n, p) (registry eps) <-> last_entry eps n p.
Proof.
  destruct (reg_fold_in eps) as [H1 H2]. split; [by apply sort_sorted|]. intros n p. rewrite -H2. split; apply Permutation_in; [apply sort_perm|symmetry; apply sort_perm].
Qed.
Lemma sorted_unique l l' : StronglySorted lt_key l -> StronglySorted lt_key l' -> (forall x, In x l <-> In x l') -> l = l'.
Proof.
  intros H. revert l'. induction H as [|x l Hs IH Hf]; intros l' H' HI.
  - destruct l' as [|y l']; [done|]. by destruct (proj2 (HI y) (or_introl eq_refl)).
  - destruct H' as [|y l' Hs' Hf']; [by destruct (proj1 (HI x) (or_introl eq_refl))|]. rewrite List.Forall_forall in Hf. rewrite List.Forall_forall in Hf'.
    assert (forall a b : string * P, lt_key a b -> lt_key b a -> False) as Hasym. { intros a b [A1 A2] [B1 B2]. apply A2. by apply String.leb_antisym. }
    assert (forall a : string * P, lt_key a a -> False) as Hirr. { by intros a [_ ?]. }
    assert (x = y) as <-.
    { destruct (proj1 (HI x) (or_introl eq_refl)) as [->|Hx]; [done|]. destruct (proj2 (HI y) (or_introl eq_refl)) as [->|Hy]; [done|]. exfalso. eapply Hasym; [by apply Hf|by apply Hf']. }
    f_equal. apply IH; [done|]. intros z. split; intros Hz.
    + destruct (proj1 (HI z) (or_intror Hz)) as [->|?]; [|done]. exfalso. by eapply Hirr, Hf.
    + destruct (proj2 (HI z) (or_intror Hz)) as [->|?]; [|done]. exfalso. by eapply Hirr, Hf'.
Qed.
Lemma registry_perm (eps eps' : list (string * option P)) : Permutation eps eps' -> List.NoDup (map fst eps) -> registry eps = registry eps'.
Proof.
  intros HP HN. destruct (registry_law eps) as [H1 H2], (registry_law eps') as [H1' H2']. apply sorted_unique; [done|done|]. intros [n p]. rewrite H2 H2'.
  assert (forall eps : list (string * option P), List.NoDup (map fst eps) -> last_entry eps n p <-> In (n, Some p) eps) as HL.
  { clear. intros eps HN. split; [intros (pre & post & -> & _); apply in_app_iff; right; by left|]. intros Hi. apply in_split in Hi as (pre & post & ->). exists pre, post. split; [done|]. intros q Hq. rewrite map_app in HN. apply NoDup_remove_2 in HN. apply HN, in_app_iff. right. apply in_map_iff. by exists (n, Some q). }
  rewrite !HL //; [by apply (Permutation_NoDup (Permutation_map fst HP))|]. split; apply Permutation_in; [done|by symmetry].
Qed.
End registry.

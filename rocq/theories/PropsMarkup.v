(** C88: what the elements of markup launch files stand for.  C89: XML and YAML that say the same
    stand for the same. *)
From Coq Require Import ssreflect.
From Verif Require Import SpecSubst SpecMarkup FrontendFacts MarkupFacts MarkupLaws SameFacts.
From Verif Require Import PropsFrontend.

(** ** C88 *)
(** An element becomes an action only if it stands for it: a known tag, a condition, every
    attribute that is required, nothing that is not in the table, children that stand for the
    nested actions. *)
Theorem C88_sound : forall yaml parse_sub construct n hp h el a,
  hp !! h = Some (new_ent el) ->
  snd (parse_action yaml (builtin parse_sub) construct n hp h) = Ok a ->
  stands yaml parse_sub construct el a.
Proof. intros yaml ps c n hp h el a. exact (action_sound yaml ps c n hp h el a). Qed.
Print Assumptions C88_sound.
(** If it stands for an action, then it becomes that action, however deep the nesting. *)
Theorem C88_complete : forall yaml parse_sub construct hp h el a,
  hp !! h = Some (new_ent el) -> stands yaml parse_sub construct el a ->
  exists n0, forall n, (n0 <= n)%nat -> snd (parse_action yaml (builtin parse_sub) construct n hp h) = Ok a.
Proof. intros yaml ps c hp h el a. exact (action_complete yaml ps c hp h el a). Qed.
Print Assumptions C88_complete.
(** It stands for at most one. *)
Theorem C88_one : forall yaml parse_sub construct el a b, stands yaml parse_sub construct el a -> stands yaml parse_sub construct el b -> a = b.
Proof. exact stands_det. Qed.
Print Assumptions C88_one.
(** A file is the list of the actions that the children of its root stand for, in order. *)
Theorem C88_file : forall yaml parse_sub construct el acts,
  (exists n, snd (parse_description yaml (builtin parse_sub) construct n (new_ent el)) = Ok acts) <->
  tag_of el = "launch"%string /\ (~ has_attr el "deprecated" \/ exists s, attr_text yaml el "deprecated" s)
  /\ exists ks, kids_of el ks /\ Forall2 (stands yaml parse_sub construct) ks acts.
Proof.
  intros yaml ps c el acts. split.
  - intros [n Hn]. exact (description_sound yaml ps c n el acts Hn).
  - intros (H1 & H2 & ks & Hk & Ha). destruct (description_complete yaml ps c el acts ks H1 H2 Hk Ha) as [n Hn]. exists n. by apply Hn.
Qed.
Print Assumptions C88_file.
(** More levels change nothing. *)
Theorem C88_levels : forall yaml parse_sub construct n m el acts, (n <= m)%nat ->
  snd (parse_description yaml (builtin parse_sub) construct n (new_ent el)) = Ok acts ->
  snd (parse_description yaml (builtin parse_sub) construct m (new_ent el)) = Ok acts.
Proof.
  intros yaml ps c n m el acts Hle H. apply (description_means yaml ps c n el acts) in H as (H1 & H2 & ks & Hk & Ha).
  apply (description_means yaml ps c m el acts). split; [done|]. split; [done|]. exists ks. split; [done|]. eapply Forall2_impl; [exact Ha|]. intros e a. by apply means_le.
Qed.
Print Assumptions C88_levels.

(** In YAML, elements called keep among the children of a group are dropped, whatever is in them:
    the configurations to keep are a key of their own. *)
Theorem C88_keep_refuted : forall yaml parse_sub construct w a,
  stands yaml parse_sub construct (ElY "group" (YDict [("children", YList [YDict [("keep", w)]])]))%string a <->
  stands yaml parse_sub construct (ElY "group" (YDict [("children", YList [])]))%string a.
Proof.
  intros yaml ps c w a.
  assert (forall l n key r h kw, gives yaml ps (ElY "group" (YDict [("children", YList l)]))%string (Attr n key r h) kw -> n <> "children"%string -> kw = []) as Hg.
  { intros l n key r h kw H Hn. assert (forall t v, ~ attr_val yaml (ElY "group" (YDict [("children", YList l)]))%string n t v) as Hno.
    { intros t v Hv. inversion Hv as [|tag d n' t' w' E1 E2]; subst. simpl in E1. by destruct (String.eqb_spec n "children"). }
    inversion H as [n' k' r' h' kw' Hf| | | | |]; subst; [|done]. exfalso. inversion Hf; subst; by eapply Hno. }
  assert (forall l1 l2 ks1 ks2 b, kids_of (ElY "group" (YDict [("children", YList l1)]))%string ks1 -> kept ButKeep ks1 = [] ->
      kids_of (ElY "group" (YDict [("children", YList l2)]))%string ks2 -> kept ButKeep ks2 = [] ->
      stands yaml ps c (ElY "group" (YDict [("children", YList l1)]))%string b -> stands yaml ps c (ElY "group" (YDict [("children", YList l2)]))%string b) as H.
  { intros l1 l2 ks1 ks2 b Hk1 He1 Hk2 He2 H. inversion H as [el r base kws a' Hr Hk|el r base kws ks acts kws' a' Hr Hk Hb Hb1 Hks Hacts Ha Hne Hc]; subst; [simpl in Hr; injection Hr as <-; done|].
    injection Hr as <-. rewrite (kids_fun _ _ _ Hks Hk1) He1 in Hacts. inversion Hacts; subst.
    assert (forall n, n <> "children"%string -> forall l', ~ has_attr (ElY "group" (YDict [("children", YList l')]))%string n) as Hna. { intros n Hn l' [E|[]]. by subst. }
    assert (base = []) as ->.
    { inversion Hb as [|s l' Ht|s l' Ht]; subst; [done| |]; inversion Ht as [|tag d n' t' w' E1 E2]; subst; done. }
    eapply stands_kids; [reflexivity|done|apply c_none; by apply Hna| |exact Hk2|rewrite [kept _ _]He2; constructor|constructor| |].
    - cbn [r_before] in *. instantiate (1 := [[]; []; []]). constructor; [constructor; by apply Hna|]. constructor; [constructor; by apply Hna|]. constructor; [|constructor]. constructor. by apply Hna.
    - cbn [r_before r_after nothing_else] in *. intros x [<-|[]]. by right.
    - rewrite -Hc. f_equal. inversion Ha; subst. f_equal. cbn [r_before] in Hb1. inversion Hb1 as [|c1 x1 cs1 xs1 G1 Hb2]; subst. inversion Hb2 as [|c2 x2 cs2 xs2 G2 Hb3]; subst. inversion Hb3 as [|c3 x3 cs3 xs3 G3 Hb4]; subst. inversion Hb4; subst.
      rewrite (Hg _ _ _ _ _ _ G1) // (Hg _ _ _ _ _ _ G2) //. inversion G3 as [| |n' key' ks' l' Hn| | |]; subst; [|done]. inversion Hn as [|tag d n'' w' l'' E1]; subst. done. }
  assert (kids_of (ElY "group" (YDict [("children", YList [])]))%string []) as K2 by (eapply ko_dict; [done|constructor]).
  assert (kids_of (ElY "group" (YDict [("children", YList [YDict [("keep", w)]])]))%string [ElY "keep" w]) as K1 by (eapply ko_dict; [done|]; constructor; [by eexists _, _|constructor]).
  split; eapply H; done.
Qed.
Print Assumptions C88_keep_refuted.

(** ** C89 *)
Theorem C89_same : forall yaml parse_sub construct e w a, same yaml e w ->
  (stands yaml parse_sub construct (ElX e) a <-> stands yaml parse_sub construct (ElY (x_tag e) w) a).
Proof. exact stands_same. Qed.
Print Assumptions C89_same.
(** Whole files. *)
Theorem C89_files : forall yaml parse_sub construct kids ws acts, Forall2 (same yaml) kids ws ->
  ((exists n, snd (parse_description yaml (builtin parse_sub) construct n (new_ent (ElX (XElem "launch" [] kids)))) = Ok acts) <->
   (exists n, snd (parse_description yaml (builtin parse_sub) construct n (new_ent (ElY "launch" (YList (map (fun kw => YDict [(x_tag (fst kw), snd kw)]) (combine kids ws)))))) = Ok acts)).
Proof.
  intros yaml ps c kids ws acts Hs. rewrite !C88_file.
  assert (kids_of (ElY "launch" (YList (map (fun kw => YDict [(x_tag (fst kw), snd kw)]) (combine kids ws)))) (map (fun kw => ElY (x_tag (fst kw)) (snd kw)) (combine kids ws))) as Hy.
  { constructor. clear. induction (combine kids ws) as [|[k w] l IH]; simpl; constructor; [by eexists _, _|done]. }
  assert (Forall2 (stands yaml ps c) (map ElX kids) acts <-> Forall2 (stands yaml ps c) (map (fun kw => ElY (x_tag (fst kw)) (snd kw)) (combine kids ws)) acts) as Ha.
  { clear Hy. revert acts. induction Hs as [|k w kids ws Hkw Hs IH]; intros acts; [done|]. simpl. split; inversion 1; subst; (constructor; [by apply (stands_same yaml ps c k w)|by apply IH]). }
  split; intros (_ & _ & ks & Hk & H); (split; [done|]; split; [left; by intros []|]).
  - inversion Hk; subst. exists (map (fun kw => ElY (x_tag (fst kw)) (snd kw)) (combine kids ws)). split; [done|]. by apply Ha.
  - rewrite (kids_fun _ _ _ Hk Hy) in H. exists (map ElX kids). split; [apply (ko_x (XElem "launch" [] kids))|]. by apply Ha.
Qed.
Print Assumptions C89_files.

(** A whole number is not taken for a number of seconds in YAML, though it is in XML. *)
Theorem C89_integer_refuted : (forall yaml parse_sub construct z kids a, ~ stands yaml parse_sub construct (ElY "timer" (YDict [("period", YInt z); ("children", kids)]))%string a)
  /\ exists a, stands ex_yaml ex_sub ex_make (ElX (XElem "timer" [("period", "5")] []))%string a.
Proof.
  split.
  - intros yaml ps c z kids a H. inversion H as [el r base kws a' Hr Hk|el r base kws ks acts kws' a' Hr Hk Hb Hb1]; subst; injection Hr as <-; [done|].
    inversion Hb1 as [|c1 x1 cs1 xs1 G1 _]; subst. inversion G1 as [n' k' r' h' kw' Hf| | | | |]; subst.
    assert (forall v, ~ attr_val yaml (ElY "timer" (YDict [("period", YInt z); ("children", kids)]))%string "period" TFloat v) as Hno.
    { intros v Hv. inversion Hv as [|tag d n'' t' w' E1 E2]; subst. simpl in E1. injection E1 as <-. destruct E2 as [E2|[_ E2]]; inversion E2. }
    inversion Hf; subst; by eapply Hno.
  - eexists. eapply (C88_sound _ _ _ 3 [new_ent (ElX (XElem "timer" [("period", "5")] []))%string] 0); [reflexivity|]. vm_compute. reflexivity.
Qed.
Print Assumptions C89_integer_refuted.
(** A quoted value stays a text in YAML: a shell of 'false' is a text that is not empty, in XML it is
    false. *)
Theorem C89_quoted_refuted :
  stands ex_yaml ex_sub ex_make (ElY "executable" (YDict [("cmd", YStr "ls"); ("shell", YStr "false")]))%string
    (Act "ExecuteProcess" [("cmd", KCmd [[SText "ls"]]); ("shell", KVal (PStr "false"))])%string
  /\ stands (fun s => if String.eqb s "false" then Some (PBool false) else None) ex_sub ex_make (ElX (XElem "executable" [("cmd", "ls"); ("shell", "false")] []))%string
    (Act "ExecuteProcess" [("cmd", KCmd [[SText "ls"]]); ("shell", KVal (PBool false))])%string.
Proof.
  split; (eapply (C88_sound _ _ _ 3 [_] 0); [reflexivity|]; vm_compute; reflexivity).
Qed.
Print Assumptions C89_quoted_refuted.

(** ** Examples *)
Example C88_ex : stands ex_yaml ex_sub ex_make
  (ElX (XElem "group" [("scoped", "true"); ("if", "x")] [XElem "keep" [("name", "a"); ("value", "b")] []; XElem "let" [("name", "x"); ("value", "y")] []]))%string
  (Act "GroupAction" [("condition", KIf [SText "x"]); ("scoped", KVal (PBool true)); ("launch_configurations", KPairs [([SText "a"], [SText "b"])]);
     ("actions", KActs [Act "SetLaunchConfiguration" [("name", KSubs [SText "x"]); ("value", KSubs [SText "y"])]])])%string.
Proof. eapply (C88_sound _ _ _ 3 [_] 0); [reflexivity|]. vm_compute. reflexivity. Qed.
(** Both a condition and its opposite, or an attribute that does not exist: no action. *)
Example C88_ex_none : forall a, ~ stands ex_yaml ex_sub ex_make (ElX (XElem "log" [("message", "m"); ("if", "x"); ("unless", "y")] []))%string a
  /\ ~ stands ex_yaml ex_sub ex_make (ElX (XElem "log" [("message", "m"); ("level", "x")] []))%string a.
Proof.
  intros a. split; intros H; destruct (C88_complete _ _ _ [new_ent _] 0 _ _ eq_refl H) as [n Hn]; specialize (Hn (S n) (Nat.le_succ_diag_r n)); simpl in Hn; done.
Qed.
Definition ex_keep_x : xml := XElem "group" [("scoped", "true")] [XElem "keep" [("name", "a"); ("value", "b")] []; XElem "let" [("name", "x"); ("value", "y")] []]%string.
Definition ex_keep_y : yv := YDict [("scoped", YBool true); ("keep", YList [YDict [("name", YStr "a"); ("value", YStr "b")]]);
  ("children", YList [YDict [("let", YDict [("name", YStr "x"); ("value", YStr "y")])]])]%string.
Lemma no_sep (l : list string) : forallb (fun a => negb (ends_with "-sep" a)) l = true -> forall n, ~ In (n ++ "-sep")%string l.
Proof.
  intros H n Hn. rewrite List.forallb_forall in H. specialize (H _ Hn). assert (ends_with "-sep" (n ++ "-sep")%string = true) as E by (apply ends_with_iff; by eexists). by rewrite E in H.
Qed.
Example C89_ex : same ex_yaml ex_keep_x ex_keep_y.
Proof.
  eapply (same_kids _ _ _ _ [YDict [("name", YStr "x"); ("value", YStr "y")]]%string).
  - split; [reflexivity|by apply no_sep| | |].
    + intros n [[<-|[]]|[_ ->]] [E|[]]; discriminate E.
    + intros n Hn. simpl. destruct (String.eqb_spec n "scoped") as [->|]; [by apply ta_bool|].
      destruct (String.eqb_spec n "keep") as [->|]; [destruct Hn; left; by left|]. destruct (String.eqb_spec n "children") as [->|]; [destruct Hn; by right|done].
    + intros n [<-|[]]. right. split; [done|]. eexists. split; [reflexivity|]. constructor; [|constructor]. eexists. split; [done|]. split; [done|]. split; [by apply no_sep|].
      intros n. simpl. by destruct (String.eqb n "name"), (String.eqb n "value").
  - done.
  - reflexivity.
  - constructor; [|constructor]. eapply (same_leaf _ _ _ (default (Row "" [] NoKids []) (assoc "let" rows)%string)); [|reflexivity|by intros k []]. split; [reflexivity|by apply no_sep|intros n [[]|[E _]]; discriminate E| |intros n []].
    intros n Hn. simpl. destruct (String.eqb_spec n "name") as [->|]; [constructor|]. destruct (String.eqb_spec n "value") as [->|]; [constructor|done].
Qed.
Example C89_ex_acts : exists acts,
  snd (parse_description ex_yaml (builtin ex_sub) ex_make 5 (new_ent (ElX (XElem "launch" [] [ex_keep_x])))) = Ok acts /\
  snd (parse_description ex_yaml (builtin ex_sub) ex_make 5 (new_ent (ElY "launch" (YList [YDict [("group", ex_keep_y)]])))) = Ok acts /\ acts <> [].
Proof. eexists. split; [vm_compute; reflexivity|]. split; [vm_compute; reflexivity|done]. Qed.

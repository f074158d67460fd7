(** Lemmas for showing launch arguments (C97). *)
From Coq Require Import ssreflect.
From Verif Require Import SpecShowArgs StrFacts ArgsFacts OutputFacts.
Local Open Scope string_scope.
#[local] Arguments String.append : simpl nomatch.

Lemma substring_here a b : substring (String.length a) (String.length b) (a ++ b) = b.
Proof.
  induction a as [|x a IH]; [|exact IH]. change ("" ++ b) with b. simpl. induction b as [|y b IH]; simpl; [done|by rewrite IH].
Qed.
Lemma substring_front a b : substring 0 (String.length a) (a ++ b) = a.
Proof. induction a as [|x a IH]; [by destruct b|]. simpl. by rewrite IH. Qed.
Lemma substring_parts n t : n <= String.length t -> substring 0 n t ++ substring n (String.length t - n) t = t.
Proof.
  revert n. induction t as [|x t IH]; intros [|n] H; simpl in *; try done.
  - change ("" ++ ?x) with x. f_equal. clear. induction t as [|y t IH]; simpl; [done|by rewrite IH].
  - rewrite IH; [lia|done].
Qed.
Lemma prefix_here p t : String.prefix p (p ++ t) = true.
Proof. induction p as [|x p IH]; [by destruct t|]. simpl. destruct (ascii_dec x x); [exact IH|done]. Qed.
Lemma after_here p t : without_front p (p ++ t) = Some t.
Proof.
  rewrite /without_front prefix_here. f_equal. rewrite str_app_length. replace (_ + _ - _)%nat with (String.length t) by lia. apply substring_here.
Qed.
Lemma before_here p t : without_end p (t ++ p) = Some t.
Proof.
  rewrite /without_end str_app_length. replace (_ + _ - _)%nat with (String.length t) by lia.
  by rewrite substring_here String.eqb_refl substring_front.
Qed.
Lemma before_inv p t r : without_end p t = Some r -> t = r ++ p.
Proof.
  rewrite /without_end. destruct (String.eqb_spec (substring (String.length t - String.length p) (String.length p) t) p) as [E|]; [|done].
  intros [= <-]. rewrite -{1}(substring_parts (String.length t - String.length p) t); [lia|]. f_equal. rewrite -{3}E.
  destruct (Nat.le_gt_cases (String.length p) (String.length t)) as [H|H].
  - by replace (String.length t - (String.length t - String.length p))%nat with (String.length p) by lia.
  - exfalso. apply (f_equal String.length) in E. replace (String.length t - String.length p)%nat with 0 in E by lia.
    assert (forall n x, String.length (substring 0 n x) <= String.length x) as L.
    { clear. induction n as [|n IH]; intros [|y x]; simpl; try lia. specialize (IH x). lia. }
    specialize (L (String.length p) t). lia.
Qed.
Lemma name_plain n : read_name ("    '" ++ n ++ "':") = Some (n, false).
Proof.
  rewrite /read_name after_here before_here. destruct (without_end "':*" (n ++ "':")) as [r|] eqn:E; [|done]. exfalso.
  apply before_inv in E. change "':*" with ("':" ++ "*") in E. change "':" with ("'" ++ ":") in E at 1. rewrite -!str_app_assoc in E.
  by destruct (str_app_split_r (n ++ "'") ":" (r ++ "':") "*" eq_refl E) as [_ ?].
Qed.
Lemma name_star n : read_name ("    '" ++ n ++ "':*") = Some (n, true).
Proof. by rewrite /read_name after_here before_here. Qed.
Lemma default_line v : read_default ("        (default: " ++ v ++ ")") = Some v.
Proof. by rewrite /read_default after_here before_here. Qed.

(** The lines that are printed. *)
Definition lines_for (s : said) : list string :=
  "" :: ("    '" ++ sd_name s ++ (if sd_conditional s then "':*" else "':")) :: ("        " ++ sd_about s)
  :: match sd_default s with Some v => ["        (default: " ++ v ++ ")"] | None => [] end.
Lemma name_line s : read_name ("    '" ++ sd_name s ++ (if sd_conditional s then "':*" else "':")) = Some (sd_name s, sd_conditional s).
Proof. destruct (sd_conditional s); [apply name_star|apply name_plain]. Qed.
Lemma read_all l ls : (forall x, hd_error ls = Some x -> x = "") ->
  (forall n, nth_error ls 1 = Some n -> read_name n = None) -> (ls <> [] -> exists n r, ls = "" :: n :: r) ->
  read_arguments (List.concat (map lines_for l) ++ ls) = Some (l, ls).
Proof.
  intros H1 H2 H3. assert (read_arguments ls = Some ([], ls)) as H0.
  { destruct ls as [|x [|n r]]; [done| |].
    - simpl. rewrite (H1 x eq_refl). done.
    - simpl. rewrite (H1 x eq_refl) (H2 n eq_refl). done. }
  induction l as [|s l IH]; [exact H0|]. cbn [map List.concat]. rewrite -app_assoc.
  unfold lines_for at 1. cbn [app]. cbn [read_arguments]. rewrite name_line after_here. destruct s as [n c a [v|]]; cbn [sd_default sd_name sd_conditional sd_about app].
  - change ("        (default: " ++ v ++ ")") with (String " "%char ("       (default: " ++ v ++ ")")).
    cbv iota beta. change (String " "%char ("       (default: " ++ v ++ ")")) with ("        (default: " ++ v ++ ")"). by rewrite default_line IH.
  - destruct l as [|s' l]; cbn [map List.concat app].
    + destruct ls as [|x r]; [done|]. rewrite (H1 x eq_refl). rewrite (H1 x eq_refl) in H0. by rewrite H0.
    + cbn [map List.concat app] in IH. unfold lines_for at 1. unfold lines_for at 1 in IH. cbn [app] in IH |- *. by rewrite IH.
Qed.

Lemma unlines_app a b : unlines (a ++ b)%list = unlines a ++ unlines b.
Proof. induction a as [|x a IH]; simpl; [done|]. rewrite IH. by rewrite str_app_assoc. Qed.
Section show.
Context (tok : subst -> string) (about : string -> string).
Notation say := (fun d => to_say tok about (listed_of d)).
Lemma join_sum l : join_plus l = sum l.
Proof. induction l as [|t [|t' l] IH]; [done|done|]. change (t ++ " + " ++ join_plus (t' :: l) = t ++ " + " ++ sum (t' :: l)). by rewrite IH. Qed.
Lemma message_lines d : print (message tok about d) = unlines (lines_for (say d)).
Proof.
  rewrite /print /message /lines_for /to_say /listed_of. destruct d as [n v ch c k]. simpl.
  destruct v as [v|], c; simpl; rewrite ?join_sum; repeat (rewrite !str_app_assoc; simpl; f_equal).
Qed.
Lemma messages_lines ds : messages tok about ds = unlines (List.concat (map lines_for (map say ds))).
Proof. induction ds as [|d ds IH]; [done|]. cbn [messages map List.concat]. by rewrite unlines_app -message_lines IH. Qed.
Lemma footer_lines ds : footer ds = unlines (last_lines (map say ds)).
Proof.
  destruct ds as [|x ds]; [done|].
  assert (forall l, existsb sd_conditional (map say l) = existsb dl_cond l) as E.
  { induction l as [|y l IH]; simpl; [done|by rewrite IH]. }
  transitivity (unlines (if existsb sd_conditional (map say (x :: ds)) then [""; "* argument(s) which are only used if specific conditions occur"] else [])); [|done].
  rewrite E /footer. by destruct (existsb dl_cond (x :: ds)).
Qed.
Lemma no_nl_two a b : no_nl a -> no_nl b -> no_nl (a ++ b).
Proof. rewrite /no_nl no_nl_app. intros Ha Hb [H|H]%in_app_or; tauto. Qed.
Ltac plain := let H := fresh in intros H; repeat (destruct H as [H|H]; [discriminate|]); exact H.
Lemma lines_plain s : one_line s -> Forall no_nl (lines_for s).
Proof.
  intros (Hn & Ha & Hv). rewrite /lines_for. constructor; [plain|]. constructor.
  { apply no_nl_two; [plain|]. apply no_nl_two; [done|]. destruct (sd_conditional s); plain. }
  constructor; [apply no_nl_two; [plain|done]|]. destruct (sd_default s); [|constructor].
  constructor; [|constructor]. apply no_nl_two; [plain|]. apply no_nl_two; [done|plain].
Qed.
Lemma last_plain l : Forall no_nl (last_lines l).
Proof. rewrite /last_lines. destruct l; [repeat constructor; plain|]. destruct (existsb _ _); repeat constructor; plain. Qed.
Lemma read_last l : read_arguments (List.concat (map lines_for l) ++ last_lines l)%list = Some (l, last_lines l).
Proof.
  rewrite /last_lines. apply read_all; destruct l; try done; try destruct (existsb _ (_ :: _)); simpl; try done; try (by intros ? [= <-]); eauto.
Qed.
Lemma shown_reads w c known fuel l t : print_arguments tok about w c known fuel l = (t, Ok tt) ->
  exists ds, declared w c known false l ds /\ let said := map (to_say tok about) (first_entries [] ds) in
    (Forall one_line said -> reads t said).
Proof.
  rewrite /print_arguments. destruct (get_launch_arguments _ _ _ _ _ _) as [a| |] eqn:E; [|done|done]. intros [= <-].
  apply listing_sound in E as (ds & H & E). exists ds. split; [done|]. simpl. rewrite -E map_map. intros Hl.
  exists (List.concat (map lines_for (map say (a_decls a))) ++ last_lines (map say (a_decls a)))%list, (last_lines (map say (a_decls a))).
  split; [|split; [|split; [apply read_last|done]]].
  - rewrite /header /print messages_lines footer_lines. cbn [unlines]. rewrite unlines_app. reflexivity.
  - apply Forall_app. split; [|apply last_plain]. revert Hl. generalize (map say (a_decls a)). induction 1 as [|s k Hs _ IH]; [constructor|].
    cbn [map List.concat]. apply Forall_app. split; [by apply lines_plain|done].
Qed.
End show.
Lemma reads_unique t l l' : reads t l -> reads t l' -> l = l'.
Proof.
  intros (ls & r & -> & Hn & Hr & _) (ls' & r' & E & Hn' & Hr' & _).
  assert (lines_of (unlines ls) ls "") as [E1 _]%lines_of_unique. { split; [by rewrite str_app_nil|]. split; [done|]. intros []. }
  assert (lines_of (unlines ls') ls' "") as [E2 _]%lines_of_unique. { split; [by rewrite str_app_nil|]. split; [done|]. intros []. }
  cbn [unlines] in E. apply str_app_inv_l in E. injection E as E. rewrite E -E2 in E1. subst ls'. congruence.
Qed.
Lemma shown_raises tok about w c known fuel l e : get_launch_arguments w c known fuel l false = Exn e ->
  print_arguments tok about w c known fuel l = (unlines ["Arguments (pass arguments as '<name>:=<value>'):"], Exn e).
Proof. rewrite /print_arguments. by intros ->. Qed.

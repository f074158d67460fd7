(** C83: what is shown for a launch description. *)
From Verif Require Import SpecIntrospect IntrospectFacts.

(** The text has, after the line for the description itself, one line for each entity and handler,
    in order, each with its depth and its own text in full. *)
Theorem C83_shown : forall shown l, l <> [] -> Forall described l ->
  format_launch_description shown l =
  Some (shown ++ [10%N] ++ u_join [10%N] (drawn (concat (map (listing 0) l)))).
Proof. intros shown l Hl Hd. unfold format_launch_description. rewrite (shown_law l Hl Hd). reflexivity. Qed.
Print Assumptions C83_shown.

(** Each line is made of four characters for each level above it, the four of its branch, and the
    text of the entity; no other line is shown, and none is left out. *)
Theorem C83_lines : forall shown l, l <> [] -> Forall described l ->
  exists lines, format_launch_description shown l = Some (shown ++ [10%N] ++ u_join [10%N] lines) /\
  Forall2 (fun line x => exists p, line = p ++ x.2 /\ length p = 4 * x.1 + 4 /\ Forall (fun c => In c [u_space; u_bar; u_corner; u_tee; u_dash]) p)
          lines (concat (map (listing 0) l)).
Proof.
  intros shown l Hl Hd. exists (drawn (concat (map (listing 0) l))). split; [exact (C83_shown shown l Hl Hd)|].
  generalize (concat (map (listing 0) l)) as k. clear. induction k as [|[d t] k IH]; [constructor|].
  constructor; [|exact IH].
  eexists (stem d _ ++ [_; u_dash; u_dash; u_space]). rewrite <- app_assoc. split; [reflexivity|]. split.
  - rewrite app_length. destruct d as [|d]; [reflexivity|]. cbn [stem length fst]. rewrite repeat_length. cbn [length]. lia.
  - apply Forall_app. split.
    + destruct d as [|d]; [constructor|]. constructor.
      * destruct k; [left|right; left]; reflexivity.
      * apply Forall_forall. intros c Hc. apply elem_of_list_In in Hc. apply repeat_spec in Hc. left. symmetry. exact Hc.
    + apply List.Forall_forall. intros c Hc. simpl in Hc |- *. destruct k as [|[d' t'] k]; [|destruct (Nat.leb d d')]; tauto.
Qed.
Print Assumptions C83_lines.

(** A description without entities cannot be shown: the code takes the last of no lines. *)
Theorem C83_empty_refuted : forall shown, format_launch_description shown [] = None.
Proof. reflexivity. Qed.
Print Assumptions C83_empty_refuted.

(** The branch does not tell whether there are more entities at the same depth: the last entity is
    drawn as if one more were to come when it has entities of its own, whatever they are. *)
Theorem C83_branch_refuted : forall shown s c t, u_isspace c = false ->
  format_launch_description shown [IRegister s (IDescribed (c :: t) [])] =
  Some (shown ++ [10%N] ++ [u_tee; u_dash; u_dash; u_space] ++ own_line (IRegister s (IDescribed (c :: t) [])) ++ [10%N] ++
        [u_space; u_space; u_space; u_space; u_corner; u_dash; u_dash; u_space] ++ c :: t).
Proof.
  intros shown s c t Hc. rewrite C83_shown; [|discriminate|].
  - reflexivity.
  - constructor; [|constructor]. by constructor.
Qed.
Print Assumptions C83_branch_refuted.

(** A description that begins with white space loses it. *)
Theorem C83_white_refuted : exists s d l, u_isspace (hd 0%N d) = true /\
  match format_launch_description s [IRegister s (IDescribed d l)] with
  | Some out => forall p, out <> p ++ d
  | None => False
  end.
Proof.
  exists (lit "h"), [u_space; u_space; u_bar], []. split; [reflexivity|]. vm_compute. intros p H.
  match type of H with ?l = _ => assert (firstn 3 (rev l) = firstn 3 (rev (p ++ [u_space; u_space; u_bar]))) as E by (rewrite H; reflexivity) end.
  rewrite rev_app_distr in E. vm_compute in E. discriminate E.
Qed.
Print Assumptions C83_white_refuted.

(** ** A description with two levels *)
Definition ex_desc : list ient :=
  [ILog [lit "'a'"; lit "LaunchConfig('b')"];
   IRegister (lit "<reg>") (IDescribed (lit "OnProcessExit(...)") [IEmit (lit "launch.events.Shutdown"); IAction (lit "<act>")]);
   IExec [[lit "'ls'"]; [lit "'-l'"]] None None false].
Example ex_desc_ok : ex_desc <> [] /\ Forall described ex_desc.
Proof. split; [discriminate|]. repeat constructor; congruence. Qed.
Example ex_desc_drawn : map (fun x => (x.1, length x.2)) (concat (map (listing 0) ex_desc)) = [(0, 32); (0, 30); (1, 18); (2, 41); (2, 15); (0, 65)].
Proof. vm_compute. reflexivity. Qed.

(** C97: what is printed for the launch arguments of a description. *)
From Verif Require Import SpecShowArgs ExWorld ShowArgsFacts.

(** C97: the text that is printed can be read: it says, for every argument of the description that is
    found, once and in the order of the first declarations, what it is called, what it is for, what its
    default value is if it has one, and whether it is conditional, if none of this has a line break. *)
Theorem C97_reads : forall (tok : subst -> string) (about : string -> string) (w : world) (c : ctx) (known : nat -> option (list entity))
    (fuel : nat) (l : list entity) (t : string),
  print_arguments tok about w c known fuel l = (t, Ok tt) ->
  exists ds, declared w c known false l ds /\ let said := map (to_say tok about) (first_entries [] ds) in
    (Forall one_line said -> reads t said).
Proof. exact shown_reads. Qed.
Print Assumptions C97_reads.

(** C97: ... and it cannot be read as anything else. *)
Theorem C97_unique : forall (t : string) (l l' : list said), reads t l -> reads t l' -> l = l'.
Proof. exact reads_unique. Qed.
Print Assumptions C97_unique.

(** C97: if the arguments cannot be listed, nothing but the heading is printed. *)
Theorem C97_raises : forall (tok : subst -> string) (about : string -> string) (w : world) (c : ctx) (known : nat -> option (list entity))
    (fuel : nat) (l : list entity) (e : exn),
  get_launch_arguments w c known fuel l false = Exn e ->
  print_arguments tok about w c known fuel l = (unlines ["Arguments (pass arguments as '<name>:=<value>'):"], Exn e).
Proof. exact shown_raises. Qed.
Print Assumptions C97_raises.

Definition tok0 (x : subst) : string := match x with SText t => ("'" ++ t ++ "'")%string | _ => "?" end.
(** C97: with line breaks it is NOT true: a description of an argument, which may well have several
    lines, can look like another argument. *)
Theorem C97_breaks_refuted : exists (about about' : string -> string) (l l' : list entity) (t : string),
  print_arguments tok0 about w0 (cx s0) (known_srcs s0) 20 l = (t, Ok tt) /\
  print_arguments tok0 about' w0 (cx s0) (known_srcs s0) 20 l' = (t, Ok tt) /\ length l <> length l'.
Proof.
  exists (fun _ => "the host" ++ String nl (String nl "    'port':" ++ String nl "        the port"))%string,
    (fun n => if String.eqb n "host" then "the host" else "the port")%string,
    [EAct (User 1) None (ADeclare "host" None None)],
    [EAct (User 1) None (ADeclare "host" None None); EAct (User 2) None (ADeclare "port" None None)].
  eexists. split; [vm_compute; reflexivity|]. split; [vm_compute; reflexivity|]. simpl. discriminate.
Qed.
Print Assumptions C97_breaks_refuted.

Example C97_example :
  let l := [EAct (User 1) None (ADeclare "host" (Some [SText "a"; SText "b"]) None);
            EAct (User 2) (Some (CIf [SText "false"])) (AGroup true true [] [EAct (User 3) None (ADeclare "port" None None)])] in
  let about n := if String.eqb n "host" then "the host" else "the port" in
  (print_arguments tok0 about w0 (cx s0) (known_srcs s0) 20 l).2 = Ok tt /\
  reads (print_arguments tok0 about w0 (cx s0) (known_srcs s0) 20 l).1
    [mkSaid "host" false "the host" (Some "'a' + 'b'"); mkSaid "port" true "the port" None].
Proof.
  split; [vm_compute; reflexivity|].
  exists ["";"    'host':"; "        the host"; "        (default: 'a' + 'b')"; ""; "    'port':*"; "        the port"; "";
    "* argument(s) which are only used if specific conditions occur"].
  eexists. split; [vm_compute; reflexivity|]. split; [|split; [vm_compute; reflexivity|reflexivity]].
  repeat constructor; intros H; repeat (destruct H as [H|H]; [discriminate|]); exact H.
Qed.

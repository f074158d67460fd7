(** Specifications for the theorems about sources of launch descriptions (C73, C74). *)
From Verif Require Export Sources.

(** [got rs d]: a use that gets the description has given [d]. *)
Definition got {D} (r : soresult (D := D)) (d : D) : Prop := r = RGet (Ok (Some d)) \/ r = RTry (Some d).
(** The locations that gets have loaded. *)
Definition get_loads {D} (s : source D) : list string := map snd (List.filter (fun x : bool * string => fst x) (so_loads s)).
(** [has_ext name e]: the last component of [name] is some dots, a stem that is not empty and does
    not begin with a dot, a dot, and [e]. *)
Definition without (c : ascii) (s : string) : Prop := forall a b, s <> (a ++ String c b)%string.
Definition only_dots (s : string) : Prop := forall a b c, s = (a ++ String c b)%string -> c = "."%char.
Definition has_ext (name e : string) : Prop :=
  exists dir dots c stem, name = (dir ++ dots ++ String c stem ++ String "." e)%string /\
    (dir = "" \/ exists d, dir = (d ++ "/")%string) /\ without "/" (dots ++ String c stem ++ String "." e) /\
    only_dots dots /\ c <> "."%char /\ without "." e.
(** [last_entry eps n p]: the last entry point called [n] that can be loaded gives [p]. *)
Definition last_entry {P} (eps : list (string * option P)) (n : string) (p : P) : Prop :=
  exists pre post, eps = pre ++ (n, Some p) :: post /\ forall q, ~ In (n, Some q) post.
(** What uses of a source give that has a description and a location. *)
Definition answer {D} (d : D) (l : string) (u : souse) : soresult (D := D) :=
  match u with UGet _ => RGet (Ok (Some d)) | UTry _ => RTry (Some d) | ULocation => RLocation l end.

(** Specifications for the theorems about the registry of parsing methods (C85). *)
From Verif Require Export Registry.

(** What the decorators accept: a class with a class method parse, or a function. *)
Definition parsable (t : thing) : Prop := t = TClass (Some true) \/ t = TFunction.
(** [o] is the first that was exposed under the name, in a history of exposures. *)
Definition first_exposed (k : kind) (n : string) (o : obj) (l : list exposure) : Prop :=
  exists pre t post, l = pre ++ (k, n, o, t) :: post /\ parsable t /\ forall o' t', In (k, n, o', t') pre -> ~ parsable t'.
Definition never_exposed (k : kind) (n : string) (l : list exposure) : Prop := forall o t, In (k, n, o, t) l -> ~ parsable t.
(** An extension that can be loaded. *)
Definition names_of (e : ext) : list (kind * string) := map (fun x => (x.1.1, x.1.2)) (x_body e).
Definition sound (e : ext) : Prop := x_ok e = true /\ Forall (fun x => parsable x.2) (x_body e) /\ List.NoDup (names_of e).
(** Objects that are registered were made before. *)
Definition past (s : loader) : Prop := forall k n o, called k n (l_reg s) = Ok o -> snd o < l_next s.

(** The constructor of DeclareLaunchArgument (C94). *)
From Verif Require Export DeclareArg.

(** Iterables of texts and substitutions. *)
Definition good_elements (l : list delem) : Prop := ~ In DE_other l.
Definition good_default (d : dvalue) : Prop :=
  match d with DV_list l | DV_iter l => good_elements l | _ => True end.
(** There are choices, and they allow the default as far as it can be known: texts. *)
Definition good_choices (d : dvalue) (ch : option (list string)) : Prop :=
  match ch with
  | None => True
  | Some l => l <> [] /\ match d with DV_text t => In t l | DV_iter _ => False | _ => True end
  end.

(** Specifications for joining paths and for conditions on launch configurations (C63, C64). *)
From Verif Require Export SpecSubst.

Definition absolute (p : string) : Prop := exists r, p = String "/" r.
(** Nothing has to be put between [t] and the next part. *)
Definition open_end (t : string) : Prop := t = "" \/ exists r, t = (r ++ "/")%string.
(** The parts, joined from left to right: an absolute part replaces what precedes. *)
Inductive joined : list string -> string -> Prop :=
| joined_one p : joined [p] p
| joined_absolute l t a : joined l t -> absolute a -> joined (l ++ [a]) a
| joined_open l t b : joined l t -> ~ absolute b -> open_end t -> joined (l ++ [b]) (t ++ b)
| joined_sep l t b : joined l t -> ~ absolute b -> ~ open_end t -> joined (l ++ [b]) (t ++ "/" ++ b).

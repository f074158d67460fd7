(** Specifications for the theorems about markup files (C86). *)
From Verif Require Export MarkupFiles SpecFrontend.

(** Reads from the start of the file, with the file rewound between any two of them. *)
Inductive clean_reads : list fop -> Prop :=
| cr_none : clean_reads []
| cr_last p : clean_reads [FRead p 0]
| cr_again p l : clean_reads l -> clean_reads (FRead p 0 :: FSeek :: l).
(** The first of the parsers, in the order in which they are to be tried, that accepts the file. *)
Definition first_fit {R} (ps : list (fparser R)) (name : string) (r : R) : Prop :=
  exists order l1 p l2, tried_order ps order name /\ order = l1 ++ p :: l2 /\ Forall (fun q => fails q 0) l1 /\ fp_load p 0 = Ok r.

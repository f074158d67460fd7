(** Specifications for the theorems about the markup frontends (C49, C50). *)
From Verif Require Import SpecSubst.
From Verif Require Export Frontend.

(** ** Elements, without what has been read *)
Inductive elem := ElX (e : xml) | ElY (t : string) (v : yv).
Definition el_of (e : ent) : elem := match e with EX x => ElX (xs_el x) | EY y => ElY (ys_type y) (ys_el y) end.
Definition new_ent (e : elem) : ent := match e with ElX e => new_x e | ElY t v => new_y t v end.
Definition elems (hp : heap) (h : nat) : option elem := el_of <$> (hp !! h).

(** ** What of an entity has been read, according to the record of the reads *)
(** The attribute [a] of the XML element was asked for (and its separator, if any, was not
    empty), or it is the separator of an attribute that was asked for. *)
Definition x_attr_read (l : list tr) (h : nat) (e : xml) (a : string) : Prop :=
  (exists d o c r, In (TAttr h a (RVal d) o c r) l /\ r <> Exn XValue)
  \/ (exists n d o c r, a = (n ++ "-sep")%string /\ In (TAttr h n (RVal d) o c r) l /\ In n (map fst (x_attrs e))).
(** The child elements with this tag were asked for. *)
Definition x_kid_read (l : list tr) (h : nat) (t : string) : Prop :=
  (exists r, In (TChildren h r) l) \/ (exists o c r, In (TAttr h t REnts o c r) l).
(** The key of the YAML mapping was asked for. *)
Definition y_key_read (l : list tr) (h : nat) (k : string) : Prop :=
  (k = "children"%string /\ exists r, In (TChildren h r) l) \/ (exists t o c r, In (TAttr h k t o c r) l).
Definition all_read (l : list tr) (h : nat) (e : elem) : Prop :=
  match e with
  | ElX e => (forall a, In a (map fst (x_attrs e)) -> x_attr_read l h e a)
             /\ (forall k, In k (x_kids e) -> x_kid_read l h (x_tag k))
  | ElY _ (YDict d) => forall k, In k (map fst d) -> y_key_read l h k
  | ElY _ (YList _) => exists r, In (TChildren h r) l
  | ElY _ _ => False
  end.

(** The children of an element, where it has any. *)
Inductive kids_of : elem -> list elem -> Prop :=
| ko_x e : kids_of (ElX e) (map ElX (x_kids e))
| ko_list t l ks : Forall2 (fun v k => exists t' w, v = YDict [(t', w)] /\ k = ElY t' w) l ks -> kids_of (ElY t (YList l)) ks
| ko_dict t d l ks : assoc "children" d = Some (YList l) ->
    Forall2 (fun v k => exists t' w, v = YDict [(t', w)] /\ k = ElY t' w) l ks -> kids_of (ElY t (YDict d)) ks
| ko_empty_str t d : assoc "children" d = Some (YStr "") -> kids_of (ElY t (YDict d)) []
| ko_empty_dict t d : assoc "children" d = Some (YDict []) -> kids_of (ElY t (YDict d)) [].

(** The result of asking for an attribute agrees with the element: a value has the type
    that was asked for; nothing is returned only if the attribute was optional and there is
    none; entities are all those with that name, at least one. *)
Definition has_attr (e : elem) (name : string) : Prop :=
  match e with
  | ElX e => In name (map fst (x_attrs e))
  | ElY _ (YDict d) => In name (map fst d)
  | ElY _ _ => False
  end.
Definition named_kids (e : elem) (name : string) : list elem :=
  match e with
  | ElX e => map ElX (List.filter (fun k => String.eqb (x_tag k) name) (x_kids e))
  | ElY _ (YDict d) => match assoc name d with Some (YList l) => map (ElY name) l | _ => [] end
  | ElY _ _ => []
  end.
Definition good_answer (elems : nat -> option elem) (e : elem) (name : string) (t : rty) (opt cbs : bool) (r : res (option hgot)) : Prop :=
  match r with
  | Ok (Some (HVal v)) => exists d, t = RVal d /\ has_attr e name /\ has_type cbs v d
  | Ok (Some (HEnts hs)) => t = REnts /\ hs <> [] /\ map elems hs = map Some (named_kids e name)
  | Ok None => opt = true /\ match t with RVal _ => ~ has_attr e name | REnts => named_kids e name = [] end
  | _ => True
  end.

(** ** Splitting at a separator *)
Definition splits (sep s : string) (l : list string) : Prop :=
  join sep l = s /\ Forall (fun x => contains sep x = false) l.

(** ** Parsers *)
(** The name of the file ends with a dot and an extension of the parser. *)
Definition for_extension {R} (p : fparser R) (filename : string) : Prop :=
  exists ext stem, In ext (fp_exts p) /\ filename = (stem ++ "." ++ ext)%string.
(** The order in which parsers are to be tried: first those for the extension of the file, then
    the others, each in the order in which they are known. *)
Definition tried_order {R} (ps order : list (fparser R)) (filename : string) : Prop :=
  exists (fits : fparser R -> bool) m o, order = m ++ o
    /\ (forall p, fits p = true <-> for_extension p filename)
    /\ m = List.filter fits ps
    /\ o = List.filter (fun p => negb (fits p)) ps.
Definition fails {R} (p : fparser R) (pos : nat) : Prop := exists e, fp_load p pos = Exn e.

(** ** One event of the record, in the light of the final entities *)
(** [l0]: the record before it. *)
Definition event_ok (hp : heap) (l0 : list tr) (t : tr) : Prop :=
  match t with
  | TAttr g name ty o c r => exists e, elems hp g = Some e /\ good_answer (elems hp) e name ty o c r
  | TChildren g r => exists e, elems hp g = Some e /\ forall hs, r = Ok hs -> exists ks, kids_of e ks /\ map (elems hp) hs = map Some ks
  | TAccepted g => exists e, elems hp g = Some e /\ all_read l0 g e
  end.
(** Where the file is read from in the i-th attempt: the first parser gets it as it is, the
    others from the beginning. *)
Definition pos_at (pos i : nat) : nat := match i with O => pos | S _ => O end.
Definition attempts {R} (l : list (fparser R)) (pos : nat) : list (nat * nat) := imap (fun i p => (fp_id p, pos_at pos i)) l.

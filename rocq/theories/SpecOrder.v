(** * SpecOrder: documents whose attributes are written in another order *)
From Coq Require Export Permutation.
From Verif Require Export SpecErase.

(** the attribute [a] is one of the known kinds: a style attribute, a presentation attribute or
    an attribute that is no style property *)
Definition readable (a : attr) : Prop := exists ds, attr_decls a ds.
(** [a] declares a property that is about the part [p] of the style *)
Definition touches (a : attr) (p : part) : Prop :=
  exists ds k v, attr_decls a ds /\ List.In (k, v) ds /\ List.In p (parts_named k).
(** r gives both radii of a circle, rx and ry one each *)
Definition both_radii (n n' : string) : Prop := n = "r"%string /\ (n' = "rx"%string \/ n' = "ry"%string).
(** two attributes of an element that are about different things: other names, other radii, other parts of the style *)
Definition apart (a b : attr) : Prop :=
  low_case (a_name a) <> low_case (a_name b) /\ ~ both_radii (a_name a) (a_name b) /\ ~ both_radii (a_name b) (a_name a)
  /\ forall p, ~ (touches a p /\ touches b p).
Definition reordered (l l' : list attr) : Prop := Permutation l l' /\ Forall readable l /\ ForallOrdPairs apart l.
Inductive reordered_token : token -> token -> Prop :=
| ro_start name l l' : reordered l l' -> reordered_token (TStart name l) (TStart name l')
| ro_same t : reordered_token t t.

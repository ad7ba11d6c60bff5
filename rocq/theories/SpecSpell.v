(** * SpecSpell: elements written in another way *)
From Verif Require Export SpecLift SpecErase SpecEdit.

Section Spell.
Context (E : Env).
(** the same declarations of style properties, as attributes or in a style attribute *)
Definition same_decls (l l' : list attr) : Prop := exists ds, attrs_decls l ds /\ attrs_decls l' ds.
Definition same_id (l l' : list attr) : Prop := text_attr "id" "" l = text_attr "id" "" l'.
(** whatever the first element draws alone, with any view box and offset, the second draws too *)
Definition same_outline (name : string) (l : list attr) (name' : string) (l' : list attr) : Prop :=
  forall md m vb off p, alone E md m vb off name l p -> alone E md m vb off name' l' p.
(** path data replaces what was drawn before in the same definition, other shapes add to it (see C27) *)
Definition starts_over (name : string) (attrs : list attr) : bool := String.eqb name "path" && has_attr "d" attrs.
(** [respelled d name l name' l']: the second element is another way of writing the first; if [d], also in a definition *)
Inductive respelled (d : bool) : string -> list attr -> string -> list attr -> Prop :=
| re_same name l : has_points name l -> respelled d name l name l
| re_group l l' : same_decls l l' -> same_id l l' -> respelled d "g" l "g" l'
| re_shape name l name' l' : List.In name shape_names -> List.In name' shape_names -> has_points name l ->
    same_decls l l' -> same_id l l' -> same_outline name l name' l' -> (d = true -> starts_over name l = starts_over name' l') ->
    respelled d name l name' l'.
Inductive respelled_token (d : bool) : token -> token -> Prop :=
| rt_start name l name' l' : respelled d name l name' l' -> (d = false -> name <> "defs"%string) -> respelled_token d (TStart name l) (TStart name' l')
| rt_end name name' : name = name' \/ List.In name shape_names /\ List.In name' shape_names -> respelled_token d (TEnd name) (TEnd name')
| rt_chars s : respelled_token d (TChar s) (TChar s)
| rt_misc : respelled_token d TOther TOther.
End Spell.

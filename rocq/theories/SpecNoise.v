(** * SpecNoise: comments, and text that is not part of a title or description *)
From Verif Require Export SpecTidy.

(** ** Token sequences that differ in comments, directives and processing instructions, and in how a
    text is cut into pieces *)
Inductive recut : list token -> list token -> Prop :=
| rc_nil : recut [] []
| rc_keep t l l' : recut l l' -> recut (t :: l) (t :: l')
| rc_misc l l' : recut l l' -> recut (TOther :: l) l'
| rc_cut s t l l' : recut l l' -> recut (TChar s :: TChar t :: l) (TChar (s ++ t) :: l')
| rc_trans l1 l2 l3 : recut l1 l2 -> recut l2 l3 -> recut l1 l3
| rc_sym l1 l2 : recut l1 l2 -> recut l2 l1.

(** ** Documents that differ in text outside titles and descriptions *)
Inductive spoken : list node -> list node -> Prop :=
| sp_nil : spoken [] []
| sp_chars s l l' : spoken l l' -> spoken (Chars s :: l) l'
| sp_misc l l' : spoken l l' -> spoken (Misc :: l) l'
| sp_keep n l l' : spoken l l' -> spoken (n :: l) (n :: l')
| sp_elem name attrs kids kids' l l' : name <> "title"%string -> name <> "desc"%string ->
    spoken kids kids' -> spoken l l' -> spoken (Elem name attrs kids :: l) (Elem name attrs kids' :: l').

(** * SpecReshape: edits that keep a document right (C78) *)
From Verif Require Export SpecPanic.

(** the second forest is made of the first by dropping elements, with all or none of what is in them, by dropping and adding texts and
    comments, and by putting neighbours into a bare group; an element that opens definitions or a gradient goes only with all it contains *)
Inductive reshaped : list node -> list node -> Prop :=
| rs_nil : reshaped [] []
| rs_keep name attrs ks ks' ns ms : reshaped ks ks' -> reshaped ns ms -> reshaped (Elem name attrs ks :: ns) (Elem name attrs ks' :: ms)
| rs_drop n ns ms : reshaped ns ms -> reshaped (n :: ns) ms
| rs_unwrap name attrs ks ns ms : name <> "defs"%string -> is_grad_name name = false -> reshaped (ks ++ ns) ms -> reshaped (Elem name attrs ks :: ns) ms
| rs_text s ns ms : reshaped ns ms -> reshaped ns (Chars s :: ms)
| rs_comment ns ms : reshaped ns ms -> reshaped ns (Misc :: ms)
| rs_group ns ks ns' ms : reshaped ns ks -> reshaped ns' ms -> reshaped (ns ++ ns') (Elem "g" [] ks :: ms).

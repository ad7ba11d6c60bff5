(** * SpecGrow: what is read of a document stays *)
From Verif Require Export SpecDoc.

Definition begins {A} (l l' : list A) : Prop := exists r, l' = l ++ r.
(** texts are added at the end, and the last one may go on *)
Definition texts_grow (l l' : list string) : Prop :=
  begins l l' \/ exists l0 t u r, l = l0 ++ [t] /\ l' = l0 ++ (t ++ u)%string :: r.
Definition ids_stay {A} (m m' : smap A) : Prop := forall id, mget id m <> None -> mget id m' <> None.
(** everything in the document [s] is in [s'] *)
Record grows_to {E : Env} (s s' : svg E) : Prop := {
  gt_paths : begins (sv_paths s) (sv_paths s');
  gt_titles : texts_grow (sv_titles s) (sv_titles s');
  gt_descs : texts_grow (sv_descs s) (sv_descs s');
  gt_masks : ids_stay (sv_masks s) (sv_masks s');
  gt_grads : ids_stay (sv_grads s) (sv_grads s');
  gt_defs : ids_stay (sv_defs s) (sv_defs s') }.

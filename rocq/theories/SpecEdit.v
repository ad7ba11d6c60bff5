(** * SpecEdit: documents in which some shapes were replaced by others *)
From Verif Require Export SpecStyle SpecTidy.

(** polylines and polygons say which points they have *)
Definition has_points (name : string) (attrs : list attr) : Prop :=
  name = "polyline"%string \/ name = "polygon"%string -> has_attr "points" attrs = true.
Definition pointed (t : token) : Prop :=
  match t with TStart name attrs => has_points name attrs | _ => True end.
(** no declaration of a mask *)
Definition unmasked (attrs : list attr) : Prop :=
  exists ds, attrs_decls attrs ds /\ Forall (fun d => fst d <> "mask"%string) ds.
(** elements that can do no more than draw: shapes, groups of shapes, text, unknown elements *)
Definition draws_only (name : string) : Prop :=
  ~ List.In name ["svg"; "defs"; "use"; "linearGradient"; "radialGradient"; "mask"; "title"; "desc"]%string.
Inductive drawing : node -> Prop :=
| dr_elem name attrs kids : draws_only name -> has_points name attrs -> unmasked attrs -> Forall drawing kids -> drawing (Elem name attrs kids)
| dr_text s : drawing (Chars s)
| dr_misc : drawing Misc.
(** the number of elements *)
Fixpoint elements (n : node) : nat :=
  match n with Elem _ _ kids => S (list_sum (map elements kids)) | _ => 0 end.

(** [replaced a x y b s s']: [s] and [s'] are the same drawing, but between [a] and [b] the first has the
    paths [x] and the second the paths [y] *)
Definition replaced {E : Env} (a x y b : list (svgPath E)) (s s' : svg E) : Prop :=
  sv_paths s = a ++ x ++ b /\ sv_paths s' = a ++ y ++ b
  /\ sv_viewBox s' = sv_viewBox s /\ sv_titles s' = sv_titles s /\ sv_descs s' = sv_descs s /\ sv_transform s' = sv_transform s
  /\ sv_masks s' = sv_masks s /\ sv_width s' = sv_width s /\ sv_height s' = sv_height s
  /\ sv_grads s' = sv_grads s /\ sv_defs s' = sv_defs s /\ sv_mheap s' = sv_mheap s.
(** the results of parsing, up to the lines logged *)
Definition replaced_result {E : Env} (a x y : list (svgPath E)) (r r' : presult E) : Prop :=
  match r, r' with
  | PNil e, PNil e' => e = e'
  | PSvg s e _, PSvg s' e' _ => e = e' /\ exists b, replaced a x y b s s'
  | PPanic, PPanic | PNoFuel, PNoFuel => True
  | _, _ => False
  end.

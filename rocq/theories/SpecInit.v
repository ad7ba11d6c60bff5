(** * SpecInit: style parts a document never mentions *)
From Verif Require Export SpecTree.
(** none of the declarations of these attributes is about part [p] *)
Definition silent (p : part) (attrs : list attr) : Prop :=
  forall ds k v, attrs_decls attrs ds -> List.In (k, v) ds -> ~ List.In p (parts_named k).
(** no element of the tree is *)
Fixpoint silent_node (p : part) (n : node) : Prop :=
  match n with
  | Elem _ attrs kids => silent p attrs /\ (fix go l := match l with [] => True | n :: r => silent_node p n /\ go r end) kids
  | _ => True
  end.
Definition silent_nodes (p : part) : list node -> Prop := fix go l := match l with [] => True | n :: r => silent_node p n /\ go r end.
(** all stored paths, in the document and in masks, have the value [x] for part [p] *)
Definition all_have {E} (p : part) (x : part_type E p) (s : svg E) : Prop :=
  (forall sp, List.In sp (sv_paths s) -> part_of p (sp_style sp) = x)
  /\ forall id mk sp, mget id (sv_masks s) = Some mk -> List.In sp (mk_paths mk) -> part_of p (sp_style sp) = x.
(** The initial values of the SVG recommendation (a transform is the identity; lead caps, gaps and mask lists are not SVG's). *)
Definition svg_initial (E : Env) (p : part) : part_type E p :=
  match p with
  | FillOpacity | StrokeOpacity => fnum E 1
  | StrokeWidth => fnum E 1
  | FillRule => true
  | MiterLimit => f_to_i32 E (fmul E (fnum E 4) (fnum E 64))
  | LineJoin => Miter
  | LineCap => ButtCap
  | LeadLineCap => NilCap
  | LineGap => NilGap
  | DashArray => []
  | DashOffset => fnum E 0
  | FillPaint => Some (PPlain 0 0 0 255)
  | StrokePaint => None
  | MaskList => mkSl 0 0 0
  | Transform => mkM (fnum E 1) (fnum E 0) (fnum E 0) (fnum E 1) (fnum E 0) (fnum E 0)
  end.

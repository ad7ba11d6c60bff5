(** * SpecPaint: what draw2d and gg paint, for every document

    The machines of [SpecDraw] turn calls into painted items.  Here is what the items are, for paths of any
    form and paints of any kind, including what one path leaves behind for the next. *)
From Verif Require Export SpecDraw.

Section Paint.
Context {E : Env}.
Notation F := (F E).
Notation "# z" := (fnum E z%Z) (at level 1, format "# z").

(** ** Colours *)
(** 8 bit component of a colour with alpha [a], multiplied by it, and an alpha multiplied by an opacity *)
Definition dimmed (x a : Z) : Z := Z.modulo (x * 257 * a / 255 / 256) 256.
Definition plain8 (x : Z) : Z := Z.modulo (x * 257 / 256) 256.
Definition faded (a : Z) (o : F) : Z := Z.modulo (f_to_u32 E (fmul E (f_of_Z E (a * 257)) o) / 256) 256.
Definition tone (c : color) (o : F) : Z * Z * Z * Z :=
  match c with
  | CNRGBA r g b a => (dimmed r a, dimmed g a, dimmed b a, faded a o)
  | CRGBA r g b a => (plain8 r, plain8 g, plain8 b, faded a o)
  end.
(** the only colour of a paint: that of the first stop with a colour, or black, for a gradient *)
Inductive flat : pattern E -> color -> Prop :=
| flat_plain r g b a : flat (PPlain r g b a) (CNRGBA r g b a)
| flat_stop g l s c r : gStops g = l ++ s :: r -> Forall (fun s => stColor s = None) l -> stColor s = Some c -> flat (PGrad g) c
| flat_black g : Forall (fun s => stColor s = None) (gStops g) -> flat (PGrad g) (CRGBA 0 0 0 255).

(** ** Outlines *)
(** what is left in the context: finished subpaths and an open one *)
Definition pending : Type := list (sub (F * F)) * open_sub (F * F).
Definition outline (p : pending) : list (sub (F * F)) := fst p ++ finish false (snd p).
(** the context after some ops.  A MoveTo of draw2d drops everything before it ([drop]); one of gg closes
    the open subpath. *)
Fixpoint trace (drop : bool) (f : pt -> F * F) (p : pending) (ops : list op) : pending :=
  match ops with
  | [] => p
  | OpMoveTo a :: r => trace drop f (if drop then [] else fst p ++ finish true (snd p), Some (Some (f a), [])) r
  | OpLineTo b :: r => trace drop f (fst p, more (snd p) (SLine (f b))) r
  | OpQuadTo b c :: r => trace drop f (fst p, more (snd p) (SQuad (f b) (f c))) r
  | OpCubicTo b c d :: r => trace drop f (fst p, more (snd p) (SCube (f b) (f c) (f d))) r
  | OpClose :: r => trace drop f (fst p ++ finish true (snd p), None) r
  end.
(** painting empties the context; a path without paints leaves its outline behind *)
Definition left_over (st : style E) (p : pending) : pending :=
  match st_filler st, st_liner st with None, None => p | _, _ => ([], None) end.

(** ** draw2d *)
Inductive d2_filled (opt : renderOptions E) (st : style E) (area : list (sub (F * F))) : list d2Item -> Prop :=
| d2f_none : st_filler st = None -> d2_filled opt st area []
| d2f_some p c : st_filler st = Some p -> flat p c ->
    d2_filled opt st area [D2Filled area (st_nonZero st) (tone c (fmul E (st_fillOpacity st) (ro_opacity opt)))].
Inductive d2_stroked (opt : renderOptions E) (m : matrix E) (st : style E) (area : list (sub (F * F))) : list d2Item -> Prop :=
| d2s_none : st_liner st = None -> d2_stroked opt m st area []
| d2s_some p c : st_liner st = Some p -> flat p c ->
    d2_stroked opt m st area [D2Stroked area (d2_pens m st) (tone c (fmul E (st_lineOpacity st) (ro_opacity opt)))].
Inductive d2_all (opt : renderOptions E) : pending -> list (svgPath E) -> list d2Item -> Prop :=
| d2a_nil p : d2_all opt p [] []
| d2a_cons p sp sps l1 l2 l :
    let st := sp_style sp in
    let m := mMult (st_transform st) (ro_target opt) in
    let q := trace true (moved_px m) p (sp_path sp) in
    d2_filled opt st (outline q) l1 -> d2_stroked opt m st (outline q) l2 ->
    d2_all opt (left_over st q) sps l -> d2_all opt p (sp :: sps) (l1 ++ l2 ++ l).

(** ** gg *)
(** the paint of a fill: the same parts as in the document, the stops with their colours *)
Inductive gg_tint (o : F) : gradStop E -> F * (Z * Z * Z * Z) -> Prop :=
| gg_tint_i c off op : gg_tint o (mkStop (Some c) off op) (off, tone c (fmul E op o)).
Inductive gg_brush : pattern E -> F -> ggPaint (E := E) -> Prop :=
| gb_plain r g b a o : gg_brush (PPlain r g b a) o (GgSolid (tone (CNRGBA r g b a) o))
| gb_linear g x1 y1 x2 y2 o l : gDirection g = Some (Linear x1 y1 x2 y2) -> Forall2 (gg_tint o) (gStops g) l ->
    gg_brush (PGrad g) o (GgGrad (Some (GgLinear x1 y1 x2 y2 l)))
| gb_radial g cx cy fx fy r fr o l : gDirection g = Some (Radial cx cy fx fy r fr) -> Forall2 (gg_tint o) (gStops g) l ->
    gg_brush (PGrad g) o (GgGrad (Some (GgRadial cx cy r fx fy fr l)))
| gb_none g o : gDirection g = None -> gStops g = [] -> gg_brush (PGrad g) o (GgGrad None).
(** the fill has the colour of the stroke if there is one: gg has one colour for both *)
Inductive gg_filled (mask : option (list ggItem)) (o : F) (st : style E) (area : list (sub (F * F))) : list ggItem -> Prop :=
| ggf_none : st_filler st = None -> gg_filled mask o st area []
| ggf_some p x : st_filler st = Some p -> st_liner st = None -> gg_brush p (fmul E (st_fillOpacity st) o) x ->
    gg_filled mask o st area [GgFilled mask area (st_nonZero st) x]
| ggf_line p q c : st_filler st = Some p -> st_liner st = Some q -> flat q c ->
    gg_filled mask o st area [GgFilled mask area (st_nonZero st) (GgSolid (tone c (fmul E (st_lineOpacity st) o)))].
Inductive gg_stroked (mask : option (list ggItem)) (o : F) (m : matrix E) (st : style E) (area : list (sub (F * F))) : list ggItem -> Prop :=
| ggs_none : st_liner st = None -> gg_stroked mask o m st area []
| ggs_some p c : st_liner st = Some p -> flat p c ->
    gg_stroked mask o m st area [GgStroked mask area (gg_pens m st) (GgSolid (tone c (fmul E (st_lineOpacity st) o)))].
(** a path, drawn with matrix [m] and opacity [o] after [p] was left behind, leaves [q] and paints [l]; the
    paths of its last mask are drawn on an empty context, with its matrix *)
Inductive gg_shows (s : svg E) (m : matrix E) : F -> pending -> svgPath E -> pending -> list ggItem -> Prop :=
| gsh o p sp mask l1 l2 :
    let st := sp_style sp in
    let q := trace false (moved_px m) p (sp_path sp) in
    gg_masked s m sp mask -> gg_filled mask o st (outline q) l1 -> gg_stroked mask o m st (outline q) l2 ->
    gg_shows s m o p sp (left_over st q) (l1 ++ l2)
with gg_masked (s : svg E) (m : matrix E) : svgPath E -> option (list ggItem) -> Prop :=
| gm_none sp : path_masks s sp = [] -> gg_masked s m sp None
| gm_missing sp ids id : path_masks s sp = ids ++ [id] -> mget id (sv_masks s) = None -> gg_masked s m sp None
| gm_some sp ids id mk q l : path_masks s sp = ids ++ [id] -> mget id (sv_masks s) = Some mk ->
    gg_mask_all s m ([], None) (mk_paths mk) q l -> gg_masked s m sp (Some l)
with gg_mask_all (s : svg E) (m : matrix E) : pending -> list (svgPath E) -> pending -> list ggItem -> Prop :=
| gma_nil p : gg_mask_all s m p [] p []
| gma_cons p sp q sps r l1 l2 : gg_shows s m #1 p sp q l1 -> gg_mask_all s m q sps r l2 -> gg_mask_all s m p (sp :: sps) r (l1 ++ l2).
(** the paths of the document, each with its own matrix *)
Inductive gg_all (s : svg E) (opt : renderOptions E) : pending -> list (svgPath E) -> list ggItem -> Prop :=
| gga_nil p : gg_all s opt p [] []
| gga_cons p sp q sps l1 l2 : gg_shows s (mMult (st_transform (sp_style sp)) (ro_target opt)) (ro_opacity opt) p sp q l1 ->
    gg_all s opt q sps l2 -> gg_all s opt p (sp :: sps) (l1 ++ l2).
End Paint.

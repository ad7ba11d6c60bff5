(** * SpecScale: drawings that differ by a factor *)
From Coq Require Import Reals.
From Verif Require Export SpecDraw SpecMatrix.
Local Open Scope R_scope.

Section Scale.
Context (O : ROracles) (k : R).
Notation E := (RealEnv O).

(** the second point, in 1/64 of a unit, is [k] times the first, up to the rounding of both *)
Definition near (a b : pt) : Prop :=
  Rabs (IZR (fst b) - k * IZR (fst a)) <= k + 1 /\ Rabs (IZR (snd b) - k * IZR (snd a)) <= k + 1.
(** the same for points in units *)
Definition nearF (a b : F E * F E) : Prop :=
  Rabs (fst b - k * fst a) <= (k + 1) / 64 /\ Rabs (snd b - k * snd a) <= (k + 1) / 64.

(** the same calls, in the second with coordinates and line widths [k] times as large *)
Inductive rx_scaled : rxCall E -> rxCall E -> Prop :=
| xs_clear t : rx_scaled (RxClear t) (RxClear t)
| xs_winding b : rx_scaled (RxSetWinding b) (RxSetWinding b)
| xs_stroke w w' m l t g j : Rabs (IZR w' - k * IZR w) <= k + 1 -> rx_scaled (RxSetStroke w m l t g j) (RxSetStroke w' m l t g j)
| xs_start t a b : near a b -> rx_scaled (RxStart t a) (RxStart t b)
| xs_line t a b : near a b -> rx_scaled (RxLine t a) (RxLine t b)
| xs_quad t a b a' b' : near a a' -> near b b' -> rx_scaled (RxQuad t a b) (RxQuad t a' b')
| xs_cube t a b c a' b' c' : near a a' -> near b b' -> near c c' -> rx_scaled (RxCube t a b c) (RxCube t a' b' c')
| xs_stop t c : rx_scaled (RxStop t c) (RxStop t c)
| xs_plain t r g b a o : rx_scaled (RxSetColor t (RxPlain r g b a o)) (RxSetColor t (RxPlain r g b a o))
| xs_draw t : rx_scaled (RxDraw t) (RxDraw t).
Inductive d2_scaled : d2Call E -> d2Call E -> Prop :=
| ds_rule b : d2_scaled (D2SetFillRule b) (D2SetFillRule b)
| ds_fillc c : d2_scaled (D2SetFillColor c) (D2SetFillColor c)
| ds_strokec c : d2_scaled (D2SetStrokeColor c) (D2SetStrokeColor c)
| ds_cap c : d2_scaled (D2SetLineCap c) (D2SetLineCap c)
| ds_join j : d2_scaled (D2SetLineJoin j) (D2SetLineJoin j)
| ds_width (w : F E) : d2_scaled (D2SetLineWidth w) (D2SetLineWidth (E := E) (k * w))
| ds_dash off off' : d2_scaled (D2SetLineDash [] off) (D2SetLineDash [] off')
| ds_close : d2_scaled D2Close D2Close
| ds_begin : d2_scaled D2BeginPath D2BeginPath
| ds_move a b : nearF a b -> d2_scaled (D2MoveTo a) (D2MoveTo b)
| ds_line a b : nearF a b -> d2_scaled (D2LineTo a) (D2LineTo b)
| ds_quad a b a' b' : nearF a a' -> nearF b b' -> d2_scaled (D2QuadCurveTo a b) (D2QuadCurveTo a' b')
| ds_cube a b c a' b' c' : nearF a a' -> nearF b b' -> nearF c c' -> d2_scaled (D2CubicCurveTo a b c) (D2CubicCurveTo a' b' c')
| ds_fill : d2_scaled D2Fill D2Fill
| ds_stroke : d2_scaled D2Stroke D2Stroke
| ds_both : d2_scaled D2FillStroke D2FillStroke.
Inductive gg_scaled : ggCall E -> ggCall E -> Prop :=
| gs_reset : gg_scaled GgResetClip GgResetClip
| gs_mask d d' : Forall2 gg_scaled d d' -> gg_scaled (GgSetMask d) (GgSetMask d')
| gs_rule b : gg_scaled (GgSetFillRule b) (GgSetFillRule b)
| gs_fill c : gg_scaled (GgSetFillStyle (GgSolid c)) (GgSetFillStyle (GgSolid c))
| gs_color c : gg_scaled (GgSetColor c) (GgSetColor c)
| gs_cap c : gg_scaled (GgSetLineCap c) (GgSetLineCap c)
| gs_join j : gg_scaled (GgSetLineJoin j) (GgSetLineJoin j)
| gs_width (w : F E) : gg_scaled (GgSetLineWidth w) (GgSetLineWidth (E := E) (k * w))
| gs_dash : gg_scaled (GgSetDash []) (GgSetDash [])
| gs_offset off off' : gg_scaled (GgSetDashOffset off) (GgSetDashOffset off')
| gs_close : gg_scaled GgClosePath GgClosePath
| gs_sub : gg_scaled GgNewSubPath GgNewSubPath
| gs_move a b : nearF a b -> gg_scaled (GgMoveTo a) (GgMoveTo b)
| gs_line a b : nearF a b -> gg_scaled (GgLineTo a) (GgLineTo b)
| gs_quad a b a' b' : nearF a a' -> nearF b b' -> gg_scaled (GgQuadraticTo a b) (GgQuadraticTo a' b')
| gs_cube a b c a' b' c' : nearF a a' -> nearF b b' -> nearF c c' -> gg_scaled (GgCubicTo a b c) (GgCubicTo a' b' c')
| gs_paint : gg_scaled GgFill GgFill
| gs_preserve : gg_scaled GgFillPreserve GgFillPreserve
| gs_stroke : gg_scaled GgStroke GgStroke.

(** the points of an outline *)
Definition op_points (o : op) : list pt :=
  match o with OpMoveTo a => [a] | OpLineTo b => [b] | OpQuadTo b c => [b; c] | OpCubicTo b c d => [b; c; d] | OpClose => [] end.
(** moved by the matrix, the outline stays below the largest coordinate, 2^25 *)
Definition fits (m : matrix E) (sp : svgPath E) : Prop :=
  forall o p, List.In o (sp_path sp) -> List.In p (op_points o) ->
  Rabs (fst (maps m (IZR (fst p) / 64, IZR (snd p) / 64))) < 33554432 /\ Rabs (snd (maps m (IZR (fst p) / 64, IZR (snd p) / 64))) < 33554432.
(** the matrix the renderers use for a path *)
Definition drawn_by (s : svg E) (opts : list (renderOption E)) (sp : svgPath E) : matrix E := mMult (st_transform (sp_style sp)) (ro_target (options s opts)).
(** a paint that is not a gradient *)
Definition plain_paint (p : option (pattern E)) : Prop := match p with Some (PGrad _) => False | _ => True end.
(** the pen, too, is thinner than 2^25 *)
Definition pen_fits (m : matrix E) (sp : svgPath E) : Prop := Rabs (st_lineWidth (sp_style sp) * widen m) < 33554432.
(** no dashes, and the fill is not a gradient *)
Definition undashed (sp : svgPath E) : Prop := st_dash (sp_style sp) = [].
Definition plainly (sp : svgPath E) : Prop := undashed sp /\ plain_paint (st_filler (sp_style sp)).
(** the paths of the masks of a document *)
Definition mask_path (s : svg E) (q : svgPath E) : Prop := exists id mk, mget id (sv_masks s) = Some mk /\ List.In q (mk_paths mk).
(** [opts'] asks for the same picture as [opts] on a target [k] times as large *)
Definition enlarged (opts opts' : list (renderOption E)) : Prop :=
  last_opacity opts' = last_opacity opts
  /\ exists x y w h : R, last_target opts = Some (x, y, w, h) /\ last_target opts' = Some (x, y, k * w, k * h).
End Scale.

(** ** What stays the same on every target *)
(** dash patterns *)
Definition d2_dash_of {E : Env} (c : d2Call E) : list (list (F E) * F E) := match c with D2SetLineDash d off => [(d, off)] | _ => [] end.
(** dash patterns and gradients *)
Definition gg_fixed_of {E : Env} (c : ggCall E) : list (sum (list (F E)) (option (ggGradient (E := E)))) :=
  match c with GgSetDash d => [Datatypes.inl d] | GgSetFillStyle (GgGrad g) => [Datatypes.inr g] | _ => [] end.
(** gradients in user space *)
Definition rx_user_of {E : Env} (c : rxCall E) : list (rxGradient (E := E)) :=
  match c with RxSetColor _ (RxGrad g _) => match rg_units g with UserSpaceOnUse => [g] | _ => [] end | _ => [] end.

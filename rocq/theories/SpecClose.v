(** * SpecClose: drawings in binary64 and in exact arithmetic *)
From Coq Require Import Reals Floats.SpecFloat.
From Flocq Require Import Core.Core IEEE754.BinarySingleNaN.
From Verif Require Export SpecDraw SpecMatrix SpecScale SpecArc64.
Local Open Scope R_scope.

Section Close.
Context (O : Oracles) (Q : ROracles).
Notation E := (F64 O).
Notation X := (RealEnv Q).

(** ** The same document with real numbers *)
Definition ex_matrix (m : matrix E) : matrix X :=
  mkM (E := X) (value64 (mA m)) (value64 (mB m)) (value64 (mC m)) (value64 (mD m)) (value64 (mE m)) (value64 (mF m)).
Definition ex_bounds (b : bounds E) : bounds X := mkB (E := X) (value64 (bX b)) (value64 (bY b)) (value64 (bW b)) (value64 (bH b)).
Definition ex_stop (s : gradStop E) : gradStop X := mkStop (E := X) (stColor s) (value64 (stOffset s)) (value64 (stOpacity s)).
Definition ex_direction (d : direction E) : direction X :=
  match d with
  | Linear x1 y1 x2 y2 => Linear (E := X) (value64 x1) (value64 y1) (value64 x2) (value64 y2)
  | Radial cx cy fx fy r fr => Radial (E := X) (value64 cx) (value64 cy) (value64 fx) (value64 fy) (value64 r) (value64 fr)
  end.
Definition ex_gradient (g : gradient E) : gradient X :=
  mkGrad (option_map ex_direction (gDirection g)) (map ex_stop (gStops g)) (ex_bounds (gBounds g)) (ex_matrix (gMatrix g)) (gSpread g) (gUnits g).
Definition ex_pattern (p : pattern E) : pattern X := match p with PPlain r g b a => PPlain r g b a | PGrad g => PGrad (ex_gradient g) end.
Definition ex_style (s : style E) : style X :=
  mkStyle (E := X) (value64 (st_fillOpacity s)) (value64 (st_lineOpacity s)) (value64 (st_lineWidth s)) (st_nonZero s) (st_join s)
    (map value64 (st_dash s)) (value64 (st_dashOffset s)) (option_map ex_pattern (st_filler s)) (option_map ex_pattern (st_liner s)) (st_masks s) (ex_matrix (st_transform s)).
Definition ex_path (sp : svgPath E) : svgPath X := mkSvgPath (sp_path sp) (ex_style (sp_style sp)).
Definition ex_mask (m : svgMask E) : svgMask X :=
  mkMask (E := X) (mk_id m) (value64 (mk_x m)) (value64 (mk_y m)) (value64 (mk_w m)) (value64 (mk_h m)) (map ex_path (mk_paths m)) (ex_matrix (mk_transform m)).
Definition ex_svg (s : svg E) : svg X :=
  mkSvg (ex_bounds (sv_viewBox s)) (sv_titles s) (sv_descs s) (map ex_path (sv_paths s)) (ex_matrix (sv_transform s))
    (map (fun p => (fst p, ex_mask (snd p))) (sv_masks s)) (sv_width s) (sv_height s) (sv_grads s) (sv_defs s) (sv_mheap s).
Definition ex_option (o : renderOption E) : renderOption X :=
  match o with Opacity v => Opacity (E := X) (value64 v) | Target x y w h => Target (E := X) (value64 x) (value64 y) (value64 w) (value64 h) end.
Definition ex_options (opts : list (renderOption E)) : list (renderOption X) := map ex_option opts.

(** ** Close calls: coordinates differ by at most 1/64, line widths by at most 1/1024 (in rasterx, which
    gets them in 1/64, by one unit), the 8 bit alpha of a colour by at most 1, everything else is the same *)
Definition close_pt (a b : pt) : Prop := (Z.abs (fst a - fst b) <= 1 /\ Z.abs (snd a - snd b) <= 1)%Z.
Definition close_px (a : F E * F E) (b : F X * F X) : Prop := Rabs (value64 (fst a) - fst b) <= / 64 /\ Rabs (value64 (snd a) - snd b) <= / 64.
Definition close_width (w : F E) (w' : F X) : Prop := Rabs (value64 w - w') <= / 1024.
Definition close_opacity (o : F E) (o' : F X) : Prop := Rabs (value64 o - o') <= / 2 ^ 50.
Definition close_color (c c' : Z * Z * Z * Z) : Prop :=
  match c, c' with (r, g, b, a), (r', g', b', a') => r = r' /\ g = g' /\ b = b' /\ (Z.abs (a - a') <= 1)%Z end.
(** gradients of rasterx: in object units the bounds come from the library *)
Definition same_rx_gradient (g : rxGradient (E := E)) (g' : rxGradient (E := X)) : Prop :=
  rg_points g' = map value64 (rg_points g) /\ rg_stops g' = map ex_stop (rg_stops g) /\ rg_matrix g' = ex_matrix (rg_matrix g)
  /\ rg_spread g' = rg_spread g /\ rg_units g' = rg_units g /\ rg_isRadial g' = rg_isRadial g
  /\ (rg_units g = UserSpaceOnUse -> rg_bounds g' = ex_bounds (rg_bounds g)).
Inductive rx_close : rxCall E -> rxCall X -> Prop :=
| xc_clear t : rx_close (RxClear t) (RxClear t)
| xc_winding b : rx_close (RxSetWinding b) (RxSetWinding b)
| xc_stroke w w' m l t g j : (Z.abs (w - w') <= 1)%Z -> rx_close (RxSetStroke w m l t g j) (RxSetStroke w' m l t g j)
| xc_start t a b : close_pt a b -> rx_close (RxStart t a) (RxStart t b)
| xc_line t a b : close_pt a b -> rx_close (RxLine t a) (RxLine t b)
| xc_quad t a b a' b' : close_pt a a' -> close_pt b b' -> rx_close (RxQuad t a b) (RxQuad t a' b')
| xc_cube t a b c a' b' c' : close_pt a a' -> close_pt b b' -> close_pt c c' -> rx_close (RxCube t a b c) (RxCube t a' b' c')
| xc_stop t c : rx_close (RxStop t c) (RxStop t c)
| xc_plain t r g b a o o' : close_opacity o o' -> rx_close (RxSetColor t (RxPlain r g b a o)) (RxSetColor t (RxPlain r g b a o'))
| xc_gradient t g g' o o' : same_rx_gradient g g' -> close_opacity o o' -> rx_close (RxSetColor t (RxGrad g o)) (RxSetColor t (RxGrad g' o'))
| xc_draw t : rx_close (RxDraw t) (RxDraw t).
Inductive d2_close : d2Call E -> d2Call X -> Prop :=
| dc_rule b : d2_close (D2SetFillRule b) (D2SetFillRule b)
| dc_fillc c c' : close_color c c' -> d2_close (D2SetFillColor c) (D2SetFillColor c')
| dc_strokec c c' : close_color c c' -> d2_close (D2SetStrokeColor c) (D2SetStrokeColor c')
| dc_cap c : d2_close (D2SetLineCap c) (D2SetLineCap c)
| dc_join j : d2_close (D2SetLineJoin j) (D2SetLineJoin j)
| dc_width w w' : close_width w w' -> d2_close (D2SetLineWidth w) (D2SetLineWidth w')
| dc_dash (d : list (F E)) (off : F E) : d2_close (D2SetLineDash d off) (D2SetLineDash (E := X) (map value64 d) (value64 off))
| dc_close : d2_close D2Close D2Close
| dc_begin : d2_close D2BeginPath D2BeginPath
| dc_move a b : close_px a b -> d2_close (D2MoveTo a) (D2MoveTo b)
| dc_line a b : close_px a b -> d2_close (D2LineTo a) (D2LineTo b)
| dc_quad a b a' b' : close_px a a' -> close_px b b' -> d2_close (D2QuadCurveTo a b) (D2QuadCurveTo a' b')
| dc_cube a b c a' b' c' : close_px a a' -> close_px b b' -> close_px c c' -> d2_close (D2CubicCurveTo a b c) (D2CubicCurveTo a' b' c')
| dc_fill : d2_close D2Fill D2Fill
| dc_stroke : d2_close D2Stroke D2Stroke
| dc_both : d2_close D2FillStroke D2FillStroke.
Definition close_gg_stop (s : F E * (Z * Z * Z * Z)) (s' : F X * (Z * Z * Z * Z)) : Prop := fst s' = value64 (fst s) /\ close_color (snd s) (snd s').
Inductive close_gg_gradient : option (ggGradient (E := E)) -> option (ggGradient (E := X)) -> Prop :=
| gg_none : close_gg_gradient None None
| gg_linear (x0 y0 x1 y1 : F E) l l' : Forall2 close_gg_stop l l' ->
  close_gg_gradient (Some (GgLinear x0 y0 x1 y1 l)) (Some (GgLinear (E := X) (value64 x0) (value64 y0) (value64 x1) (value64 y1) l'))
| gg_radial (x0 y0 r0 x1 y1 r1 : F E) l l' : Forall2 close_gg_stop l l' ->
  close_gg_gradient (Some (GgRadial x0 y0 r0 x1 y1 r1 l)) (Some (GgRadial (E := X) (value64 x0) (value64 y0) (value64 r0) (value64 x1) (value64 y1) (value64 r1) l')).
Inductive gg_close : ggCall E -> ggCall X -> Prop :=
| gc_reset : gg_close GgResetClip GgResetClip
| gc_mask d d' : Forall2 gg_close d d' -> gg_close (GgSetMask d) (GgSetMask d')
| gc_rule b : gg_close (GgSetFillRule b) (GgSetFillRule b)
| gc_fill c c' : close_color c c' -> gg_close (GgSetFillStyle (GgSolid c)) (GgSetFillStyle (GgSolid c'))
| gc_gradient g g' : close_gg_gradient g g' -> gg_close (GgSetFillStyle (GgGrad g)) (GgSetFillStyle (GgGrad g'))
| gc_color c c' : close_color c c' -> gg_close (GgSetColor c) (GgSetColor c')
| gc_cap c : gg_close (GgSetLineCap c) (GgSetLineCap c)
| gc_join j : gg_close (GgSetLineJoin j) (GgSetLineJoin j)
| gc_width w w' : close_width w w' -> gg_close (GgSetLineWidth w) (GgSetLineWidth w')
| gc_dash (d : list (F E)) : gg_close (GgSetDash d) (GgSetDash (E := X) (map value64 d))
| gc_offset (off : F E) : gg_close (GgSetDashOffset off) (GgSetDashOffset (E := X) (value64 off))
| gc_close : gg_close GgClosePath GgClosePath
| gc_sub : gg_close GgNewSubPath GgNewSubPath
| gc_move a b : close_px a b -> gg_close (GgMoveTo a) (GgMoveTo b)
| gc_line a b : close_px a b -> gg_close (GgLineTo a) (GgLineTo b)
| gc_quad a b a' b' : close_px a a' -> close_px b b' -> gg_close (GgQuadraticTo a b) (GgQuadraticTo a' b')
| gc_cube a b c a' b' c' : close_px a a' -> close_px b b' -> close_px c c' -> gg_close (GgCubicTo a b c) (GgCubicTo a' b' c')
| gc_paint : gg_close GgFill GgFill
| gc_preserve : gg_close GgFillPreserve GgFillPreserve
| gc_stroke : gg_close GgStroke GgStroke.

(** ** Documents of reasonable measures: scale factors up to 2^10, offsets, widths and coordinates
    up to 2^17 pixels, opacities between 0 and 1 *)
Definition upto (b : nat) (x : F E) : Prop := finite64 x /\ Rabs (value64 x) <= 2 ^ b.
Definition part (x : F E) : Prop := finite64 x /\ 0 <= value64 x <= 1.
Definition sized_matrix (m : matrix E) : Prop := upto 10 (mA m) /\ upto 10 (mB m) /\ upto 10 (mC m) /\ upto 10 (mD m) /\ upto 17 (mE m) /\ upto 17 (mF m).
Definition byte_alpha (c : color) : Prop := match c with CNRGBA _ _ _ a | CRGBA _ _ _ a => (0 <= a < 256)%Z end.
Definition sized_paint (p : option (pattern E)) : Prop :=
  match p with
  | None => True
  | Some (PPlain _ _ _ a) => (0 <= a < 256)%Z
  | Some (PGrad g) => forall st, List.In st (gStops g) -> part (stOpacity st) /\ match stColor st with Some c => byte_alpha c | None => True end
  end.
Definition sized_path (sp : svgPath E) : Prop :=
  let st := sp_style sp in
  sized_matrix (st_transform st) /\ upto 17 (st_lineWidth st) /\ part (st_fillOpacity st) /\ part (st_lineOpacity st)
  /\ sized_paint (st_filler st) /\ sized_paint (st_liner st)
  /\ forall o p, List.In o (sp_path sp) -> List.In p (op_points o) -> (Z.abs (fst p) <= 2 ^ 23 /\ Z.abs (snd p) <= 2 ^ 23)%Z.
Definition sized_target (vb : bounds E) (opts : list (renderOption E)) : Prop :=
  upto 17 (bX vb) /\ upto 17 (bY vb) /\ finite64 (bW vb) /\ finite64 (bH vb) /\ value64 (bW vb) <> 0 /\ value64 (bH vb) <> 0
  /\ match last_opacity opts with Some o => part o | None => True end
  /\ exists x y w h : F E, last_target opts = Some (x, y, w, h) /\ upto 17 x /\ upto 17 y /\ finite64 w /\ finite64 h
     /\ Rabs (value64 w / value64 (bW vb)) <= 2 ^ 10 /\ Rabs (value64 h / value64 (bH vb)) <= 2 ^ 10.
(** with exact arithmetic, the points and the pen of a path stay a pixel below the largest coordinate, 2^25 *)
Definition stays (m : matrix X) (sp : svgPath E) : Prop :=
  (forall o p, List.In o (sp_path sp) -> List.In p (op_points o) ->
   Rabs (fst (maps m (IZR (fst p) / 64, IZR (snd p) / 64))) <= 33554431 /\ Rabs (snd (maps m (IZR (fst p) / 64, IZR (snd p) / 64))) <= 33554431)
  /\ Rabs (value64 (st_lineWidth (sp_style sp)) * widen m) <= 33554431.
(** the matrix of a path in exact arithmetic *)
Definition placed (s : svg E) (opts : list (renderOption E)) (sp : svgPath E) : matrix X := drawn_by Q (ex_svg s) (ex_options opts) (ex_path sp).
End Close.

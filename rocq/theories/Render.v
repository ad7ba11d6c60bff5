(** * Render: renderer/options.go and the three renderers

    A renderer is modelled by the list of calls it makes on the graphics context of the
    external library (rasterx, draw2d, gg), in order, with their arguments. *)
From Verif Require Export Elements.

(** image/color: NRGBA.RGBA and RGBA.RGBA, alpha-premultiplied 16 bit components *)
Definition colorRGBA (c : color) : Z * Z * Z * Z :=
  match c with
  | CNRGBA r g b a => ((r * 257 * a) / 255, (g * 257 * a) / 255, (b * 257 * a) / 255, a * 257)%Z
  | CRGBA r g b a => (r * 257, g * 257, b * 257, a * 257)%Z
  end.

Section Render.
Context {E : Env}.
Notation F := (F E).
Notation "# z" := (fnum E z%Z) (at level 1, format "# z").
Notation svg := (svg E).
Notation svgPath := (svgPath E).
Notation matrix := (matrix E).

(** ** renderer/options.go *)
(** options.go:7-12 RenderOptions *)
Record renderOptions := mkRO { ro_opacity : F; ro_target : matrix }.
(** options.go:15-39 the two implementations of RenderOption *)
Inductive renderOption := Opacity (o : F) | Target (x y w h : F).
(** options.go:22-34 apply *)
Definition applyOption (s : svg) (r : renderOptions) (o : renderOption) : renderOptions :=
  match o with
  | Opacity o => mkRO o (ro_target r)
  | Target x y w h =>
    let scaleW := fdiv E w (bW (sv_viewBox s)) in
    let scaleH := fdiv E h (bH (sv_viewBox s)) in
    mkRO (ro_opacity r)
         (mScale (mTranslate identity (fsub E x (bX (sv_viewBox s))) (fsub E y (bY (sv_viewBox s))))
                 scaleW scaleH)
  end.
(** options.go:42-50 Options; the zero value of Matrix2D is all zeros *)
Definition options (s : svg) (opts : list renderOption) : renderOptions :=
  fold_left (applyOption s) opts (mkRO #1 (mkM #0 #0 #0 #0 #0 #0)).

(** ** colours of draw2d and gg *)
(** draw2d/draw.go:65-68, gg/draw.go:70-73 toColor: the NRGBA bytes *)
Definition toColor (c : color) (opacity : F) : Z * Z * Z * Z :=
  let '(r, g, b, a) := colorRGBA c in
  (uint8 (r / 256), uint8 (g / 256), uint8 (b / 256),
   uint8 (f_to_u32 E (fmul E (f_of_Z E a) opacity) / 256))%Z.

(** draw2d/draw.go:70-72 toGradient; gg uses the same for strokes (gg/draw.go:130) *)
Definition toFlat (p : pattern E) (opacity : F) : Z * Z * Z * Z :=
  toColor (getColor (Some p)) opacity.

(** ** renderer/rasterx/draw.go *)
(** the two drawing targets: &gc.Filler and &gc.Stroker *)
Inductive rxTarget := Filler | Stroker.
(** rasterx.Gradient as built by toRasterxGradient *)
Record rxGradient := mkRxGrad {
  rg_points : list F; rg_stops : list (gradStop E); rg_bounds : bounds E; rg_matrix : matrix;
  rg_spread : spreadMethod; rg_units : gradUnits; rg_isRadial : bool }.
Inductive rxPaint :=
| RxPlain (r g b a : Z) (opacity : F)                 (* rasterx.ApplyOpacity(color, opacity) *)
| RxGrad (g : rxGradient) (opacity : F).              (* g.GetColorFunction(opacity) *)
Inductive rxCap := RxButt | RxCubic | RxQuadratic | RxRound | RxSquare.
Inductive rxGap := RxFlatGap | RxRoundGap | RxCubicGap | RxQuadraticGap.
Inductive rxCall :=
| RxClear (t : rxTarget)
| RxSetWinding (nonZero : bool)
| RxSetStroke (width miter : Z) (lead trail : rxCap) (gap : rxGap) (join : joinMode)
| RxStart (t : rxTarget) (a : pt)
| RxLine (t : rxTarget) (b : pt)
| RxQuad (t : rxTarget) (b c : pt)
| RxCube (t : rxTarget) (b c d : pt)
| RxStop (t : rxTarget) (close : bool)
| RxSetColor (t : rxTarget) (p : rxPaint)
| RxDraw (t : rxTarget).

(** rasterx/draw.go:19-49 drawToStroker, drawToFiller *)
Definition rxOp (t : rxTarget) (m : matrix) (o : op) : list rxCall :=
  match mapOp m o with
  | OpMoveTo a => [RxStop t false; RxStart t a]
  | OpLineTo b => [RxLine t b]
  | OpQuadTo b c => [RxQuad t b c]
  | OpCubicTo b c d => [RxCube t b c d]
  | OpClose => [RxStop t true]
  end.
(** rasterx/draw.go:51-63 toLineGap *)
Definition rxLineGap (g : gapMode) : rxGap :=
  match g with
  | FlatGap => RxFlatGap | RoundGap => RxRoundGap | CubicGap => RxCubicGap
  | QuadraticGap => RxQuadraticGap | NilGap => RxFlatGap
  end.
(** rasterx/draw.go:65-82 toLineCap *)
Definition rxLineCap (c : capMode) (def : rxCap) : rxCap :=
  match c with
  | NilCap => def | ButtCap => RxButt | CubicCap => RxCubic | QuadraticCap => RxQuadratic
  | RoundCap => RxRound | SquareCap => RxSquare
  end.
(** rasterx/draw.go:84-100 toLineJoin: the modes of the same name *)
Definition rxLineJoin (j : joinMode) : joinMode :=
  match j with
  | Arc => Arc | ArcClip => ArcClip | Miter => Miter | MiterClip => MiterClip
  | Round => Round | Bevel => Bevel
  end.
(** rasterx/draw.go:102-128 toRasterxGradient *)
Definition toRasterxGradient (g : gradient E) : rxGradient :=
  let '(points, isRadial) :=
    match gDirection g with
    | Some (Linear x1 y1 x2 y2) => ([x1; y1; x2; y2; #0], false)
    | Some (Radial cx cy fx fy r fr) => ([cx; cy; fx; fy; r], true)
    | None => ([#0; #0; #0; #0; #0], false)
    end in
  mkRxGrad points (gStops g) (gBounds g) (gMatrix g) (gSpread g) (gUnits g) isRadial.

(** rasterx: GetPathExtent, an oracle on the calls made so far: (min x, min y, max x, max y) *)
Definition extentOracle := list rxCall -> Z * Z * Z * Z.

Definition rxPaintOf (ext : extentOracle) (before : list rxCall) (p : pattern E) (opacity : F) : rxPaint :=
  match p with
  | PPlain r g b a => RxPlain r g b a opacity
  | PGrad g =>
    let '(x0, y0, x1, y1) := ext before in
    RxGrad (toRasterxGradient (fst (applyPathExtent g x0 y0 x1 y1))) opacity
  end.

(** rasterx/draw.go:131-180 drawTransformed.  The extent oracle sees the calls made for this
    target since Clear. *)
Definition rxFill (ext : extentOracle) (m : matrix) (opt : renderOptions) (sp : svgPath)
                  (p : pattern E) : list rxCall :=
  let st := sp_style sp in
  let geo := [RxClear Filler; RxSetWinding (st_nonZero st)]
             ++ flat_map (rxOp Filler m) (sp_path sp) ++ [RxStop Filler false] in
  geo ++ [RxSetColor Filler (rxPaintOf ext geo p (fmul E (st_fillOpacity st) (ro_opacity opt)));
          RxDraw Filler].
Definition rxStrokeCalls (ext : extentOracle) (m : matrix) (opt : renderOptions) (sp : svgPath)
                    (p : pattern E) : list rxCall :=
  let st := sp_style sp in
  let j := st_join st in
  let geo := [RxClear Stroker;
              RxSetStroke (f_to_i32 E (fmul E (fmul E (st_lineWidth st) #64) (lineWidthScale m)))
                          (jMiterLimit j)
                          (rxLineCap (jLeadLineCap j) (rxLineCap (jTrailLineCap j) RxButt))
                          (rxLineCap (jTrailLineCap j) RxButt)
                          (rxLineGap (jLineGap j)) (rxLineJoin (jLineJoin j))]
             ++ flat_map (rxOp Stroker m) (sp_path sp) ++ [RxStop Stroker false] in
  geo ++ [RxSetColor Stroker (rxPaintOf ext geo p (fmul E (st_lineOpacity st) (ro_opacity opt)));
          RxDraw Stroker].
Definition rxDrawTransformed (ext : extentOracle) (opt : renderOptions) (sp : svgPath) : list rxCall :=
  let st := sp_style sp in
  let m := mMult (st_transform st) (ro_target opt) in
  (match st_filler st with Some p => rxFill ext m opt sp p | None => [] end)
  ++ (match st_liner st with Some p => rxStrokeCalls ext m opt sp p | None => [] end).
(** rasterx/draw.go:12-17 Draw *)
Definition rxDrawSvg (ext : extentOracle) (s : svg) (opts : list renderOption) : list rxCall :=
  flat_map (rxDrawTransformed ext (options s opts)) (sv_paths s).

(** ** renderer/draw2d/draw.go *)
Inductive lineCap := LcButt | LcRound | LcSquare.
Inductive lineJoin := LjMiter | LjRound | LjBevel.
Inductive d2Call :=
| D2SetFillRule (winding : bool)              (* FillRuleWinding / FillRuleEvenOdd (the zero value) *)
| D2SetFillColor (c : Z * Z * Z * Z)
| D2SetStrokeColor (c : Z * Z * Z * Z)
| D2SetLineCap (c : lineCap)
| D2SetLineJoin (j : lineJoin)
| D2SetLineWidth (w : F)
| D2SetLineDash (d : list F) (off : F)
| D2Close | D2BeginPath
| D2MoveTo (a : F * F) | D2LineTo (b : F * F)
| D2QuadCurveTo (b c : F * F) | D2CubicCurveTo (b c d : F * F)
| D2Fill | D2Stroke | D2FillStroke.

(** float64(t.X)/64, float64(t.Y)/64 *)
Definition toFloat (a : pt) : F * F := (fdiv E (f_of_Z E (fst a)) #64, fdiv E (f_of_Z E (snd a)) #64).

(** draw2d/draw.go:20-39 drawTo *)
Definition d2Op (m : matrix) (o : op) : list d2Call :=
  match mapOp m o with
  | OpMoveTo a => [D2Close; D2BeginPath; D2MoveTo (toFloat a)]
  | OpLineTo b => [D2LineTo (toFloat b)]
  | OpQuadTo b c => [D2QuadCurveTo (toFloat b) (toFloat c)]
  | OpCubicTo b c d => [D2CubicCurveTo (toFloat b) (toFloat c) (toFloat d)]
  | OpClose => [D2Close]
  end.
(** draw2d/draw.go:41-51, gg/draw.go:46-56 toLineCap *)
Definition toLineCap (c : capMode) : lineCap :=
  match c with RoundCap => LcRound | SquareCap => LcSquare | _ => LcButt end.
(** draw2d/draw.go:53-63 toLineJoin *)
Definition d2LineJoin (j : joinMode) : lineJoin :=
  match j with Round => LjRound | Bevel => LjBevel | _ => LjMiter end.
(** draw2d/draw.go:75-117 drawTransformed *)
Definition d2DrawTransformed (opt : renderOptions) (sp : svgPath) : list d2Call :=
  let st := sp_style sp in
  let m := mMult (st_transform st) (ro_target opt) in
  (match st_filler st with
   | Some p => [D2SetFillRule (st_nonZero st);
                D2SetFillColor (toFlat p (fmul E (st_fillOpacity st) (ro_opacity opt)))]
   | None => []
   end)
  ++ (match st_liner st with
      | Some p => [D2SetLineCap (toLineCap (jTrailLineCap (st_join st)));
                   D2SetLineJoin (d2LineJoin (jLineJoin (st_join st)));
                   D2SetStrokeColor (toFlat p (fmul E (st_lineOpacity st) (ro_opacity opt)));
                   D2SetLineWidth (fmul E (st_lineWidth st) (lineWidthScale m));
                   D2SetLineDash (st_dash st) (st_dashOffset st)]
      | None => []
      end)
  ++ flat_map (d2Op m) (sp_path sp)
  ++ (match st_filler st, st_liner st with
      | Some _, Some _ => [D2FillStroke]
      | Some _, None => [D2Fill]
      | None, Some _ => [D2Stroke]
      | None, None => []
      end).
(** draw2d/draw.go:13-18 Draw *)
Definition d2DrawSvg (s : svg) (opts : list renderOption) : list d2Call :=
  flat_map (d2DrawTransformed (options s opts)) (sv_paths s).

(** ** renderer/gg/draw.go *)
Inductive ggGradient :=
| GgLinear (x0 y0 x1 y1 : F) (stops : list (F * (Z * Z * Z * Z)))
| GgRadial (x0 y0 r0 x1 y1 r1 : F) (stops : list (F * (Z * Z * Z * Z))).
Inductive ggPaint := GgSolid (c : Z * Z * Z * Z) | GgGrad (g : option ggGradient).
Inductive ggCall :=
| GgResetClip
| GgSetMask (drawing : list ggCall)           (* the alpha of a fresh context after these calls *)
| GgSetFillRule (winding : bool)
| GgSetFillStyle (p : ggPaint)
| GgSetColor (c : Z * Z * Z * Z)
| GgSetLineCap (c : lineCap)
| GgSetLineJoin (j : lineJoin)
| GgSetLineWidth (w : F)
| GgSetDash (d : list F)
| GgSetDashOffset (off : F)
| GgClosePath | GgNewSubPath
| GgMoveTo (a : F * F) | GgLineTo (b : F * F)
| GgQuadraticTo (b c : F * F) | GgCubicTo (b c d : F * F)
| GgFill | GgFillPreserve | GgStroke.

(** gg/draw.go:25-44 drawTo *)
Definition ggOp (m : matrix) (o : op) : list ggCall :=
  match mapOp m o with
  | OpMoveTo a => [GgClosePath; GgNewSubPath; GgMoveTo (toFloat a)]
  | OpLineTo b => [GgLineTo (toFloat b)]
  | OpQuadTo b c => [GgQuadraticTo (toFloat b) (toFloat c)]
  | OpCubicTo b c d => [GgCubicTo (toFloat b) (toFloat c) (toFloat d)]
  | OpClose => [GgClosePath]
  end.
(** gg/draw.go:58-68 toLineJoin *)
Definition ggLineJoin (j : joinMode) : lineJoin :=
  match j with Round => LjRound | _ => LjBevel end.

(** gg/draw.go:85-87 the stops; c.RGBA() on a nil interface panics *)
Fixpoint ggStops (l : list (gradStop E)) (opacity : F) : outcome (list (F * (Z * Z * Z * Z))) :=
  match l with
  | [] => Ret []
  | s :: r =>
    match stColor s with
    | None => Panic
    | Some c =>
      rest <~ ggStops r opacity ;;
      Ret ((stOffset s, toColor c (fmul E (stOpacity s) opacity)) :: rest)
    end
  end.
(** gg/draw.go:75-89 toGradient; with a nil Direction the gradient is nil, and AddColorStop on it
    panics *)
Definition ggToGradient (g : gradient E) (opacity : F) : outcome (option ggGradient) :=
  match gDirection g with
  | Some (Linear x1 y1 x2 y2) =>
    l <~ ggStops (gStops g) opacity ;; Ret (Some (GgLinear x1 y1 x2 y2 l))
  | Some (Radial cx cy fx fy r fr) =>
    l <~ ggStops (gStops g) opacity ;; Ret (Some (GgRadial cx cy r fx fy fr l))
  | None => match gStops g with [] => Ret None | _ => Panic end
  end.

Fixpoint omap {A B} (f : A -> outcome (list B)) (l : list A) : outcome (list B) :=
  match l with
  | [] => Ret []
  | a :: r => x <~ f a ;; y <~ omap f r ;; Ret (x ++ y)
  end.

(** gg/draw.go:102-154: drawTransformed after the mask has been computed; [mask] is None when no
    mask applies.  SetMask fails only if the mask size differs from the context's; getMask creates
    it with the context's size, so that error is not modelled. *)
Definition ggDrawPath (mask : option (list ggCall)) (sp : svgPath) (m : matrix) (opacity : F)
  : outcome (list ggCall) :=
  let st := sp_style sp in
  fillStyle <~ (match st_filler st with
                | Some (PGrad g) =>
                  gr <~ ggToGradient g (fmul E (st_fillOpacity st) opacity) ;; Ret (Some (GgGrad gr))
                | Some (PPlain r g b a) =>
                  Ret (Some (GgSolid (toColor (CNRGBA r g b a) (fmul E (st_fillOpacity st) opacity))))
                | None => Ret None
                end) ;;
  Ret (
    (match mask with Some d => [GgSetMask d] | None => [GgResetClip] end)
    ++ (match fillStyle with
        | Some f => [GgSetFillRule (st_nonZero st); GgSetFillStyle f]
        | None => []
        end)
    ++ (match st_liner st with
        | Some p => [GgSetLineCap (toLineCap (jTrailLineCap (st_join st)));
                     GgSetLineJoin (ggLineJoin (jLineJoin (st_join st)));
                     GgSetColor (toFlat p (fmul E (st_lineOpacity st) opacity));
                     GgSetLineWidth (fmul E (st_lineWidth st) (lineWidthScale m));
                     GgSetDash (st_dash st);
                     GgSetDashOffset (st_dashOffset st)]
        | None => []
        end)
    ++ flat_map (ggOp m) (sp_path sp)
    ++ (match st_filler st, st_liner st with
        | Some _, Some _ => [GgFillPreserve]
        | Some _, None => [GgFill]
        | None, _ => []
        end)
    ++ (match st_liner st with Some _ => [GgStroke] | None => [] end)).

(** gg/draw.go:92-154 drawTransformed with gg/draw.go:156-187 getMask inlined.  The recursion
    through getMask is bounded by [fuel].  Only the last mask of the list is looked up; the
    drawing of the mask uses the matrix of the masked path. *)
Fixpoint ggDrawTransformed (fuel : nat) (s : svg) (sp : svgPath) (m : matrix) (opacity : F)
  : outcome (list ggCall) :=
  match fuel with
  | O => NoFuel
  | S f =>
    mask <~ (match rev (slice_read (sv_mheap s) (st_masks (sp_style sp))) with
             | [] => Ret None
             | id :: _ =>
               match mget id (sv_masks s) with
               | None => Ret None
               | Some mk =>
                 calls <~ omap (fun q => ggDrawTransformed f s q m #1) (mk_paths mk) ;;
                 Ret (Some calls)
               end
             end) ;;
    ggDrawPath mask sp m opacity
  end.
(** gg/draw.go:14-23 Draw *)
Definition ggDrawSvg (fuel : nat) (s : svg) (opts : list renderOption) : outcome (list ggCall) :=
  let opt := options s opts in
  omap (fun sp => ggDrawTransformed fuel s sp (mMult (st_transform (sp_style sp)) (ro_target opt))
                                    (ro_opacity opt)) (sv_paths s).

End Render.
Arguments renderOption : clear implicits. Arguments renderOptions : clear implicits.
Arguments rxCall : clear implicits. Arguments d2Call : clear implicits. Arguments ggCall : clear implicits.

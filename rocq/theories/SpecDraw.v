(** * SpecDraw: what calls on the graphics libraries paint, and what a document should look like

    The three graphics libraries are described by machines that turn calls into painted items, as
    their documentation says; they are a reading of external code, not part of the model. *)
From Verif Require Export Render SpecSafe.

(** ** Subpaths *)
Section Outline.
Context {G : Type}.
Inductive seg := SLine (b : G) | SQuad (b c : G) | SCube (b c d : G).
(** a subpath; without a start it goes on where the library's pen is *)
Record sub := mkSub { s_start : option G; s_segs : list seg; s_closed : bool }.
Definition open_sub : Type := option (option G * list seg).
Definition finish (closed : bool) (cur : open_sub) : list sub :=
  match cur with None => [] | Some (st, l) => [mkSub st l closed] end.
Definition more (cur : open_sub) (s : seg) : open_sub :=
  match cur with None => Some (None, [s]) | Some (st, l) => Some (st, l ++ [s]) end.
(** the subpaths of a path whose points are mapped by [f] *)
Fixpoint grouped (f : pt -> G) (cur : open_sub) (ops : list op) : list sub :=
  match ops with
  | [] => finish false cur
  | OpMoveTo a :: r => finish false cur ++ grouped f (Some (Some (f a), [])) r
  | OpLineTo b :: r => grouped f (more cur (SLine (f b))) r
  | OpQuadTo b c :: r => grouped f (more cur (SQuad (f b) (f c))) r
  | OpCubicTo b c d :: r => grouped f (more cur (SCube (f b) (f c) (f d))) r
  | OpClose :: r => finish true cur ++ grouped f None r
  end.
Definition subpaths (f : pt -> G) (ops : list op) : list sub := grouped f None ops.
End Outline.
Arguments sub : clear implicits. Arguments seg : clear implicits. Arguments open_sub : clear implicits.

(** ** Machines *)
Section Run.
Context {St Call Item : Type} (step : St -> Call -> St * list Item).
Fixpoint run (s : St) (cs : list Call) : St * list Item :=
  match cs with
  | [] => (s, [])
  | c :: r => let '(s1, i1) := step s c in let '(s2, i2) := run s1 r in (s2, i1 ++ i2)
  end.
(** what is painted *)
Definition painted (s : St) (cs : list Call) : list Item := snd (run s cs).
End Run.

Section Draw.
Context {E : Env}.
Notation F := (F E).
Notation "# z" := (fnum E z%Z) (at level 1, format "# z").

(** a fixed point (in 1/64) after the affine map of the matrix *)
Definition moved (m : matrix E) (p : pt) : pt :=
  let x := f_of_Z E (fst p) in let y := f_of_Z E (snd p) in
  (f_to_i32 E (fadd E (fadd E (fmul E x (mA m)) (fmul E y (mC m))) (fmul E (mE m) #64)),
   f_to_i32 E (fadd E (fadd E (fmul E x (mB m)) (fmul E y (mD m))) (fmul E (mF m) #64))).
(** the same in pixels *)
Definition moved_px (m : matrix E) (p : pt) : F * F :=
  let q := moved m p in (fdiv E (f_of_Z E (fst q)) #64, fdiv E (f_of_Z E (snd q)) #64).
(** the factor of stroke widths: the mean of the diagonal *)
Definition widen (m : matrix E) : F := fdiv E (fadd E (mA m) (mD m)) #2.
(** 8 bit alpha of an opacity, and an opaque colour drawn with it *)
Definition alpha (o : F) : Z := Z.modulo (f_to_u32 E (fmul E (f_of_Z E 65535) o) / 256) 256.
Definition byte (z : Z) : Prop := (0 <= z < 256)%Z.
Inductive shade : color -> F -> Z * Z * Z * Z -> Prop :=
| shade_n r g b o : byte r -> byte g -> byte b -> shade (CNRGBA r g b 255) o (r, g, b, alpha o)
| shade_p r g b o : byte r -> byte g -> byte b -> shade (CRGBA r g b 255) o (r, g, b, alpha o).

(** *** rasterx: Filler and Stroker share one Scanner; a subpath counts when it is ended by Stop *)
Record pens := mkPens { p_width : Z; p_miter : Z; p_lead : rxCap; p_trail : rxCap; p_gap : rxGap; p_join : joinMode }.
(** area to paint: the inside of a subpath, or its stroke with some pen *)
Inductive rxTag := Inside | Along (p : option pens).
Record rxItem := mkRxItem { i_nonZero : bool; i_area : list (rxTag * sub pt); i_paint : option (rxPaint (E := E)) }.
Record rxState := mkRx { x_nonZero : bool; x_pens : option pens; x_paint : option (rxPaint (E := E));
  x_area : list (rxTag * sub pt); x_cur : option (rxTarget * rxTag * (option pt * list (seg pt))) }.
Definition rx_tag (s : rxState) (t : rxTarget) : rxTag := match t with Filler => Inside | Stroker => Along (x_pens s) end.
Definition rx_flush (closed : bool) (s : rxState) : list (rxTag * sub pt) :=
  x_area s ++ match x_cur s with None => [] | Some (_, tag, (st, l)) => [(tag, mkSub st l closed)] end.
Definition rx_more (s : rxState) (t : rxTarget) (g : seg pt) : rxState :=
  match x_cur s, t with
  | Some (Filler, tag, (st, l)), Filler => mkRx (x_nonZero s) (x_pens s) (x_paint s) (x_area s) (Some (Filler, tag, (st, l ++ [g])))
  | Some (Stroker, tag, (st, l)), Stroker => mkRx (x_nonZero s) (x_pens s) (x_paint s) (x_area s) (Some (Stroker, tag, (st, l ++ [g])))
  | _, _ => mkRx (x_nonZero s) (x_pens s) (x_paint s) (rx_flush false s) (Some (t, rx_tag s t, (None, [g])))
  end.
Definition rx_step (s : rxState) (c : rxCall E) : rxState * list rxItem :=
  let '(mkRx w p q a cur) := s in
  match c with
  | RxClear _ => (mkRx w p q [] None, [])
  | RxSetWinding b => (mkRx b p q a cur, [])
  | RxSetStroke width miter lead trail gap join => (mkRx w (Some (mkPens width miter lead trail gap join)) q a cur, [])
  | RxStart t x => (mkRx w p q a (Some (t, rx_tag s t, (Some x, []))), [])     (* the outline of an unfinished subpath is not completed *)
  | RxLine t b => (rx_more s t (SLine b), [])
  | RxQuad t b c => (rx_more s t (SQuad b c), [])
  | RxCube t b c d => (rx_more s t (SCube b c d), [])
  | RxStop _ closed => (mkRx w p q (rx_flush closed s) None, [])
  | RxSetColor _ x => (mkRx w p (Some x) a cur, [])
  | RxDraw _ => (s, [mkRxItem w a q])
  end.
(** the area built by some calls on a new context *)
Definition rx_area (cs : list (rxCall E)) : list (rxTag * sub pt) :=
  rx_flush false (fst (run rx_step (mkRx true None None [] None) cs)).
(** what a paint of the document becomes; the bounds of a gradient in object units are the box of the area *)
Definition rx_paint (box : list (rxTag * sub pt) -> Z * Z * Z * Z) (area : list (rxTag * sub pt)) (p : pattern E) (o : F) : rxPaint :=
  match p with
  | PPlain r g b a => RxPlain r g b a o
  | PGrad g =>
    let '(x0, y0, x1, y1) := box area in
    let px z := fdiv E (f_of_Z E z) #64 in
    let bounds := match gUnits g with
                  | ObjectBoundingBox => mkB (px x0) (px y0) (fsub E (px x1) (px x0)) (fsub E (px y1) (px y0))
                  | UserSpaceOnUse => gBounds g
                  end in
    let '(points, radial) := match gDirection g with
                  | Some (Linear x1 y1 x2 y2) => ([x1; y1; x2; y2; #0], false)
                  | Some (Radial cx cy fx fy r _) => ([cx; cy; fx; fy; r], true)
                  | None => ([#0; #0; #0; #0; #0], false)
                  end in
    RxGrad (mkRxGrad points (gStops g) bounds (gMatrix g) (gSpread g) (gUnits g) radial) o
  end.
Definition rx_cap (c : capMode) : option rxCap :=
  match c with NilCap => None | ButtCap => Some RxButt | CubicCap => Some RxCubic | QuadraticCap => Some RxQuadratic
             | RoundCap => Some RxRound | SquareCap => Some RxSquare end.
Definition or_else {A} (o : option A) (d : A) : A := match o with Some a => a | None => d end.
Definition rx_pens (m : matrix E) (st : style E) : pens :=
  let j := st_join st in
  let trail := or_else (rx_cap (jTrailLineCap j)) RxButt in
  mkPens (f_to_i32 E (fmul E (fmul E (st_lineWidth st) #64) (widen m))) (jMiterLimit j)
    (or_else (rx_cap (jLeadLineCap j)) trail) trail
    (match jLineGap j with RoundGap => RxRoundGap | CubicGap => RxCubicGap | QuadraticGap => RxQuadraticGap | _ => RxFlatGap end)
    (jLineJoin j).
(** the items of a path: the fill if it has a fill paint, then the stroke if it has a stroke paint;
    [rule] is the winding rule applied to the stroke *)
Definition rx_items box (opt : renderOptions E) (rule : bool) (sp : svgPath E) : list rxItem :=
  let st := sp_style sp in
  let m := mMult (st_transform st) (ro_target opt) in
  let subs := subpaths (moved m) (sp_path sp) in
  (match st_filler st with
   | Some p => let area := map (pair Inside) subs in
               [mkRxItem (st_nonZero st) area (Some (rx_paint box area p (fmul E (st_fillOpacity st) (ro_opacity opt))))]
   | None => []
   end)
  ++ (match st_liner st with
      | Some p => let area := map (pair (Along (Some (rx_pens m st)))) subs in
                  [mkRxItem rule area (Some (rx_paint box area p (fmul E (st_lineOpacity st) (ro_opacity opt))))]
      | None => []
      end).
(** the winding rule after a path *)
Definition rule_after (rule : bool) (sp : svgPath E) : bool :=
  match st_filler (sp_style sp) with Some _ => st_nonZero (sp_style sp) | None => rule end.
Fixpoint rx_all box opt (rule : bool) (sps : list (svgPath E)) : list rxItem :=
  match sps with
  | [] => []
  | sp :: r => rx_items box opt (rule_after rule sp) sp ++ rx_all box opt (rule_after rule sp) r
  end.

(** *** draw2d *)
Record d2Pens := mkD2Pens { dp_cap : lineCap; dp_join : lineJoin; dp_width : F; dp_dash : list F; dp_offset : F }.
Inductive d2Item :=
| D2Filled (area : list (sub (F * F))) (winding : bool) (c : Z * Z * Z * Z)
| D2Stroked (area : list (sub (F * F))) (p : d2Pens) (c : Z * Z * Z * Z).
Record d2State := mkD2 { d_rule : bool; d_fill : Z * Z * Z * Z; d_stroke : Z * Z * Z * Z; d_pens : d2Pens;
  d_done : list (sub (F * F)); d_cur : open_sub (F * F) }.
Definition d2_step (s : d2State) (c : d2Call E) : d2State * list d2Item :=
  let '(mkD2 rule fill stroke pens done cur) := s in
  let '(mkD2Pens cap join width dash off) := pens in
  let area := done ++ finish false cur in
  let add g := (mkD2 rule fill stroke pens done (more cur g), []) in
  let empty := mkD2 rule fill stroke pens [] None in
  match c with
  | D2SetFillRule b => (mkD2 b fill stroke pens done cur, [])
  | D2SetFillColor x => (mkD2 rule x stroke pens done cur, [])
  | D2SetStrokeColor x => (mkD2 rule fill x pens done cur, [])
  | D2SetLineCap x => (mkD2 rule fill stroke (mkD2Pens x join width dash off) done cur, [])
  | D2SetLineJoin x => (mkD2 rule fill stroke (mkD2Pens cap x width dash off) done cur, [])
  | D2SetLineWidth x => (mkD2 rule fill stroke (mkD2Pens cap join x dash off) done cur, [])
  | D2SetLineDash d o => (mkD2 rule fill stroke (mkD2Pens cap join width d o) done cur, [])
  | D2Close => (mkD2 rule fill stroke pens (done ++ finish true cur) None, [])
  | D2BeginPath => (empty, [])
  | D2MoveTo a => (mkD2 rule fill stroke pens area (Some (Some a, [])), [])
  | D2LineTo b => add (SLine b)
  | D2QuadCurveTo b c => add (SQuad b c)
  | D2CubicCurveTo b c d => add (SCube b c d)
  | D2Fill => (empty, [D2Filled area rule fill])
  | D2Stroke => (empty, [D2Stroked area pens stroke])
  | D2FillStroke => (empty, [D2Filled area rule fill; D2Stroked area pens stroke])
  end.
Definition flat_cap (c : capMode) : lineCap := match c with RoundCap => LcRound | SquareCap => LcSquare | _ => LcButt end.
Definition flat_join (j : joinMode) : lineJoin := match j with Round => LjRound | Bevel => LjBevel | _ => LjMiter end.
Definition d2_pens (m : matrix E) (st : style E) : d2Pens :=
  mkD2Pens (flat_cap (jTrailLineCap (st_join st))) (flat_join (jLineJoin (st_join st))) (fmul E (st_lineWidth st) (widen m)) (st_dash st) (st_dashOffset st).
(** the items of a path painted with opaque plain colours; [subs] are its subpaths *)
Inductive d2_fill (opt : renderOptions E) (st : style E) (subs : list (sub (F * F))) : list d2Item -> Prop :=
| df_none : st_filler st = None -> d2_fill opt st subs []
| df_plain r g b a c : st_filler st = Some (PPlain r g b a) -> shade (CNRGBA r g b a) (fmul E (st_fillOpacity st) (ro_opacity opt)) c ->
    d2_fill opt st subs [D2Filled subs (st_nonZero st) c].
Inductive d2_line (opt : renderOptions E) (m : matrix E) (st : style E) (subs : list (sub (F * F))) : list d2Item -> Prop :=
| dl_none : st_liner st = None -> d2_line opt m st subs []
| dl_plain r g b a c : st_liner st = Some (PPlain r g b a) -> shade (CNRGBA r g b a) (fmul E (st_lineOpacity st) (ro_opacity opt)) c ->
    d2_line opt m st subs [D2Stroked subs (d2_pens m st) c].
Definition d2_items (opt : renderOptions E) (sp : svgPath E) (items : list d2Item) : Prop :=
  let st := sp_style sp in
  let m := mMult (st_transform st) (ro_target opt) in
  let subs := subpaths (moved_px m) (sp_path sp) in
  exists l1 l2, items = l1 ++ l2 /\ d2_fill opt st subs l1 /\ d2_line opt m st subs l2.

(** *** gg: SetColor sets the colour of both fills and strokes; ClosePath closes the current subpath;
    Fill and Stroke clear the path; a mask limits everything painted while it is set *)
Record ggPens := mkGgPens { gp_cap : lineCap; gp_join : lineJoin; gp_width : F; gp_dash : list F; gp_offset : F }.
Inductive ggItem :=
| GgFilled (mask : option (list ggItem)) (area : list (sub (F * F))) (winding : bool) (p : ggPaint (E := E))
| GgStroked (mask : option (list ggItem)) (area : list (sub (F * F))) (p : ggPens) (c : ggPaint (E := E)).
Record ggState := mkGg { g_mask : option (list ggItem); g_rule : bool; g_fill : ggPaint (E := E); g_stroke : ggPaint (E := E); g_pens : ggPens;
  g_done : list (sub (F * F)); g_cur : open_sub (F * F) }.
(** gg.NewContext *)
Definition gg_new : ggState :=
  mkGg None true (GgSolid (255, 255, 255, 255)%Z) (GgSolid (0, 0, 0, 255)%Z) (mkGgPens LcButt LjRound #1 [] #0) [] None.
Fixpoint gg_step (s : ggState) (c : ggCall E) {struct c} : ggState * list ggItem :=
  let '(mkGg mask rule fill stroke pens done cur) := s in
  let '(mkGgPens cap join width dash off) := pens in
  let area := done ++ finish false cur in
  let add g := (mkGg mask rule fill stroke pens done (more cur g), []) in
  let set_pens p := (mkGg mask rule fill stroke p done cur, []) in
  match c with
  | GgResetClip => (mkGg None rule fill stroke pens done cur, [])
  | GgSetMask d =>
    let '(_, items) := (fix go s l := match l with
                                      | [] => (s, [])
                                      | c :: r => let '(s1, i1) := gg_step s c in let '(s2, i2) := go s1 r in (s2, i1 ++ i2)
                                      end) gg_new d in
    (mkGg (Some items) rule fill stroke pens done cur, [])
  | GgSetFillRule b => (mkGg mask b fill stroke pens done cur, [])
  | GgSetFillStyle p => (mkGg mask rule p stroke pens done cur, [])
  | GgSetColor x => (mkGg mask rule (GgSolid x) (GgSolid x) pens done cur, [])
  | GgSetLineCap x => set_pens (mkGgPens x join width dash off)
  | GgSetLineJoin x => set_pens (mkGgPens cap x width dash off)
  | GgSetLineWidth x => set_pens (mkGgPens cap join x dash off)
  | GgSetDash x => set_pens (mkGgPens cap join width x off)
  | GgSetDashOffset x => set_pens (mkGgPens cap join width dash x)
  | GgClosePath => (mkGg mask rule fill stroke pens (done ++ finish true cur) None, [])
  | GgNewSubPath => (mkGg mask rule fill stroke pens area None, [])
  | GgMoveTo a => (mkGg mask rule fill stroke pens area (Some (Some a, [])), [])
  | GgLineTo b => add (SLine b)
  | GgQuadraticTo b c => add (SQuad b c)
  | GgCubicTo b c d => add (SCube b c d)
  | GgFill => (mkGg mask rule fill stroke pens [] None, [GgFilled mask area rule fill])
  | GgFillPreserve => (s, [GgFilled mask area rule fill])
  | GgStroke => (mkGg mask rule fill stroke pens [] None, [GgStroked mask area pens stroke])
  end.
Definition gg_pens (m : matrix E) (st : style E) : ggPens :=
  mkGgPens (flat_cap (jTrailLineCap (st_join st))) (match jLineJoin (st_join st) with Round => LjRound | _ => LjBevel end)
    (fmul E (st_lineWidth st) (widen m)) (st_dash st) (st_dashOffset st).
(** stops with opaque colours, and paints *)
Inductive gg_stop (o : F) : gradStop E -> F * (Z * Z * Z * Z) -> Prop :=
| gg_stop_i c off op x : shade c (fmul E op o) x -> gg_stop o (mkStop (Some c) off op) (off, x).
Inductive gg_paint : pattern E -> F -> ggPaint (E := E) -> Prop :=
| gp_plain r g b a o c : shade (CNRGBA r g b a) o c -> gg_paint (PPlain r g b a) o (GgSolid c)
| gp_linear g x1 y1 x2 y2 o l : gDirection g = Some (Linear x1 y1 x2 y2) -> Forall2 (gg_stop o) (gStops g) l ->
    gg_paint (PGrad g) o (GgGrad (Some (GgLinear x1 y1 x2 y2 l)))
| gp_radial g cx cy fx fy r fr o l : gDirection g = Some (Radial cx cy fx fy r fr) -> Forall2 (gg_stop o) (gStops g) l ->
    gg_paint (PGrad g) o (GgGrad (Some (GgRadial cx cy r fx fy fr l))).
Inductive gg_fill (mask : option (list ggItem)) (o : F) (st : style E) (subs : list (sub (F * F))) : list ggItem -> Prop :=
| gf_none : st_filler st = None -> gg_fill mask o st subs []
| gf_some p x : st_filler st = Some p -> gg_paint p (fmul E (st_fillOpacity st) o) x -> gg_fill mask o st subs [GgFilled mask subs (st_nonZero st) x].
Inductive gg_line (mask : option (list ggItem)) (o : F) (m : matrix E) (st : style E) (subs : list (sub (F * F))) : list ggItem -> Prop :=
| gl_none : st_liner st = None -> gg_line mask o m st subs []
| gl_some r g b a c : st_liner st = Some (PPlain r g b a) -> shade (CNRGBA r g b a) (fmul E (st_lineOpacity st) o) c ->
    gg_line mask o m st subs [GgStroked mask subs (gg_pens m st) (GgSolid c)].
(** the items of a path: limited by the last of its masks if there is one of that name; the paths of
    the mask are painted with the matrix of the masked path *)
Inductive gg_items (s : svg E) (m : matrix E) : F -> svgPath E -> list ggItem -> Prop :=
| gi_plain o sp l1 l2 : (path_masks s sp = [] \/ exists ids id, path_masks s sp = ids ++ [id] /\ mget id (sv_masks s) = None) ->
    gg_fill None o (sp_style sp) (subpaths (moved_px m) (sp_path sp)) l1 -> gg_line None o m (sp_style sp) (subpaths (moved_px m) (sp_path sp)) l2 ->
    gg_items s m o sp (l1 ++ l2)
| gi_masked o sp ids id mk its l1 l2 : path_masks s sp = ids ++ [id] -> mget id (sv_masks s) = Some mk -> gg_list s m (mk_paths mk) its ->
    gg_fill (Some its) o (sp_style sp) (subpaths (moved_px m) (sp_path sp)) l1 -> gg_line (Some its) o m (sp_style sp) (subpaths (moved_px m) (sp_path sp)) l2 ->
    gg_items s m o sp (l1 ++ l2)
with gg_list (s : svg E) (m : matrix E) : list (svgPath E) -> list ggItem -> Prop :=
| gl_nil : gg_list s m [] []
| gl_cons sp sps l1 l2 : gg_items s m #1 sp l1 -> gg_list s m sps l2 -> gg_list s m (sp :: sps) (l1 ++ l2).

(** ** Conditions *)
(** the path starts with a MoveTo *)
Definition begins (p : path) : Prop := exists a r, p = OpMoveTo a :: r.
Definition is_move (o : op) : bool := match o with OpMoveTo _ => true | _ => false end.
(** it is its only MoveTo *)
Definition one_move (p : path) : Prop := exists a r, p = OpMoveTo a :: r /\ existsb is_move r = false.
(** every later MoveTo follows a Close *)
Fixpoint moves_closed (prev : bool) (p : path) : bool :=
  match p with
  | [] => true
  | OpMoveTo _ :: r => prev && moves_closed false r
  | OpClose :: r => moves_closed true r
  | _ :: r => moves_closed false r
  end.
Definition opaque (c : color) : Prop :=
  match c with CNRGBA r g b a | CRGBA r g b a => byte r /\ byte g /\ byte b /\ a = 255%Z end.
Definition plain_opaque (p : option (pattern E)) : Prop :=
  match p with None => True | Some (PPlain r g b a) => byte r /\ byte g /\ byte b /\ a = 255%Z | Some (PGrad _) => False end.
Definition opaque_paint (p : option (pattern E)) : Prop :=
  match p with
  | None => True
  | Some (PPlain r g b a) => byte r /\ byte g /\ byte b /\ a = 255%Z
  | Some (PGrad g) => gDirection g <> None /\ Forall (fun s => exists c, stColor s = Some c /\ opaque c) (gStops g)
  end.
(** paths gg draws as they are: subpaths before a MoveTo are closed, colours opaque, filled or
    stroked but not both *)
Definition gg_neat (sp : svgPath E) : Prop :=
  begins (sp_path sp) /\ moves_closed true (sp_path sp) = true
  /\ opaque_paint (st_filler (sp_style sp)) /\ plain_opaque (st_liner (sp_style sp))
  /\ (st_filler (sp_style sp) = None <-> st_liner (sp_style sp) <> None).
End Draw.

(** ** Options *)
Section Options.
Context {E : Env}.
(** the last opacity and the last rectangle among the options *)
Definition last_opacity (opts : list (renderOption E)) : option (F E) :=
  fold_left (fun x o => match o with Opacity v => Some v | Target _ _ _ _ => x end) opts None.
Definition last_target (opts : list (renderOption E)) : option (F E * F E * F E * F E) :=
  fold_left (fun x o => match o with Target x y w h => Some (x, y, w, h) | Opacity _ => x end) opts None.
End Options.

(** ** References between masks *)
Section MaskRefs.
Context {E : Env} (s : svg E).
(** a path of the mask [id] is limited by the mask [id'] *)
Definition mask_ref (id id' : string) : Prop :=
  exists mk p ids, mget id (sv_masks s) = Some mk /\ List.In p (mk_paths mk) /\ path_masks s p = ids ++ [id'].
Inductive mask_leads : string -> string -> Prop :=
| ml_one a b : mask_ref a b -> mask_leads a b
| ml_more a b c : mask_ref a b -> mask_leads b c -> mask_leads a c.
Definition masks_acyclic : Prop := forall id, ~ mask_leads id id.
End MaskRefs.

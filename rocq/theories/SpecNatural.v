(** * SpecNatural: drawing a document at its natural size (C60) *)
From Coq Require Import ZArith.
From Verif Require Export SpecDraw SpecStyle.

(** ** Coordinates *)
Definition op_points (o : op) : list pt :=
  match o with
  | OpMoveTo a | OpLineTo a => [a]
  | OpQuadTo a b => [a; b]
  | OpCubicTo a b c => [a; b; c]
  | OpClose => []
  end.
(** a coordinate of 26.6 fixed point numbers held in 32 bits: from -2^25 to 2^25 - 1/64 pixels *)
Definition coordinate (z : Z) : Prop := (- 2 ^ 31 <= z < 2 ^ 31)%Z.
Definition in_range (p : path) : Prop :=
  Forall (fun o => Forall (fun a : pt => coordinate (fst a) /\ coordinate (snd a)) (op_points o)) p.

(** ** Attributes that set no transform *)
Definition untransformed (attrs : list attr) : Prop :=
  exists ds, attrs_decls attrs ds /\ Forall (fun d => fst d <> "transform"%string) ds.
Definition plain_token (t : token) : Prop := match t with TStart _ attrs => untransformed attrs | _ => True end.

(** ** The outlines handed to the libraries *)
Section Traces.
Context {E : Env}.
Notation F := (F E).
Definition px (p : pt) : F * F := (fdiv E (f_of_Z E (fst p)) (fnum E 64), fdiv E (f_of_Z E (snd p)) (fnum E 64)).
(** rasterx takes fixed point numbers *)
Definition rx_trace (c : rxCall E) : list (rxTarget * op) :=
  match c with
  | RxStart t a => [(t, OpMoveTo a)]
  | RxLine t b => [(t, OpLineTo b)]
  | RxQuad t b c => [(t, OpQuadTo b c)]
  | RxCube t b c d => [(t, OpCubicTo b c d)]
  | RxStop t true => [(t, OpClose)]
  | _ => []
  end.
(** draw2d and gg take pixels; both close subpaths more often than the path does, so closings are left out *)
Inductive pen := PenMove (a : F * F) | PenLine (b : F * F) | PenQuad (b c : F * F) | PenCube (b c d : F * F).
Definition pens_of (o : op) : list pen :=
  match o with
  | OpMoveTo a => [PenMove (px a)]
  | OpLineTo b => [PenLine (px b)]
  | OpQuadTo b c => [PenQuad (px b) (px c)]
  | OpCubicTo b c d => [PenCube (px b) (px c) (px d)]
  | OpClose => []
  end.
Definition d2_trace (c : d2Call E) : list pen :=
  match c with
  | D2MoveTo a => [PenMove a] | D2LineTo b => [PenLine b] | D2QuadCurveTo b c => [PenQuad b c] | D2CubicCurveTo b c d => [PenCube b c d]
  | _ => []
  end.
Definition gg_trace (c : ggCall E) : list pen :=
  match c with
  | GgMoveTo a => [PenMove a] | GgLineTo b => [PenLine b] | GgQuadraticTo b c => [PenQuad b c] | GgCubicTo b c d => [PenCube b c d]
  | _ => []
  end.
(** a drawing of [paths], whose masks are again drawings of the paths of a mask of the document *)
Inductive gg_natural (s : svg E) : list (svgPath E) -> list (ggCall E) -> Prop :=
| gg_natural_i paths calls : flat_map gg_trace calls = flat_map (fun sp => flat_map pens_of (sp_path sp)) paths ->
    (forall d, List.In (GgSetMask d) calls -> exists id mk, mget id (sv_masks s) = Some mk /\ gg_natural s (mk_paths mk) d) ->
    gg_natural s paths calls.
(** the widths of the strokes *)
Definition rx_strokes (c : rxCall E) : list Z := match c with RxSetStroke w _ _ _ _ _ => [w] | _ => [] end.
Definition d2_strokes (c : d2Call E) : list F := match c with D2SetLineWidth w => [w] | _ => [] end.
Definition gg_strokes (c : ggCall E) : list F := match c with GgSetLineWidth w => [w] | _ => [] end.
(** the widths of the stroked paths *)
Definition stroke_widths (paths : list (svgPath E)) : list F :=
  flat_map (fun sp => match st_liner (sp_style sp) with Some _ => [st_lineWidth (sp_style sp)] | None => [] end) paths.
(** the last rectangle asked for is the view box *)
Definition natural_size (s : svg E) (opts : list (renderOption E)) : Prop :=
  last_target opts = Some (bX (sv_viewBox s), bY (sv_viewBox s), bW (sv_viewBox s), bH (sv_viewBox s)).
End Traces.

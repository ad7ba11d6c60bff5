(** * SpecRect: outlines inside a rectangle *)
From Coq Require Import Reals.
From Verif Require Export RealEnv SpecDoc.

(** all points of an operation, control points included; the curve stays in their convex hull *)
Definition op_points (o : op) : list pt :=
  match o with
  | OpMoveTo a => [a]
  | OpLineTo b => [b]
  | OpQuadTo b c => [b; c]
  | OpCubicTo b c d => [b; c; d]
  | OpClose => []
  end.
Local Open Scope R_scope.
(** inside the rectangle, in units of 1/64, up to one unit *)
Definition inside (minX minY maxX maxY : R) (z : pt) : Prop :=
  64 * minX - 1 <= IZR (fst z) <= 64 * maxX + 1 /\ 64 * minY - 1 <= IZR (snd z) <= 64 * maxY + 1.
Definition outline_inside (minX minY maxX maxY : R) (p : path) : Prop :=
  Forall (fun o => Forall (inside minX minY maxX maxY) (op_points o)) p.
(** the radii of SVG 1.1, section 9.2: a missing one is the other one, neither exceeds half the side *)
Definition auto_radius (own other half : R) : R :=
  Rmin (if Req_EM_T own 0 then other else own) half.
Definition cubics (k : path) : Prop := Forall (fun o => exists a b c, o = OpCubicTo a b c) k.
(** a line to a corner, cubic pieces, and a line to the end of the corner *)
Definition corner (finish : pt) (k : path) : Prop :=
  exists start pieces, k = OpLineTo start :: pieces ++ [OpLineTo finish] /\ pieces <> [] /\ cubics pieces.
(** four sides and four corners of radius [r], clockwise from the upper left *)
Definition round_outline (G : R * R -> pt) (r minX minY maxX maxY : R) (p : path) : Prop :=
  exists k1 k2 k3 k4 e1 e2 e3 e4,
  p = OpMoveTo (G (minX + r, minY)) :: OpLineTo (G (maxX - r, minY)) :: k1 ++ OpLineTo (G (maxX, maxY - r)) :: k2
      ++ OpLineTo (G (minX + r, maxY)) :: k3 ++ OpLineTo (G (minX, minY + r)) :: k4 ++ [OpClose]
  /\ corner e1 k1 /\ corner e2 k2 /\ corner e3 k3 /\ corner e4 k4.

(** * SpecCurve: the points an outline runs through *)
From Coq Require Import Reals ZArith List.
From Verif Require Import Geom.
Import ListNotations.
Local Open Scope R_scope.

(** an outline in the plane *)
Inductive bow := Hop (a : R * R) | Straight (b : R * R) | Bend2 (b c : R * R) | Bend3 (b c d : R * R) | Back.
(** the point at [s] of a line, a quadratic and a cubic curve, one coordinate *)
Definition bezier1 (s a b : R) : R := (1 - s) * a + s * b.
Definition bezier2 (s a b c : R) : R := (1 - s) ^ 2 * a + 2 * s * (1 - s) * b + s ^ 2 * c.
Definition bezier3 (s a b c d : R) : R := (1 - s) ^ 3 * a + 3 * s * (1 - s) ^ 2 * b + 3 * s ^ 2 * (1 - s) * c + s ^ 3 * d.
(** [runs_through f a p z]: drawn from [a] on, with [f] the first point of the subpath, [p] runs through [z] *)
Inductive runs_through : R * R -> R * R -> list bow -> R * R -> Prop :=
| rt_line f a b r s : 0 <= s <= 1 -> runs_through f a (Straight b :: r) (bezier1 s (fst a) (fst b), bezier1 s (snd a) (snd b))
| rt_quad f a b c r s : 0 <= s <= 1 ->
    runs_through f a (Bend2 b c :: r) (bezier2 s (fst a) (fst b) (fst c), bezier2 s (snd a) (snd b) (snd c))
| rt_cubic f a b c d r s : 0 <= s <= 1 ->
    runs_through f a (Bend3 b c d :: r) (bezier3 s (fst a) (fst b) (fst c) (fst d), bezier3 s (snd a) (snd b) (snd c) (snd d))
| rt_close f a r s : 0 <= s <= 1 -> runs_through f a (Back :: r) (bezier1 s (fst a) (fst f), bezier1 s (snd a) (snd f))
| rt_after_move f a b r z : runs_through b b r z -> runs_through f a (Hop b :: r) z
| rt_after_line f a b r z : runs_through f b r z -> runs_through f a (Straight b :: r) z
| rt_after_quad f a b c r z : runs_through f c r z -> runs_through f a (Bend2 b c :: r) z
| rt_after_cubic f a b c d r z : runs_through f d r z -> runs_through f a (Bend3 b c d :: r) z
| rt_after_close f a r z : runs_through f f r z -> runs_through f a (Back :: r) z.
(** two points at most [ex] apart in the first and [ey] in the second coordinate *)
Definition beside (ex ey : R) (a b : R * R) : Prop := Rabs (fst a - fst b) <= ex /\ Rabs (snd a - snd b) <= ey.
(** the outline [p] is the curve [c] up to [ex] and [ey]: it runs nowhere else, and everywhere along it *)
Definition runs_along (ex ey : R) (c : R -> R * R) (p : list bow) : Prop :=
  (forall z, runs_through (0, 0) (0, 0) p z -> exists t, beside ex ey z (c t))
  /\ (forall t, exists z, runs_through (0, 0) (0, 0) p z /\ beside ex ey z (c t)).

(** the outline of a path, whose points are on the grid of 1/64 *)
Definition user (p : pt) : R * R := (IZR (fst p) / 64, IZR (snd p) / 64).
Definition bow_of (o : op) : bow :=
  match o with
  | OpMoveTo a => Hop (user a)
  | OpLineTo b => Straight (user b)
  | OpQuadTo b c => Bend2 (user b) (user c)
  | OpCubicTo b c d => Bend3 (user b) (user c) (user d)
  | OpClose => Back
  end.
Definition ellipse_pt (cx cy rx ry t : R) : R * R := (cx + rx * cos t, cy + ry * sin t).
(** the path [p] is the ellipse with that centre and these radii up to [e] *)
Definition follows_ellipse (e cx cy rx ry : R) (p : path) : Prop := runs_along e e (ellipse_pt cx cy rx ry) (map bow_of p).

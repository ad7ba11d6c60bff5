(** * SpecCorner: rectangles with rounded corners (C68) *)
From Coq Require Import Reals ZArith.
From Verif Require Import F64 RealEnv SpecArc SpecTrig SpecClose.
From Verif Require Export SpecMeasure SpecCurve SpecRect.
Local Open Scope R_scope.

(** how far [x] is from the interval from [a] to [b] *)
Definition outside (a b x : R) : R := Rmax 0 (Rmax (a - x) (x - b)).
(** the points at distance [r] from the rectangle that is smaller by [r] on each side: the rectangle with its corners rounded by [r] *)
Definition rim (x0 y0 x1 y1 r : R) (z : R * R) : Prop :=
  outside (x0 + r) (x1 - r) (fst z) ^ 2 + outside (y0 + r) (y1 - r) (snd z) ^ 2 = r ^ 2.
(** the path [p] is that outline up to [e]: it runs nowhere else, and everywhere along it *)
Definition follows_rim (e x0 y0 x1 y1 r : R) (p : path) : Prop :=
  (forall z, runs_through (0, 0) (0, 0) (map bow_of p) z -> exists z', rim x0 y0 x1 y1 r z' /\ beside e e z z')
  /\ (forall z', rim x0 y0 x1 y1 r z' -> exists z, runs_through (0, 0) (0, 0) (map bow_of p) z /\ beside e e z z').

Section Rounded.
Context (Q : ROracles).
Notation X := (RealEnv Q).
Context (vb : bounds X) (off : R * R).
(** a rectangle whose corners are rounded by the same radius [r], at least 1/8, in both directions *)
Inductive rounded_at : list attr -> R -> R -> R -> R -> R -> Prop :=
| rounded_rect attrs x y w h rx ry r :
    exact_attr Q vb OfWidth "x" attrs x -> exact_attr Q vb OfHeight "y" attrs y ->
    exact_attr Q vb OfWidth "width" attrs w -> exact_attr Q vb OfHeight "height" attrs h ->
    exact_attr Q vb OfWidth "rx" attrs rx -> exact_attr Q vb OfHeight "ry" attrs ry ->
    0 <= rx -> 0 <= ry -> auto_radius rx ry (w / 2) = r -> auto_radius ry rx (h / 2) = r -> / 8 <= r ->
    rounded_at attrs (x + fst off) (y + snd off) (x + fst off + w) (y + snd off + h) r.
End Rounded.

(** ** Against float64 *)
Section Fair.
Context (O : Oracles).
Notation E := (F64 O).
(** atan2 of the directions of the axes is within 2^-40 of the truth *)
Definition fair_axes : Prop := forall y x : Z,
  (Z.abs y < 2 ^ 31)%Z -> (Z.abs x < 2 ^ 31)%Z -> (y = 0 \/ x = 0)%Z -> (y <> 0 \/ x <> 0)%Z ->
  finite64 (fatan2 E (f_of_Z E y) (f_of_Z E x))
  /\ Rabs (value64 (fatan2 E (f_of_Z E y) (f_of_Z E x)) - atan2 (IZR y) (IZR x)) <= / 2 ^ 40.
Context (Q : ROracles).
(** the element is such a rectangle; the size of the view box is up to 2^17 and the offset up to 2^16, float64 numbers, and the trigonometric functions fair *)
Definition rounded (vb : bounds E) (off : point E) (name : string) (attrs : list attr) (p : path) : Prop :=
  (upto O 17 (bW vb) /\ upto O 17 (bH vb)) /\ (upto O 16 (fst off) /\ upto O 16 (snd off)) /\ fair_trig O /\ fair_axes /\ name = "rect"%string /\ p <> []
  /\ exists x0 y0 x1 y1 r, rounded_at Q (ex_bounds O Q vb) (value64 (fst off), value64 (snd off)) attrs x0 y0 x1 y1 r.
(** [p] follows its outline: within 1/700 of the radius and 3/32 of a unit *)
Definition cornered (vb : bounds E) (off : point E) (name : string) (attrs : list attr) (p : path) : Prop :=
  rounded vb off name attrs p /\ forall x0 y0 x1 y1 r, rounded_at Q (ex_bounds O Q vb) (value64 (fst off), value64 (snd off)) attrs x0 y0 x1 y1 r ->
    follows_rim (r / 700 + 3 / 32) x0 y0 x1 y1 r p.
(** other elements [nearly] as they are meant *)
Definition rounded_or_meant (vb : bounds E) (off : point E) (name : string) (attrs : list attr) (p : path) : Prop := meant O Q vb off name attrs p \/ rounded vb off name attrs p.
Definition cornered_or_near (vb : bounds E) (off : point E) (name : string) (attrs : list attr) (p : path) : Prop := nearly O Q vb off name attrs p \/ cornered vb off name attrs p.
End Fair.

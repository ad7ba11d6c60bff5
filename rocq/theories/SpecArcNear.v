(** * SpecArcNear: the arcs of path data, float64 against the arcs of SVG (C70) *)
From Coq Require Import Reals ZArith Floats.SpecFloat.
From Flocq Require Import Core.Core IEEE754.BinarySingleNaN.
From Verif Require Import F64 SpecClose SpecRead.
From Verif Require Export SpecArc SpecArc64 SpecCurve.
Local Open Scope R_scope.

(** Sine and cosine of angles up to 16 and the tangent of angles up to 1 are numbers within 2^-44 of the truth (those of Go are within
    2^-52).  Of atan2: it is a number between -Pi and Pi, up to 2^-44, and the direction of that angle is that of the point (x, y), up
    to 2^-44.  Nothing is said of which of -Pi and Pi is chosen, that depends on the sign of a zero. *)
Record fair_angles (O : Oracles) : Prop := {
  angle_sin : forall x, finite64 x -> Rabs (value64 x) <= 16 -> finite64 (o_sin O x) /\ Rabs (value64 (o_sin O x) - sin (value64 x)) <= / 2 ^ 44;
  angle_cos : forall x, finite64 x -> Rabs (value64 x) <= 16 -> finite64 (o_cos O x) /\ Rabs (value64 (o_cos O x) - cos (value64 x)) <= / 2 ^ 44;
  angle_tan : forall x, finite64 x -> Rabs (value64 x) <= 1 -> finite64 (o_tan O x) /\ Rabs (value64 (o_tan O x) - tan (value64 x)) <= / 2 ^ 44;
  angle_atan2 : forall y x, finite64 y -> finite64 x -> (value64 y <> 0 \/ value64 x <> 0) ->
    let l := sqrt (value64 x * value64 x + value64 y * value64 y) in let t := value64 (o_atan2 O y x) in
    finite64 (o_atan2 O y x) /\ Rabs t <= PI + / 2 ^ 44 /\ Rabs (cos t - value64 x / l) <= / 2 ^ 44 /\ Rabs (sin t - value64 y / l) <= / 2 ^ 44
}.
(** a number of size at most [b] *)
Definition sized (b : R) (x : spec_float) : Prop := finite64 x /\ Rabs (value64 x) <= b.
(** An arc of ordinary measures: coordinates up to 2^12, end points at least 1/16 apart in one of them, radii from 1/16 to 2^12 of which
    neither is more than 16 times the other, a rotation of at most 512 degrees. *)
Definition ordinary_arc (s : spec_float * spec_float) (a : spec_float * spec_float * spec_float * spec_float * spec_float) (q : spec_float * spec_float) : Prop :=
  let '(rx, ry, rot, fa, fs) := a in
  sized (2 ^ 12) (fst s) /\ sized (2 ^ 12) (snd s) /\ sized (2 ^ 12) (fst q) /\ sized (2 ^ 12) (snd q)
  /\ (/ 16 <= Rabs (value64 (fst q) - value64 (fst s)) \/ / 16 <= Rabs (value64 (snd q) - value64 (snd s)))
  /\ sized (2 ^ 12) rx /\ sized (2 ^ 12) ry /\ / 16 <= value64 rx <= 16 * value64 ry /\ / 16 <= value64 ry <= 16 * value64 rx
  /\ sized (2 ^ 9) rot /\ finite64 fa /\ finite64 fs.
(** The curves [o] run along the curve [c], from 0 to 1, and nowhere else, up to [e], wherever within 1/64 of [p] they start; that is
    as close as the points of the grid are to the points they stand for. *)
Definition traces (e : R) (c : R -> R * R) (p : R * R) (o : list op) : Prop := forall f a, beside (/ 64) (/ 64) a p ->
  (forall z, runs_through f a (map bow_of o) z -> exists w, 0 <= w <= 1 /\ beside e e z (c w))
  /\ (forall w, 0 <= w <= 1 -> exists z, runs_through f a (map bow_of o) z /\ beside e e z (c w)).
(** The arc of SVG from [p] to [q] as [svg_arc] has it, up to rounding: some ellipse with these radii, scaled up no more than needed
    (up to one millionth), passes both points within 1/1024 at the angles [t] and [t + d]; the direction is that of [sweep]; the arc is
    the large or the small one, up to a millionth of a turn; and the points of the cubic curves, each of which spans at most Pi/7, are
    within one unit of the grid of 1/64 of those of that ellipse.  As sets of points: the curves run along the part of that ellipse from
    [t] to [t + d] and nowhere else, up to 1/32 of a unit and one 800000th of the radii. *)
Definition near_arc (p : R * R) (rx ry deg : R) (large sweep : bool) (q : R * R) (o : list op) : Prop :=
  exists k cx cy t d n,
    1 - / 2 ^ 20 <= k /\ (forall k', 1 <= k' -> fits (k' * rx) (k' * ry) (degrees deg) p q -> k <= k' * (1 + / 2 ^ 20))
    /\ beside (/ 1024) (/ 1024) (ell_at cx cy (k * rx) (k * ry) (degrees deg) t) p
    /\ beside (/ 1024) (/ 1024) (ell_at cx cy (k * rx) (k * ry) (degrees deg) (t + d)) q
    /\ (if sweep then 0 < d < 2 * PI else - (2 * PI) < d < 0)
    /\ (if large then PI - / 2 ^ 20 <= Rabs d else Rabs d <= PI + / 2 ^ 20)
    /\ Rabs d <= INR n * (PI / 7)
    /\ Forall2 (op_within 1) o (pieces cx cy (k * rx) (k * ry) (degrees deg) t d n)
    /\ traces (/ 32 + k * (rx + ry) / 800000) (fun w => ell_at cx cy (k * rx) (k * ry) (degrees deg) (t + w * d)) p o.
(** What is drawn for one arc with these measures from [s] to [q], and where the current point is afterwards: if the measures are
    ordinary, cubic curves of which the last ends at the point of the grid that is [q], and which are near the arc of SVG; the flags
    mean true if they are not zero.  Nothing is said of arcs with other measures here. *)
Definition arc_near (O : Oracles) (s : spec_float * spec_float) (a : spec_float * spec_float * spec_float * spec_float * spec_float) (q : spec_float * spec_float)
  (o : list op) (e : spec_float * spec_float) : Prop :=
  let '(rx, ry, deg, fa, fs) := a in
  ordinary_arc s a q -> e = q /\ ends_at (F64 O) q o
    /\ forall large sweep : bool, (large = true <-> value64 fa <> 0) -> (sweep = true <-> value64 fs <> 0) ->
       near_arc (value64 (fst s), value64 (snd s)) (value64 rx) (value64 ry) (value64 deg) large sweep (value64 (fst q), value64 (snd q)) o.

(** * SpecArc64: arcs in binary64 that must be drawn *)
From Coq Require Import Reals Floats.SpecFloat.
From Flocq Require Import Core.Core IEEE754.BinarySingleNaN.
From Verif Require Export SpecArc SpecEnd F64.
Local Open Scope R_scope.

Definition finite64 (x : spec_float) : Prop :=
  valid_binary 53 1024 x = true /\ match x with S754_zero _ | S754_finite _ _ _ => True | _ => False end.
Notation value64 := (SF2R radix2).
(** Of math.Sin and math.Cos: on finite arguments they return numbers between -1 and 1 whose squares add
    up to at least a half (in truth, about one).  Of math.Atan2: it returns NaN or a number between -Pi
    and Pi, and NaN only when an argument is NaN. *)
Record trig_laws (O : Oracles) : Prop := {
  sin_finite : forall x, finite64 x -> finite64 (o_sin O x) /\ Rabs (value64 (o_sin O x)) <= 1;
  cos_finite : forall x, finite64 x -> finite64 (o_cos O x) /\ Rabs (value64 (o_cos O x)) <= 1;
  sin_cos : forall x, finite64 x -> / 2 <= value64 (o_sin O x) * value64 (o_sin O x) + value64 (o_cos O x) * value64 (o_cos O x);
  atan2_range : angles O;
  atan2_number : forall y x, y <> S754_nan -> x <> S754_nan -> o_atan2 O y x <> S754_nan
}.
(** a number of size at most [2 ^ 50] *)
Definition modest (x : spec_float) : Prop := finite64 x /\ Rabs (value64 x) <= 2 ^ 50.
Definition modest_pt (p : spec_float * spec_float) : Prop := modest (fst p) /\ modest (snd p).
(** a radius that is also not closer to zero than [2 ^ -50] *)
Definition modest_radius (x : spec_float) : Prop := modest x /\ / 2 ^ 50 <= Rabs (value64 x).
(** the end points are at least [2 ^ -50] apart *)
Definition apart (s q : spec_float * spec_float) : Prop :=
  / 2 ^ 50 <= Rabs (value64 (fst q) - value64 (fst s)) \/ / 2 ^ 50 <= Rabs (value64 (snd q) - value64 (snd s)).
(** an arc of such measures, within a use of offset [off] *)
Definition modest_arc (off s : spec_float * spec_float) (a : spec_float * spec_float * spec_float * spec_float * spec_float)
  (q : spec_float * spec_float) : Prop :=
  let '(rx, ry, rot, fa, fs) := a in
  modest_pt off /\ modest_pt s /\ modest_pt q /\ apart s q /\ modest rot /\ modest_radius rx /\ modest_radius ry.

(** * SpecTrig: what is assumed of math.Sin, math.Cos, math.Tan and math.Atan2 where circles are concerned *)
From Coq Require Import Reals Floats.SpecFloat.
From Flocq Require Import Core.Core IEEE754.BinarySingleNaN.
From Verif Require Export SpecArc64.
Local Open Scope R_scope.

(** Sine and cosine of angles up to 8 and the tangent of angles up to 1 are numbers within 2^-40 of the truth (those of Go are within
    2^-52); the sine of 0 is 0 and its cosine 1; a point to the right of the origin has the angle 0. *)
Record fair_trig (O : Oracles) : Prop := {
  fair_zero : trig0 O;
  fair_sin : forall x, finite64 x -> Rabs (value64 x) <= 8 -> finite64 (o_sin O x) /\ Rabs (value64 (o_sin O x) - sin (value64 x)) <= / 2 ^ 40;
  fair_cos : forall x, finite64 x -> Rabs (value64 x) <= 8 -> finite64 (o_cos O x) /\ Rabs (value64 (o_cos O x) - cos (value64 x)) <= / 2 ^ 40;
  fair_tan : forall x, finite64 x -> Rabs (value64 x) <= 1 -> finite64 (o_tan O x) /\ Rabs (value64 (o_tan O x) - tan (value64 x)) <= / 2 ^ 40;
  fair_atan2 : forall x, finite64 x -> 0 < value64 x -> o_atan2 O (S754_zero false) x = S754_zero false
}.

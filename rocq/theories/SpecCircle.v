(** * SpecCircle: documents with circles and ellipses *)
From Coq Require Import Reals.
From Verif Require Import F64 RealEnv SpecMeasure.
From Verif Require Export SpecCurve SpecTrig.
Local Open Scope R_scope.

(** besides being [nearly] the exact outline, the outline of a circle or an ellipse with radii of at least 2^-16 runs along the
    ellipse, and nowhere else, up to 1/16 *)
Definition curved (O : Oracles) (Q : ROracles) (vb : bounds (F64 O)) (off : point (F64 O)) (name : string) (attrs : list attr) (p : path) : Prop :=
  nearly O Q vb off name attrs p
  /\ forall cx cy rx ry, round_at Q (ex_bounds O Q vb) (value64 (fst off), value64 (snd off)) name attrs cx cy rx ry ->
     / 2 ^ 16 <= rx -> / 2 ^ 16 <= ry -> follows_ellipse (1 / 16) cx cy rx ry p.

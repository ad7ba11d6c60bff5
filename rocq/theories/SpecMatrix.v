(** * SpecMatrix: affine maps and SVG transforms over the real numbers *)
From Coq Require Import Reals.
From Verif Require Export RealEnv SpecStyle.
Local Open Scope R_scope.

(** the map of a matrix: x' = A x + C y + E, y' = B x + D y + F *)
Definition maps {O} (m : matrix (RealEnv O)) (p : R * R) : R * R :=
  (mA m * fst p + mC m * snd p + mE m, mB m * fst p + mD m * snd p + mF m).
Definition det {O} (m : matrix (RealEnv O)) : R := mA m * mD m - mB m * mC m.

(** ** What the functions of a transform attribute mean (angles are in degrees) *)
Definition rad (deg : R) : R := deg * PI / 180.
Definition turn (deg : R) (p : R * R) : R * R :=
  (cos (rad deg) * fst p - sin (rad deg) * snd p, sin (rad deg) * fst p + cos (rad deg) * snd p).
Definition moves {O} (f : tfun (RealEnv O)) (p : R * R) : R * R :=
  match f with
  | Translate _ x y => (fst p + x, snd p + y)
  | Scale _ x y => (x * fst p, y * snd p)
  | Rotate _ a => turn a p
  | RotateAt _ a x y => let q := turn a (fst p - x, snd p - y) in (fst q + x, snd q + y)
  | SkewX _ a => (fst p + tan (rad a) * snd p, snd p)
  | SkewY _ a => (fst p, snd p + tan (rad a) * fst p)
  | MatrixFn _ m => maps m p
  end.
(** a list is applied from right to left *)
Definition moves_list {O} (fs : list (tfun (RealEnv O))) (p : R * R) : R * R := fold_right moves p fs.

(** translate and scale *)
Definition simple {O} (f : tfun (RealEnv O)) : Prop := match f with Translate _ _ _ | Scale _ _ _ => True | _ => False end.
(** the other functions, except rotation about a point, and their entries A and D *)
Definition linear_entries {O} (f : tfun (RealEnv O)) : option (R * R) :=
  match f with
  | Rotate _ a => Some (cos (rad a), cos (rad a))
  | SkewX _ _ | SkewY _ _ => Some (1, 1)
  | MatrixFn _ m => Some (mA m, mD m)
  | _ => None
  end.
(** [orderly_list par fs]: translations and scalings, then at most one other function (not a rotation about a
    point); the translations and scalings commute with the transform [par] of the parent, and the
    other function does not scale its translation *)
Definition orderly_list {O} (par : matrix (RealEnv O)) (fs : list (tfun (RealEnv O))) : Prop :=
  exists ss tail, fs = ss ++ tail /\ Forall simple ss
  /\ (forall p, moves_list ss (maps par p) = maps par (moves_list ss p))
  /\ match tail with
     | [] => True
     | [f] => match linear_entries f with
              | Some (a, d) => mE par * (a - 1) = 0 /\ mF par * (d - 1) = 0
              | None => False
              end
     | _ => False
     end.

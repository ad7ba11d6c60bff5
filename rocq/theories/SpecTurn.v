(** * SpecTurn: transform attributes in float64 and in exact arithmetic (C65) *)
From Coq Require Import Reals ZArith.
From Verif Require Import F64 RealEnv.
From Verif Require Export SpecLand SpecTrig.
Local Open Scope R_scope.

(** ** How large the entries of a matrix become *)
Section Growth.
Context {Q : ROracles}.
(** numbers up to 2^17, angles up to 450 degrees, slants up to 45 degrees; not rotate(a, x, y), which is wrong anyway (C18) *)
Definition measured (f : tfun (RealEnv Q)) : Prop :=
  match f with
  | Translate _ x y | Scale _ x y => Rabs x <= 2 ^ 17 /\ Rabs y <= 2 ^ 17
  | Rotate _ a => Rabs a <= 450
  | SkewX _ a | SkewY _ a => Rabs a <= 45
  | MatrixFn _ m => Rabs (mA m) <= 2 ^ 17 /\ Rabs (mB m) <= 2 ^ 17 /\ Rabs (mC m) <= 2 ^ 17 /\ Rabs (mD m) <= 2 ^ 17 /\ Rabs (mE m) <= 2 ^ 17 /\ Rabs (mF m) <= 2 ^ 17
  | RotateAt _ _ _ _ => False
  end.
(** the factor by which a function can enlarge the largest entry *)
Definition largest (l : list R) : R := fold_right (fun x m => Rmax (Rabs x) m) 1 l.
Definition growth (f : tfun (RealEnv Q)) : R :=
  match f with
  | Translate _ x y => 1 + largest [x; y]
  | Scale _ x y => largest [x; y]
  | MatrixFn _ m => 3 * largest [mA m; mB m; mC m; mD m; mE m; mF m]
  | _ => 3
  end.
Definition growths (fs : list (tfun (RealEnv Q))) : R := fold_right (fun f g => growth f * g) 1 fs.
(** fewer than 2^30 functions, which do not enlarge a matrix beyond 2^500 *)
Definition measured_list (fs : list (tfun (RealEnv Q))) : Prop := Forall measured fs /\ growths fs <= 2 ^ 500 /\ (Z.of_nat (List.length fs) < 2 ^ 30)%Z.
End Growth.

(** ** Matrices entry by entry *)
Section Near.
Context (O : Oracles) (Q : ROracles).
Notation E := (F64 O).
Notation X := (RealEnv Q).
Definition num_near (d : R) (x : F E) (r : F X) : Prop := finite64 x /\ Rabs (value64 x - r) <= d.
Definition matrix_near (d : R) (m : matrix E) (m' : matrix X) : Prop :=
  num_near d (mA m) (mA m') /\ num_near d (mB m) (mB m') /\ num_near d (mC m) (mC m') /\ num_near d (mD m) (mD m') /\ num_near d (mE m) (mE m') /\ num_near d (mF m) (mF m').
(** the entries of [m] are off by at most n 2^-37 of [g], which bounds those of [m'] *)
Definition matrix_upto (g : R) (m' : matrix X) : Prop :=
  Rabs (mA m') <= g /\ Rabs (mB m') <= g /\ Rabs (mC m') <= g /\ Rabs (mD m') <= g /\ Rabs (mE m') <= g /\ Rabs (mF m') <= g.
Definition off_by (n : nat) (g : R) (m : matrix E) (m' : matrix X) : Prop := matrix_near (INR n / 2 ^ 37 * g) m m' /\ matrix_upto g m'.
End Near.

(** ** Transformed figures on the page *)
Section Meets.
Context {O : Oracles} (to : R * R -> R * R) (tx ty : R).
Notation E := (F64 O).
(** points handed to rasterx, in 1/64 pixel, and to draw2d and gg, in pixels, within [tx] and [ty] 64ths of where [to] puts a point of the outline *)
Definition goal (b : pt) : R * R := to (IZR (fst b) / 64, IZR (snd b) / 64).
Definition pt_meets (a b : pt) : Prop := Rabs (IZR (fst a) - 64 * fst (goal b)) <= tx /\ Rabs (IZR (snd a) - 64 * snd (goal b)) <= ty.
Inductive op_meets : op -> op -> Prop :=
| me_move a b : pt_meets a b -> op_meets (OpMoveTo a) (OpMoveTo b)
| me_line a b : pt_meets a b -> op_meets (OpLineTo a) (OpLineTo b)
| me_quad a b a' b' : pt_meets a a' -> pt_meets b b' -> op_meets (OpQuadTo a b) (OpQuadTo a' b')
| me_cubic a b c a' b' c' : pt_meets a a' -> pt_meets b b' -> pt_meets c c' -> op_meets (OpCubicTo a b c) (OpCubicTo a' b' c')
| me_close : op_meets OpClose OpClose.
Definition px_meets (a : F E * F E) (b : pt) : Prop :=
  (finite64 (fst a) /\ Rabs (value64 (fst a) - fst (goal b)) <= tx / 64) /\ (finite64 (snd a) /\ Rabs (value64 (snd a) - snd (goal b)) <= ty / 64).
Inductive pen_meets : SpecNatural.pen (E := E) -> op -> Prop :=
| pm_move a b : px_meets a b -> pen_meets (PenMove a) (OpMoveTo b)
| pm_line a b : px_meets a b -> pen_meets (PenLine a) (OpLineTo b)
| pm_quad a b a' b' : px_meets a a' -> px_meets b b' -> pen_meets (PenQuad a b) (OpQuadTo a' b')
| pm_cubic a b c a' b' c' : px_meets a a' -> px_meets b b' -> px_meets c c' -> pen_meets (PenCube a b c) (OpCubicTo a' b' c').
End Meets.

Section Turned.
Context (O : Oracles) (Q : ROracles).
Notation E := (F64 O).
Notation X := (RealEnv Q).
Context (vb : bounds E) (x y w h : F E).
(** the figure has the transform of the text [v], and no other element above it has one *)
Definition turned_by (v : string) (f : figure E) : Prop :=
  exists fs, transform_text E v fs /\ turned O f = fold_left (tfun_apply E) (rev fs) identity.
(** the same scale in both directions, view box and rectangle at the origin *)
Definition square_page : Prop :=
  value64 w / value64 (bW vb) = value64 h / value64 (bH vb) /\ value64 x = 0 /\ value64 y = 0 /\ value64 (bX vb) = 0 /\ value64 (bY vb) = 0.
(** [v] spells the functions [fs]: translations and scalings, then at most one other *)
Definition spells_turn (v : string) (fs : list (tfun X)) : Prop :=
  transform_text X v fs /\ measured_list fs /\ orderly_list identity fs /\ Rabs (scale_x O vb w) * INR (List.length fs) * growths fs <= 2 ^ 12.
(** where SVG puts a point of the figure *)
Definition image (fs : list (tfun X)) (p : R * R) : R * R :=
  let q := moves_list fs p in
  (value64 x + (fst q - value64 (bX vb)) * scale_x O vb w, value64 y + (snd q - value64 (bY vb)) * scale_y O vb h).
(** the coordinates of the outline are at most 2^16 *)
Definition small_outline (p : path) : Prop := forall o a, List.In o p -> List.In a (op_points o) -> (Z.abs (fst a) <= 2 ^ 22 /\ Z.abs (snd a) <= 2 ^ 22)%Z.
(** the size of a unit of the figure on the page, and the tolerance: three 64ths and the size of one *)
Definition unit_x (fs : list (tfun X)) : R :=
  Rabs (fst (image fs (1, 0)) - fst (image fs (0, 0))) + Rabs (fst (image fs (0, 1)) - fst (image fs (0, 0))).
Definition unit_y (fs : list (tfun X)) : R :=
  Rabs (snd (image fs (1, 0)) - snd (image fs (0, 0))) + Rabs (snd (image fs (0, 1)) - snd (image fs (0, 0))).
Definition rx_turned (f : figure E) (l : list (rxTarget * op)) : Prop :=
  exists q, l = (match st_filler (fg_style E f) with Some _ => map (pair Filler) q | None => [] end)
                ++ (match st_liner (fg_style E f) with Some _ => map (pair Stroker) q | None => [] end)
    /\ forall p v fs, exact_outline O Q vb f p -> small_outline p -> turned_by v f -> spells_turn v fs -> Forall2 (op_meets (image fs) (unit_x fs + 3) (unit_y fs + 3)) q p.
Definition pen_turned (f : figure E) (l : list (SpecNatural.pen (E := E))) : Prop :=
  forall p v fs, exact_outline O Q vb f p -> small_outline p -> turned_by v f -> spells_turn v fs -> Forall2 (pen_meets (image fs) (unit_x fs + 3) (unit_y fs + 3)) l (filter drawing_op p).
End Turned.

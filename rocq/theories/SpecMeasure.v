(** * SpecMeasure: what shape elements mean in exact arithmetic *)
From Coq Require Import Reals ZArith.
From Flocq Require Import Core.Raux.
From Verif Require Import F64 RealEnv SpecArc SpecTrig.
From Verif Require Export SpecClose SpecRead SpecTree.
Local Open Scope R_scope.

Section Measure.
Context (Q : ROracles).
Notation X := (RealEnv Q).
Context (vb : bounds X).
(** [s] is a numeral up to 2^17 with a unit; the length [x] it stands for is at most 2^16 *)
Definition exact_length (e : extent) (s : string) (x : R) : Prop :=
  exists l n m u r,
    s = (l ++ (match n_sign n with Minus => "-" | _ => "" end ++ unsigned_text n) ++ m ++ unit_text u ++ r)%string
    /\ blank l = true /\ blank m = true /\ blank r = true /\ legal_numeral n = true /\ short_exp n = true /\ n_sign n <> Plus
    /\ Rabs (num_exact n) <= 2 ^ 17 /\ x = length_value X vb e u (num_exact n) /\ Rabs x <= 2 ^ 16.
Definition exact_attr (e : extent) (n : string) (attrs : list attr) (x : R) : Prop := value_attr (exact_length e) n 0 attrs x.
(** the numbers of a points attribute, at most 2^17 *)
Definition exact_points (attrs : list attr) (ps : list (R * R)) : Prop :=
  exists s, attr_once "points" attrs s /\ spells_numbers X s (flat_map (p1 X) ps) /\ Forall (fun v => Rabs v <= 2 ^ 17) (flat_map (p1 X) ps).

Context (off : R * R).
(** a point on the grid of 1/64 *)
Definition on_grid (p : R * R) : pt := (Ztrunc (64 * (fst p + fst off)), Ztrunc (64 * (snd p + snd off))).
Inductive exact_shape : string -> list attr -> path -> Prop :=
| xs_line attrs x1 y1 x2 y2 :
    exact_attr OfWidth "x1" attrs x1 -> exact_attr OfHeight "y1" attrs y1 ->
    exact_attr OfWidth "x2" attrs x2 -> exact_attr OfHeight "y2" attrs y2 ->
    exact_shape "line" attrs [OpMoveTo (on_grid (x1, y1)); OpLineTo (on_grid (x2, y2))]
| xs_polyline attrs p ps :
    exact_points attrs (p :: ps) -> (2 <= List.length ps)%nat ->
    exact_shape "polyline" attrs (OpMoveTo (on_grid p) :: map (fun q => OpLineTo (on_grid q)) ps)
| xs_polygon attrs p ps :
    exact_points attrs (p :: ps) -> (2 <= List.length ps)%nat ->
    exact_shape "polygon" attrs (OpMoveTo (on_grid p) :: map (fun q => OpLineTo (on_grid q)) ps ++ [OpClose])
| xs_path attrs s cs :
    attr_once "d" attrs s -> spells X s cs -> closes_open X false cs = true -> coords_upto Q (2 ^ 17) cs -> (sets cs < 8192)%Z ->
    exact_shape "path" attrs (draws X off cs)
| xs_no_path attrs : has_attr "d" attrs = false -> exact_shape "path" attrs []
| xs_rect attrs x y w h rx ry :
    exact_attr OfWidth "x" attrs x -> exact_attr OfHeight "y" attrs y ->
    exact_attr OfWidth "width" attrs w -> exact_attr OfHeight "height" attrs h ->
    exact_attr OfWidth "rx" attrs rx -> exact_attr OfHeight "ry" attrs ry ->
    / 2 ^ 16 <= Rabs w -> / 2 ^ 16 <= Rabs h -> rx <= 0 -> ry <= 0 ->
    exact_shape "rect" attrs
      [OpMoveTo (on_grid (x, y)); OpLineTo (on_grid (x + w, y)); OpLineTo (on_grid (x + w, y + h)); OpLineTo (on_grid (x, y + h)); OpClose]
| xs_rect_flat attrs x y w h rx ry :
    exact_attr OfWidth "x" attrs x -> exact_attr OfHeight "y" attrs y ->
    exact_attr OfWidth "width" attrs w -> exact_attr OfHeight "height" attrs h ->
    exact_attr OfWidth "rx" attrs rx -> exact_attr OfHeight "ry" attrs ry ->
    w = 0 \/ h = 0 -> exact_shape "rect" attrs [].
(** the centre and the radii of a circle or an ellipse *)
Inductive round_at : string -> list attr -> R -> R -> R -> R -> Prop :=
| ra_circle attrs cx cy r :
    exact_attr OfWidth "cx" attrs cx -> exact_attr OfHeight "cy" attrs cy -> exact_attr OfDiagonal "r" attrs r ->
    has_attr "rx" attrs = false -> has_attr "ry" attrs = false -> round_at "circle" attrs (cx + fst off) (cy + snd off) r r
| ra_ellipse attrs cx cy rx ry :
    exact_attr OfWidth "cx" attrs cx -> exact_attr OfHeight "cy" attrs cy ->
    exact_attr OfWidth "rx" attrs rx -> exact_attr OfHeight "ry" attrs ry -> has_attr "r" attrs = false ->
    round_at "ellipse" attrs (cx + fst off) (cy + snd off) rx ry.
(** 17 cubic curves around the centre, nothing when a radius is 0 *)
Inductive exact_round : string -> list attr -> path -> Prop :=
| xr_whole name attrs cx cy rx ry : round_at name attrs cx cy rx ry -> / 2 ^ 16 <= rx -> / 2 ^ 16 <= ry -> exact_round name attrs (whole_ellipse cx cy rx ry)
| xr_flat name attrs cx cy rx ry : round_at name attrs cx cy rx ry -> rx = 0 \/ ry = 0 -> exact_round name attrs [].
End Measure.

(** ** Against float64 *)
Section Meant.
Context (O : Oracles) (Q : ROracles).
(** offset and size of the view box are float64 numbers up to 2^17; [p] is the exact outline of the element there; circles and ellipses
    count where the trigonometric functions are within 2^-40 of the truth *)
Definition meant (vb : bounds (F64 O)) (off : point (F64 O)) (name : string) (attrs : list attr) (p : path) : Prop :=
  (upto O 17 (bW vb) /\ upto O 17 (bH vb)) /\ (upto O 17 (fst off) /\ upto O 17 (snd off))
  /\ (exact_shape Q (ex_bounds O Q vb) (value64 (fst off), value64 (snd off)) name attrs p
      \/ fair_trig O /\ exact_round Q (ex_bounds O Q vb) (value64 (fst off), value64 (snd off)) name attrs p).
(** [p] is the operations of that outline, with every coordinate within 1/64 *)
Definition nearly (vb : bounds (F64 O)) (off : point (F64 O)) (name : string) (attrs : list attr) (p : path) : Prop :=
  (exists p', meant vb off name attrs p') /\ forall p', meant vb off name attrs p' -> Forall2 (op_within 1) p p'.
End Meant.

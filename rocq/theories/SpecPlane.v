(** * SpecPlane: the points of a figure, in the plane and on the page (C67)

    Shapes as sets of points of the plane, in exact arithmetic and without any grid: lines, curves and ellipses. *)
From Coq Require Import Reals ZArith.
From Verif Require Import F64 RealEnv.
From Verif Require Export SpecTurn SpecPage.
Local Open Scope R_scope.

(** ** Sets of points *)
Inductive course := Strokes (l : list bow) | Ellipse (cx cy rx ry : R).
Definition points_of (c : course) (z : R * R) : Prop :=
  match c with Strokes l => runs_through (0, 0) (0, 0) l z | Ellipse cx cy rx ry => exists t, z = ellipse_pt cx cy rx ry t end.
(** without the lines that only close a subpath *)
Definition is_back (b : bow) : bool := match b with Back => true | _ => false end.
Definition unclosed (c : course) : course := match c with Strokes l => Strokes (filter (fun b => negb (is_back b)) l) | _ => c end.
(** the outline [l] has a point near the image under [to] of every point of [cs], and no others, up to [ex] and [ey] *)
Definition covers (ex ey : R) (to : R * R -> R * R) (cs : list course) (l : list bow) : Prop :=
  (forall z, runs_through (0, 0) (0, 0) l z -> exists c z', List.In c cs /\ points_of c z' /\ beside ex ey z (to z'))
  /\ (forall c z', List.In c cs -> points_of c z' -> exists z, runs_through (0, 0) (0, 0) l z /\ beside ex ey z (to z')).

(** ** Shapes *)
Section Shapes.
Context (Q : ROracles).
Notation X := (RealEnv Q).
Context (vb : bounds X) (off : R * R).
Definition shifted (p : R * R) : R * R := (fst p + fst off, snd p + snd off).
(** a command of a longhand *)
Definition bow_cmd (c : cmd X) : bow :=
  match c with
  | MoveTo _ p _ => Hop (shifted p)
  | LineTo _ p _ => Straight (shifted p)
  | QuadTo _ q _ => Bend2 (shifted (fst q)) (shifted (snd q))
  | CubicTo _ q _ => Bend3 (shifted (fst (fst q))) (shifted (snd (fst q))) (shifted (snd q))
  | _ => Back
  end.
Inductive plan_of : string -> list attr -> course -> Prop :=
| po_line attrs x1 y1 x2 y2 :
    exact_attr Q vb OfWidth "x1" attrs x1 -> exact_attr Q vb OfHeight "y1" attrs y1 ->
    exact_attr Q vb OfWidth "x2" attrs x2 -> exact_attr Q vb OfHeight "y2" attrs y2 ->
    plan_of "line" attrs (Strokes [Hop (shifted (x1, y1)); Straight (shifted (x2, y2))])
| po_polyline attrs p ps :
    exact_points Q attrs (p :: ps) -> (2 <= List.length ps)%nat ->
    plan_of "polyline" attrs (Strokes (Hop (shifted p) :: map (fun q => Straight (shifted q)) ps))
| po_polygon attrs p ps :
    exact_points Q attrs (p :: ps) -> (2 <= List.length ps)%nat ->
    plan_of "polygon" attrs (Strokes (Hop (shifted p) :: map (fun q => Straight (shifted q)) ps ++ [Back]))
| po_path attrs s rel p ps cs :                             (* path data begins with M or m *)
    let data := MoveTo rel p ps :: cs in
    attr_once "d" attrs s -> spells X s data -> closes_open X false data = true -> coords_upto Q (2 ^ 17) data -> (sets data < 8192)%Z ->
    plan_of "path" attrs (Strokes (map bow_cmd (longhand X (pen0 X) data)))
| po_no_path attrs : has_attr "d" attrs = false -> plan_of "path" attrs (Strokes [])
| po_rect attrs x y w h rx ry :
    exact_attr Q vb OfWidth "x" attrs x -> exact_attr Q vb OfHeight "y" attrs y ->
    exact_attr Q vb OfWidth "width" attrs w -> exact_attr Q vb OfHeight "height" attrs h ->
    exact_attr Q vb OfWidth "rx" attrs rx -> exact_attr Q vb OfHeight "ry" attrs ry ->
    / 2 ^ 16 <= Rabs w -> / 2 ^ 16 <= Rabs h -> rx <= 0 -> ry <= 0 ->
    plan_of "rect" attrs
      (Strokes [Hop (shifted (x, y)); Straight (shifted (x + w, y)); Straight (shifted (x + w, y + h)); Straight (shifted (x, y + h)); Back])
| po_rect_flat attrs x y w h rx ry :
    exact_attr Q vb OfWidth "x" attrs x -> exact_attr Q vb OfHeight "y" attrs y ->
    exact_attr Q vb OfWidth "width" attrs w -> exact_attr Q vb OfHeight "height" attrs h ->
    exact_attr Q vb OfWidth "rx" attrs rx -> exact_attr Q vb OfHeight "ry" attrs ry ->
    w = 0 \/ h = 0 -> plan_of "rect" attrs (Strokes [])
| po_round name attrs cx cy rx ry :
    round_at Q vb off name attrs cx cy rx ry -> / 2 ^ 16 <= rx -> / 2 ^ 16 <= ry -> plan_of name attrs (Ellipse cx cy rx ry)
| po_flat name attrs cx cy rx ry : round_at Q vb off name attrs cx cy rx ry -> rx = 0 \/ ry = 0 -> plan_of name attrs (Strokes []).
End Shapes.

(** ** Figures on the page *)
Section Figures.
Context (O : Oracles) (Q : ROracles).
Notation E := (F64 O).
Notation X := (RealEnv Q).
Context (vb : bounds E) (x y w h : F E).
(** the shapes of a figure one after the other; a path replaces the shapes before it (C27) *)
Inductive plans : list course -> list (placed E) -> list course -> Prop :=
| plans_nil cs : plans cs [] cs
| plans_cons cs off name attrs c r cs' :
    (upto O 17 (bW vb) /\ upto O 17 (bH vb)) /\ (upto O 17 (fst off) /\ upto O 17 (snd off)) ->
    plan_of Q (ex_bounds O Q vb) (value64 (fst off), value64 (snd off)) name attrs c ->
    plans (if String.eqb name "path" && has_attr "d" attrs then [c] else cs ++ [c]) r cs' ->
    plans cs ((off, name, attrs) :: r) cs'.
Definition plan (f : figure E) (cs : list course) : Prop := plans [] (fg_shapes E f) cs.
(** what rasterx gets for a figure, to fill and to stroke *)
Definition rx_covers (f : figure E) (l : list (rxTarget * op)) : Prop :=
  exists q, l = (match st_filler (fg_style E f) with Some _ => map (pair Filler) q | None => [] end)
                ++ (match st_liner (fg_style E f) with Some _ => map (pair Stroker) q | None => [] end)
    /\ forall cs, plan f cs -> covers (tol_x O vb w h (turned O f) / 16) (tol_y O vb w h (turned O f) / 16) (dest O vb x y w h (turned O f)) cs (map bow_of q).
(** what draw2d and gg get; they close subpaths more often than SVG, so closing lines are left out *)
Definition pen_covers (f : figure E) (l : list (SpecNatural.pen (E := E))) : Prop :=
  forall cs, plan f cs ->
  covers (tol_x O vb w h (turned O f) / 16) (tol_y O vb w h (turned O f) / 16) (dest O vb x y w h (turned O f)) (map unclosed cs) (map (pen_bow O) l).
(** the same with a transform and where SVG puts the figure, for coordinates up to 2^16 *)
Definition near_pt (p : R * R) : Prop := Rabs (fst p) <= 2 ^ 16 /\ Rabs (snd p) <= 2 ^ 16.
Definition near_bow (b : bow) : Prop :=
  match b with
  | Hop p | Straight p => near_pt p
  | Bend2 p q => near_pt p /\ near_pt q
  | Bend3 p q r => near_pt p /\ near_pt q /\ near_pt r
  | Back => True
  end.
Definition near_course (c : course) : Prop :=
  match c with Strokes l => Forall near_bow l | Ellipse cx cy rx ry => Rabs cx + rx <= 2 ^ 16 /\ Rabs cy + ry <= 2 ^ 16 end.
Definition rx_sits (f : figure E) (l : list (rxTarget * op)) : Prop :=
  exists q, l = (match st_filler (fg_style E f) with Some _ => map (pair Filler) q | None => [] end)
                ++ (match st_liner (fg_style E f) with Some _ => map (pair Stroker) q | None => [] end)
    /\ forall cs v fs, plan f cs -> Forall near_course cs -> turned_by O v f -> spells_turn O Q vb w v fs ->
       covers ((unit_x O Q vb x y w h fs + 3) / 16) ((unit_y O Q vb x y w h fs + 3) / 16) (image O Q vb x y w h fs) cs (map bow_of q).
Definition pen_sits (f : figure E) (l : list (SpecNatural.pen (E := E))) : Prop :=
  forall cs v fs, plan f cs -> Forall near_course cs -> turned_by O v f -> spells_turn O Q vb w v fs ->
  covers ((unit_x O Q vb x y w h fs + 3) / 16) ((unit_y O Q vb x y w h fs + 3) / 16) (image O Q vb x y w h fs) (map unclosed cs) (map (pen_bow O) l).
End Figures.

(** * SpecPage: circles and ellipses on the page (C64) *)
From Coq Require Import Reals ZArith.
From Verif Require Import F64 RealEnv.
From Verif Require Export SpecLand SpecCircle.
Local Open Scope R_scope.

Section Page.
Context (O : Oracles) (Q : ROracles).
Notation E := (F64 O).
Context (vb : bounds E) (x y w h : F E).
(** what draw2d and gg are told to draw, in pixels *)
Definition pixel (a : F E * F E) : R * R := (value64 (fst a), value64 (snd a)).
Definition pen_bow (p : SpecNatural.pen (E := E)) : bow :=
  match p with PenMove a => Hop (pixel a) | PenLine b => Straight (pixel b) | PenQuad b c => Bend2 (pixel b) (pixel c) | PenCube b c d => Bend3 (pixel b) (pixel c) (pixel d) end.
(** the figure [f] is one circle or ellipse with that centre and these radii *)
Definition round_figure (f : figure E) (cx cy rx ry : R) : Prop :=
  exists off name attrs, fg_shapes E f = [(off, name, attrs)] /\ / 2 ^ 16 <= rx /\ / 2 ^ 16 <= ry
    /\ round_at Q (ex_bounds O Q vb) (value64 (fst off), value64 (snd off)) name attrs cx cy rx ry.
(** an outline in pixels that runs along the image of the ellipse under the transform [t] and the target rectangle, and nowhere
    else, up to a sixteenth of (k + 2) pixels, where k is the size of a unit of the document on the page *)
Definition on_page_ellipse (t : matrix E) (cx cy rx ry : R) (l : list bow) : Prop :=
  runs_along (tol_x O vb w h t / 16) (tol_y O vb w h t / 16) (fun u => dest O vb x y w h t (ellipse_pt cx cy rx ry u)) l.
(** what rasterx gets for the figure, to fill and to stroke *)
Definition rx_round (f : figure E) (l : list (rxTarget * op)) : Prop :=
  forall cx cy rx ry, round_figure f cx cy rx ry ->
  exists q, on_page_ellipse (turned O f) cx cy rx ry (map bow_of q)
    /\ l = (match st_filler (fg_style E f) with Some _ => map (pair Filler) q | None => [] end)
           ++ (match st_liner (fg_style E f) with Some _ => map (pair Stroker) q | None => [] end).
(** what draw2d and gg get *)
Definition pen_round (f : figure E) (l : list (SpecNatural.pen (E := E))) : Prop :=
  forall cx cy rx ry, round_figure f cx cy rx ry -> on_page_ellipse (turned O f) cx cy rx ry (map pen_bow l).
End Page.

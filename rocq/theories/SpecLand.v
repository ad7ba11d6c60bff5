(** * SpecLand: where the points of a document land (C62) *)
From Coq Require Import Reals ZArith.
From Verif Require Import F64 RealEnv.
From Verif Require Export SpecMeasure SpecNatural.
Local Open Scope R_scope.

Section Land.
Context (O : Oracles) (Q : ROracles).
Notation E := (F64 O).
Context (vb : bounds E) (x y w h : F E).

(** ** The exact destination of a point of a path with the transform [t], drawn into the rectangle [x], [y], [w], [h]
    (the library scales the rectangle's corner and the translation of the transform, too) *)
Definition scale_x : R := value64 w / value64 (bW vb).
Definition scale_y : R := value64 h / value64 (bH vb).
Definition scaled_pt (p : R * R) : R * R :=
  ((fst p + (value64 x - value64 (bX vb))) * scale_x, (snd p + (value64 y - value64 (bY vb))) * scale_y).
Definition dest (t : matrix E) (p : R * R) : R * R :=
  let q := scaled_pt p in
  (value64 (mA t) * fst q + value64 (mC t) * snd q + value64 (mE t) * scale_x, value64 (mB t) * fst q + value64 (mD t) * snd q + value64 (mF t) * scale_y).
Definition on_page (t : matrix E) (b : pt) : R * R := dest t (IZR (fst b) / 64, IZR (snd b) / 64).

(** ** Landing near it; tolerances in 1/64 pixel: two, and the size of 1/64 of the document there *)
Definition tol_x (t : matrix E) : R := Rabs (value64 (mA t) * scale_x) + Rabs (value64 (mC t) * scale_y) + 2.
Definition tol_y (t : matrix E) : R := Rabs (value64 (mB t) * scale_x) + Rabs (value64 (mD t) * scale_y) + 2.
(** fixed point numbers *)
Definition pt_lands (t : matrix E) (a b : pt) : Prop :=
  Rabs (IZR (fst a) - 64 * fst (on_page t b)) <= tol_x t /\ Rabs (IZR (snd a) - 64 * snd (on_page t b)) <= tol_y t.
Inductive op_lands (t : matrix E) : op -> op -> Prop :=
| la_move a b : pt_lands t a b -> op_lands t (OpMoveTo a) (OpMoveTo b)
| la_line a b : pt_lands t a b -> op_lands t (OpLineTo a) (OpLineTo b)
| la_quad a b a' b' : pt_lands t a a' -> pt_lands t b b' -> op_lands t (OpQuadTo a b) (OpQuadTo a' b')
| la_cubic a b c a' b' c' : pt_lands t a a' -> pt_lands t b b' -> pt_lands t c c' -> op_lands t (OpCubicTo a b c) (OpCubicTo a' b' c')
| la_close : op_lands t OpClose OpClose.
(** pixels *)
Definition px_lands (t : matrix E) (a : F E * F E) (b : pt) : Prop :=
  (finite64 (fst a) /\ Rabs (value64 (fst a) - fst (on_page t b)) <= tol_x t / 64) /\ (finite64 (snd a) /\ Rabs (value64 (snd a) - snd (on_page t b)) <= tol_y t / 64).
Inductive pen_lands (t : matrix E) : pen (E := E) -> op -> Prop :=
| pl_move a b : px_lands t a b -> pen_lands t (PenMove a) (OpMoveTo b)
| pl_line a b : px_lands t a b -> pen_lands t (PenLine a) (OpLineTo b)
| pl_quad a b a' b' : px_lands t a a' -> px_lands t b b' -> pen_lands t (PenQuad a b) (OpQuadTo a' b')
| pl_cubic a b c a' b' c' : px_lands t a a' -> px_lands t b b' -> px_lands t c c' -> pen_lands t (PenCube a b c) (OpCubicTo a' b' c').
Definition drawing_op (o : op) : bool := match o with OpClose => false | _ => true end.

(** ** Figures: [p] is the exact outline of [f] *)
Definition exact_outline (f : figure E) (p : path) : Prop := outlines E (meant O Q) vb [] (fg_shapes E f) p.
Definition turned (f : figure E) : matrix E := st_transform (fg_style E f).
(** what rasterx gets for a figure: its outline to fill and to stroke *)
Definition rx_figure (f : figure E) (l : list (rxTarget * op)) : Prop :=
  exists q, (forall p, exact_outline f p -> Forall2 (op_lands (turned f)) q p)
    /\ l = (match st_filler (fg_style E f) with Some _ => map (pair Filler) q | None => [] end)
           ++ (match st_liner (fg_style E f) with Some _ => map (pair Stroker) q | None => [] end).
(** draw2d and gg get the outline once, gg draws the figures of masks with the transform of the masked figure *)
Definition pen_figure (t : matrix E) (f : figure E) (l : list (pen (E := E))) : Prop :=
  forall p, exact_outline f p -> Forall2 (pen_lands t) l (filter drawing_op p).
Inductive gg_lands (wd : world E) : list (matrix E * figure E) -> list (ggCall E) -> Prop :=
| gg_lands_i tfs calls ls : Forall2 (fun tf l => pen_figure (fst tf) (snd tf) l) tfs ls -> flat_map gg_trace calls = concat ls ->
    (forall d, List.In (GgSetMask d) calls -> exists t f id m, List.In (t, f) tfs /\ w_masks E wd id = Some m /\ gg_lands wd (map (pair t) (snd m)) d) ->
    gg_lands wd tfs calls.

(** ** Documents of reasonable measures: coordinates below 2^16, and 2^24 on the page *)
Definition page_fits (t : matrix E) (f : figure E) : Prop :=
  sized_matrix O t
  /\ exists p, exact_outline f p /\ forall o a, List.In o p -> List.In a (op_points o) ->
     (Z.abs (fst a) <= 2 ^ 22 /\ Z.abs (snd a) <= 2 ^ 22)%Z /\ Rabs (fst (on_page t a)) <= 2 ^ 24 /\ Rabs (snd (on_page t a)) <= 2 ^ 24.
End Land.

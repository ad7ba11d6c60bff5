(** * SpecOval: transformed circles and ellipses (C66) *)
From Coq Require Import Reals ZArith.
From Verif Require Import F64 RealEnv.
From Verif Require Export SpecTurn SpecPage.
Local Open Scope R_scope.

Section Oval.
Context (O : Oracles) (Q : ROracles).
Notation E := (F64 O).
Notation X := (RealEnv Q).
Context (vb : bounds E) (x y w h : F E).
(** the figure is one circle or ellipse, whose coordinates are at most 2^16 *)
Definition oval_figure (f : figure E) (cx cy rx ry : R) : Prop := round_figure O Q vb f cx cy rx ry /\ Rabs cx + rx <= 2 ^ 16 /\ Rabs cy + ry <= 2 ^ 16.
(** an outline in pixels that runs along what SVG makes of the ellipse under [fs], and nowhere else, up to a sixteenth of three
    pixels and the size of one unit of the figure *)
Definition on_page_oval (fs : list (tfun X)) (cx cy rx ry : R) (l : list bow) : Prop :=
  runs_along ((unit_x O Q vb x y w h fs + 3) / 16) ((unit_y O Q vb x y w h fs + 3) / 16) (fun u => image O Q vb x y w h fs (ellipse_pt cx cy rx ry u)) l.
(** what rasterx gets for the figure, to fill and to stroke *)
Definition rx_oval (f : figure E) (l : list (rxTarget * op)) : Prop :=
  exists q, l = (match st_filler (fg_style E f) with Some _ => map (pair Filler) q | None => [] end)
                ++ (match st_liner (fg_style E f) with Some _ => map (pair Stroker) q | None => [] end)
    /\ forall cx cy rx ry v fs, oval_figure f cx cy rx ry -> turned_by O v f -> spells_turn O Q vb w v fs -> on_page_oval fs cx cy rx ry (map bow_of q).
(** what draw2d and gg get *)
Definition pen_oval (f : figure E) (l : list (SpecNatural.pen (E := E))) : Prop :=
  forall cx cy rx ry v fs, oval_figure f cx cy rx ry -> turned_by O v f -> spells_turn O Q vb w v fs -> on_page_oval fs cx cy rx ry (map (pen_bow O) l).
End Oval.
(** translations, scalings by one factor and rotations, which together enlarge everything [k] times *)
Inductive enlarges {Q : ROracles} : list (tfun (RealEnv Q)) -> R -> Prop :=
| en_nil : enlarges [] 1
| en_translate (x y : R) fs k : enlarges fs k -> enlarges (Translate (RealEnv Q) x y :: fs) k
| en_scale (a : R) fs k : enlarges fs k -> enlarges (Scale (RealEnv Q) a a :: fs) (Rabs a * k)
| en_rotate (a : R) fs k : enlarges fs k -> enlarges (Rotate (RealEnv Q) a :: fs) k.

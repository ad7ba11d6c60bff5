(** * PropertiesRect: rounded rectangles (C22) over the reals *)
From Coq Require Import Reals Lra.
From Flocq Require Import Core.Raux.
From Verif Require Import SpecArc SpecRect ProofsRect ExShape.
Local Open Scope R_scope.

(** C22: a rounded rect draws four sides and four corners, and all its points, control points included, lie in
    the rectangle up to one unit of the 1/64 grid; the Bezier pieces lie in the convex hull of these points.
    Numbers are real numbers.  Missing from the full claim: corners whose two radii differ after a missing
    one is replaced by the other and both are limited to half the side, see [C22_rounded_refuted];
    rectangles beyond 2^22 in size or position, which leave the 26.6 fixed-point grid. *)
Theorem C22_rounded_partial : forall (O : ROracles) (fuel : nat) (attrs : list attr) (x y w h rx ry : R) (c : cursor (RealEnv O)),
  let vb := sv_viewBox (c_svg c) in
  (1 <= fuel)%nat -> pc_path (c_pc c) = [] ->
  length_attr (E := RealEnv O) vb OfWidth "x" attrs x -> length_attr (E := RealEnv O) vb OfHeight "y" attrs y ->
  length_attr (E := RealEnv O) vb OfWidth "width" attrs w -> length_attr (E := RealEnv O) vb OfHeight "height" attrs h ->
  length_attr (E := RealEnv O) vb OfWidth "rx" attrs rx -> length_attr (E := RealEnv O) vb OfHeight "ry" attrs ry ->
  let r := auto_radius rx ry (w / 2) in
  let minX := x + fst (offset c) in let minY := y + snd (offset c) in
  let maxX := minX + w in let maxY := minY + h in
  0 < w -> 0 < h -> 0 <= rx -> 0 <= ry -> 0 < r -> auto_radius ry rx (h / 2) = r ->
  Rabs minX <= 4194304 -> Rabs maxX <= 4194304 -> Rabs minY <= 4194304 -> Rabs maxY <= 4194304 ->
  exists p, element_draws fuel "rect" attrs c p /\ round_outline grid_R r minX minY maxX maxY p /\ outline_inside minX minY maxX maxY p.
Proof. exact round_rect_real. Qed.
Print Assumptions C22_rounded_partial.

(** C22 is false for unequal radii: the outline starts not at (x + rx, y) but displaced vertically by
    2 (y + h/2) (ry/rx - 1), up to rounding, because the scaling also scales the translation. *)
Theorem C22_rounded_refuted : forall (O : ROracles) (fuel : nat) (attrs : list attr) (x y w h rx ry : R) (c : cursor (RealEnv O)) (p : path),
  let vb := sv_viewBox (c_svg c) in
  pc_path (c_pc c) = [] ->
  length_attr (E := RealEnv O) vb OfWidth "x" attrs x -> length_attr (E := RealEnv O) vb OfHeight "y" attrs y ->
  length_attr (E := RealEnv O) vb OfWidth "width" attrs w -> length_attr (E := RealEnv O) vb OfHeight "height" attrs h ->
  length_attr (E := RealEnv O) vb OfWidth "rx" attrs rx -> length_attr (E := RealEnv O) vb OfHeight "ry" attrs ry ->
  let minX := x + fst (offset c) in let minY := y + snd (offset c) in
  let maxX := minX + w in let maxY := minY + h in
  let s := ry / rx in let mid := (minY + maxY) / 2 in
  0 < rx -> 0 < ry -> 2 * rx <= w -> 2 * ry <= h ->
  Rabs minX <= 4194304 -> Rabs maxX <= 4194304 -> Rabs (mid - h / 2 / s) <= 4194304 ->
  Rabs (minY + 2 * mid * (s - 1)) <= 4194304 -> s <= 1024 ->
  element_draws fuel "rect" attrs c p ->
  exists a rest, p = OpMoveTo a :: rest /\ fst a = Ztrunc ((minX + rx) * 64)
    /\ Rabs (IZR (snd a) - 64 * (minY + 2 * mid * (s - 1))) <= s + 1.
Proof. exact round_rect_displaced. Qed.
Print Assumptions C22_rounded_refuted.

Definition rectO : ROracles := {|
  r_fmt := fun _ => EmptyString;
  r_parse := fun s => if String.eqb s "0" then Some 0 else if String.eqb s "20" then Some 20 else if String.eqb s "10" then Some 10 else if String.eqb s "4" then Some 4 else if String.eqb s "2" then Some 2 else None;
  r_f32 := IZR; r_isLetterU := fun _ => false; r_isNumberU := fun _ => false; r_toLowerU := fun s => s;
  r_colorname := fun _ => None; r_growcap := fun n => n |}.
Notation KR := (RealEnv rectO).
Definition rounded : list attr := [mkAttr "ry" "0"; mkAttr "x" "0"; mkAttr "y" "10"; mkAttr "rx" "4"; mkAttr "width" "20"; mkAttr "height" "20"].
Definition uneven : list attr := [mkAttr "ry" "2"; mkAttr "y" "10"; mkAttr "rx" "4"; mkAttr "width" "20"; mkAttr "height" "20"].
Ltac len v s := cbn; exists v; split; [|reflexivity]; exists ""%string, s%string, ""%string, UNone, ""%string, v; repeat split; try reflexivity; cbn; lra.
Lemma rounded_lengths : let vb := sv_viewBox (c_svg (E := KR) (cursor0 StrictErrorMode)) in
  length_attr (E := KR) vb OfWidth "x" rounded 0 /\ length_attr (E := KR) vb OfHeight "y" rounded 10
  /\ length_attr (E := KR) vb OfWidth "width" rounded 20 /\ length_attr (E := KR) vb OfHeight "height" rounded 20
  /\ length_attr (E := KR) vb OfWidth "rx" rounded 4 /\ length_attr (E := KR) vb OfHeight "ry" rounded 0.
Proof.
  repeat split.
  - len 0 "0".
  - len 10 "10".
  - len 20 "20".
  - len 20 "20".
  - len 4 "4".
  - len 0 "0".
Qed.
(** 20 by 20 at (0, 10), rx = 4, ry = 0, which counts as missing *)
Example C22_rounded_example : exists p, element_draws (E := KR) 1 "rect" rounded (cursor0 StrictErrorMode) p
  /\ round_outline grid_R 4 0 10 20 30 p /\ outline_inside 0 10 20 30 p.
Proof.
  destruct rounded_lengths as (H1 & H2 & H3 & H4 & H5 & H6).
  pose proof (C22_rounded_partial rectO 1 rounded 0 10 20 20 4 0 (cursor0 StrictErrorMode) (le_n 1) eq_refl H1 H2 H3 H4 H5 H6) as T.
  assert (E0 : offset (E := KR) (cursor0 StrictErrorMode) = (0, 0)) by (unfold offset; cbn; apply f_equal2; lra).
  rewrite E0 in T. cbn [fst snd] in T.
  replace (auto_radius 4 0 (20 / 2)) with 4 in T by (unfold auto_radius; destruct (Req_EM_T 4 0); [lra|]; rewrite Rmin_left by lra; reflexivity).
  replace (0 + 0) with 0 in T by ring. replace (10 + 0) with 10 in T by ring. replace (0 + 20) with 20 in T by ring. replace (10 + 20) with 30 in T by ring.
  apply T; try lra; try (apply Rabs_le; lra).
  unfold auto_radius. destruct (Req_EM_T 0 0); [|lra]. rewrite Rmin_left by lra. reflexivity.
Qed.
(** with ry = 2 the outline starts at height -10, far outside the rectangle; in float64 too *)
Definition flatO : Oracles := {|
  o_sin := fun x => x; o_cos := fun _ => V 1 1; o_tan := fun x => x; o_atan2 := fun _ _ => V 0 1;
  o_isLetterU := fun _ => false; o_isNumberU := fun _ => false; o_toLowerU := fun s => s; o_colorname := fun _ => None;
  o_int := amd64_int; o_i32 := amd64_i32; o_u32 := amd64_u32 |}.
Example C22_uneven_example :
  match rectF (E := F64 flatO) 1 uneven (cursor0 StrictErrorMode) with
  | (c, Ret _) => match pc_path (c_pc c) with OpMoveTo (x, y) :: _ :: _ :: _ => (x =? 256)%Z && (y =? -640)%Z | _ => false end
  | _ => false end = true.
Proof. vm_compute. reflexivity. Qed.

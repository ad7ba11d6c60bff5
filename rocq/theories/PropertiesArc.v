(** * PropertiesArc: elliptical arcs (C07, C08), whole ellipses over the reals (C23) *)
From Coq Require Import Reals Lra.
From Verif Require Import SpecArc ProofsArc2 ProofsRound ProofsArc3 ExPath.

(** ** C07: where arcs end *)
(** For every number type with commutative addition (float64 is one), every path data of the
    commands M L H V Q T C S Z and single arcs A, a, every legal spelling and every parser state:
    compiling succeeds, the other commands draw as in C01, and every arc either draws cubic curves of
    which the last ends exactly at its end point and makes that the current point, or draws nothing
    and leaves the current point where it was (moved by the use offset).  Missing: that the second case
    does not happen; over the reals it does not, over float64 it does (see below). *)
Theorem C07_arc_end_partial : forall (E : Env) (add_comm : forall a b, fadd E a b = fadd E b a)
    lead body (ks : list (step E)) (c : pcur E), let off := (pc_curX c, pc_curY c) in
  seps lead = true -> spells_steps E body ks -> steps_close E false ks = true ->
  exists c' o s, compilePath (lead ++ body) c = (c', Ret tt)
    /\ drawn E (fun s a q o e => (ends_at E q o /\ e = q) \/ (o = [] /\ e = (fadd E (fst s) (fst off), fadd E (snd s) (snd off)))) off (pen0 E) ks o s
    /\ pc_path c' = o /\ (pc_placeX c', pc_placeY c') = at_ s /\ pc_log c' = pc_log c.
Proof. exact (fun E add_comm lead body ks c => compilePath_steps add_comm (arc_gen (pc_curX c, pc_curY c)) lead body ks c (arc_call_gen (pc_curX c, pc_curY c))). Qed.
Print Assumptions C07_arc_end_partial.

Theorem C07_arc_end_float64_partial : forall (O : Oracles) lead body (ks : list (step (F64 O))) (c : pcur (F64 O)),
  let off := (pc_curX c, pc_curY c) in
  seps lead = true -> spells_steps (F64 O) body ks -> steps_close (F64 O) false ks = true ->
  exists c' o s, compilePath (lead ++ body) c = (c', Ret tt)
    /\ drawn (F64 O) (fun s a q o e => (ends_at (F64 O) q o /\ e = q)
         \/ (o = [] /\ e = (fadd (F64 O) (fst s) (fst off), fadd (F64 O) (snd s) (snd off)))) off (pen0 (F64 O)) ks o s
    /\ pc_path c' = o /\ (pc_placeX c', pc_placeY c') = at_ s /\ pc_log c' = pc_log c.
Proof. exact (fun O => C07_arc_end_partial (F64 O) (F64_add_comm O)). Qed.
Print Assumptions C07_arc_end_float64_partial.

Example C07_example : spells_steps (F64 demoO) "M10 0A5 0 0 0 0 20 0" (zero_steps demoO)
  /\ steps_close (F64 demoO) false (zero_steps demoO) = true.
Proof. split; [apply zero_spelled|reflexivity]. Qed.
(** a case in which the arc is drawn *)
Definition ends_in_arc (o : pcur D * outcome unit) (q : pt) : bool :=
  match o with
  | (c, Ret _) => match rev (pc_path c) with OpLineTo _ :: OpCubicTo _ _ e :: _ => (fst e =? fst q)%Z && (snd e =? snd q)%Z | _ => false end
  | _ => false
  end.
Example C07_drawn_example : ends_in_arc (compilePath "M10 0A5 5 0 0 0 12 3L1 1" (pc0 StrictErrorMode)) (768, 192)%Z = true.
Proof. vm_compute. reflexivity. Qed.

(** float64: with a zero radius nothing is drawn and the current point stays at (10, 0), for every
    implementation of sin, cos and atan2 that is right at 0 and NaN, and int(NaN) as on amd64 *)
Theorem C07_zero_radius_refuted : forall (O : Oracles) m, nan_laws O ->
  spells_steps (F64 O) "M10 0A5 0 0 0 0 20 0" (zero_steps O)
  /\ exists c', compilePath (E := F64 O) "M10 0A5 0 0 0 0 20 0" (pc0 m) = (c', Ret tt)
     /\ pc_path c' = [OpMoveTo (640, 0)%Z] /\ (pc_placeX c', pc_placeY c') = (sf_lit 10 1, sf_lit 0 1).
Proof. exact (fun O m HO => conj (zero_spelled O) (zero_radius O HO m)). Qed.
Print Assumptions C07_zero_radius_refuted.
Example C07_zero_radius_example : nan_laws demoO.
Proof. repeat split. Qed.

Local Open Scope R_scope.
(** With exact arithmetic every arc ends at its end point: the last curve ends there, and it becomes
    the current point.  (Inside a use the end point of the curve lacks the offset of the use, unlike
    the points of all other commands.) *)
Theorem C07_arc_end_real : forall (O : ROracles) lead body (ks : list (step (RealEnv O))) (c : pcur (RealEnv O)),
  seps lead = true -> spells_steps (RealEnv O) body ks -> steps_close (RealEnv O) false ks = true ->
  exists c' o s, compilePath (lead ++ body) c = (c', Ret tt)
    /\ drawn (RealEnv O) (fun _ _ q o e => ends_at (RealEnv O) q o /\ e = q) (pc_curX c, pc_curY c) (pen0 (RealEnv O)) ks o s
    /\ pc_path c' = o /\ (pc_placeX c', pc_placeY c') = at_ s /\ pc_log c' = pc_log c.
Proof. exact arcs_end_real. Qed.
Print Assumptions C07_arc_end_real.

(** numerals for the examples *)
Definition demoA : ROracles := {|
  r_fmt := fun _ => EmptyString;
  r_parse := fun s => if String.eqb s "0" then Some 0 else if String.eqb s "1" then Some 1 else if String.eqb s "2" then Some 2
    else if String.eqb s "4" then Some 4 else if String.eqb s "5" then Some 5 else None;
  r_f32 := IZR; r_isLetterU := fun _ => false; r_isNumberU := fun _ => false; r_toLowerU := fun s => s;
  r_colorname := fun _ => None; r_growcap := fun n => n |}.
Notation KA := (RealEnv demoA).
Ltac values := cbn; repeat (apply (f_equal2 cons); [apply f_equal; lra|]); reflexivity.
Definition arc_example : list (step KA) :=
  [Plain (MoveTo (E := KA) false (1, 2) []); ArcTo (E := KA) true (5, 4, 0, 0, 1) (2, 2); Plain (ClosePath (E := KA))].
Example C07_real_example : spells_steps KA "M1 2a5 4 0 0 1 2 2z" arc_example /\ steps_close KA false arc_example = true.
Proof.
  split; [|reflexivity].
  apply (spells_s_cons KA (Plain (MoveTo (E := KA) false (1, 2) [])) "1 2" "a5 4 0 0 1 2 2z").
  { exists [(""%string, num NoSign "1" None); (" "%string, num NoSign "2" None)], ""%string. repeat split; try reflexivity; values. }
  apply (spells_s_cons KA (ArcTo (E := KA) true (5, 4, 0, 0, 1) (2, 2)) "5 4 0 0 1 2 2" "z").
  { exists [(""%string, num NoSign "5" None); (" "%string, num NoSign "4" None); (" "%string, num NoSign "0" None); (" "%string, num NoSign "0" None);
      (" "%string, num NoSign "1" None); (" "%string, num NoSign "2" None); (" "%string, num NoSign "2" None)], ""%string. repeat split; try reflexivity; values. }
  apply (spells_s_close KA "" ""); [reflexivity|constructor].
Qed.

(** two arcs in one command: both are drawn to the end point of the first, which remains the current
    point, even with exact arithmetic *)
Theorem C07_repeated_refuted : forall (O : ROracles) t0 t (p q q2 : R * R) (rx ry rot fa fs rx2 ry2 rot2 fa2 fs2 : R) (c : pcur (RealEnv O)),
  spells_numbers (RealEnv O) t0 [fst p; snd p] ->
  spells_numbers (RealEnv O) t [rx; ry; rot; fa; fs; fst q; snd q; rx2; ry2; rot2; fa2; fs2; fst q2; snd q2] ->
  exists c', compilePath (String "M" (t0 ++ String "A" t)) c = (c', Ret tt) /\ (pc_placeX c', pc_placeY c') = q
    /\ exists pre b d, pc_path c' = pre ++ [OpCubicTo b d (grid_R q)].
Proof. exact two_arcs_text. Qed.
Print Assumptions C07_repeated_refuted.
Example C07_repeated_example : (2, 2) <> (5, 5)
  /\ spells_numbers KA "5 4 0 0 1 2 2 5 4 0 0 1 5 5" [5; 4; 0; 0; 1; fst (2, 2); snd (2, 2); 5; 4; 0; 0; 1; fst (5, 5); snd (5, 5)].
Proof.
  split; [intros H; injection H as H; lra|].
  exists [(""%string, num NoSign "5" None); (" "%string, num NoSign "4" None); (" "%string, num NoSign "0" None); (" "%string, num NoSign "0" None);
      (" "%string, num NoSign "1" None); (" "%string, num NoSign "2" None); (" "%string, num NoSign "2" None); (" "%string, num NoSign "5" None); (" "%string, num NoSign "4" None); (" "%string, num NoSign "0" None); (" "%string, num NoSign "0" None);
      (" "%string, num NoSign "1" None); (" "%string, num NoSign "5" None); (" "%string, num NoSign "5" None)], ""%string. repeat split; try reflexivity; values.
Qed.

(** ** C08: arc geometry *)
(** With exact arithmetic and outside a use, every arc with positive radii and an end point other than the
    current point is the arc of SVG: the ellipse has the given rotation and radii scaled by the least
    factor >= 1 for which an ellipse through both points exists, both points lie on it, the direction
    of travel follows the sweep flag and the angle spanned is at least or at most PI as the large-arc
    flag says; what is drawn are n equal cubic pieces, each spanning less than PI/8, whose end points
    lie on the ellipse and whose handles follow its derivative. *)
Theorem C08_arc_geometry : forall (O : ROracles) lead body (ks : list (step (RealEnv O))) (c : pcur (RealEnv O)),
  pc_curX c = 0 -> pc_curY c = 0 ->
  seps lead = true -> spells_steps (RealEnv O) body ks -> steps_close (RealEnv O) false ks = true ->
  exists c' o s, compilePath (lead ++ body) c = (c', Ret tt)
    /\ drawn (RealEnv O) (fun s a q o e => let '(rx, ry, deg, fa, fs) := a in
         e = q /\ (0 < rx -> 0 < ry -> s <> q -> forall large sweep : bool,
           (large = true <-> fa <> 0) -> (sweep = true <-> fs <> 0) -> svg_arc s rx ry deg large sweep q o))
       (0, 0) (pen0 (RealEnv O)) ks o s
    /\ pc_path c' = o /\ (pc_placeX c', pc_placeY c') = at_ s /\ pc_log c' = pc_log c.
Proof. exact arcs_svg_real. Qed.
Print Assumptions C08_arc_geometry.
(** the points of such an ellipse satisfy its equation *)
Theorem C08_equation : forall cx cy rx ry rot t, rx <> 0 -> ry <> 0 ->
  let (x, y) := ell_at cx cy rx ry rot t in
  (((x - cx) * cos rot + (y - cy) * sin rot) / rx)² + (((y - cy) * cos rot - (x - cx) * sin rot) / ry)² = 1.
Proof. exact ell_at_equation. Qed.
Print Assumptions C08_equation.
Example C08_example : spells_steps KA "M1 2a5 4 0 0 1 2 2z" arc_example /\ steps_close KA false arc_example = true
  /\ pc_curX (pc0 (E := KA) StrictErrorMode) = 0 /\ 0 < 5 /\ 0 < 4 /\ (1, 2) <> (1 + 2, 2 + 2).
Proof.
  destruct C07_real_example as [H1 H2]. split; [exact H1|]. split; [exact H2|]. split; [cbn; lra|]. split; [lra|]. split; [lra|].
  intros H. injection H as H. lra.
Qed.

(** ** C23, exact arithmetic *)
(** A circle or ellipse with radii other than zero draws the whole ellipse: from (cx + rx, cy), in 17 cubic pieces
    whose end points lie on it, back to (cx + rx, cy), and closes. *)
Theorem C23_round_real : forall (O : ROracles) fuel attrs (cx cy r rx ry : R) (c : cursor (RealEnv O)), let vb := sv_viewBox (c_svg c) in
  let x := cx + fst (offset c) in let y := cy + snd (offset c) in
  pc_path (c_pc c) = [] -> length_attr (E := RealEnv O) vb OfWidth "cx" attrs cx -> length_attr (E := RealEnv O) vb OfHeight "cy" attrs cy ->
  (length_attr (E := RealEnv O) vb OfDiagonal "r" attrs r -> has_attr "rx" attrs = false -> has_attr "ry" attrs = false -> r <> 0 ->
     element_draws fuel "circle" attrs c (whole_ellipse x y r r))
  /\ (length_attr (E := RealEnv O) vb OfWidth "rx" attrs rx -> length_attr (E := RealEnv O) vb OfHeight "ry" attrs ry -> has_attr "r" attrs = false ->
     rx <> 0 -> ry <> 0 -> element_draws fuel "ellipse" attrs c (whole_ellipse x y rx ry)).
Proof. exact round_real. Qed.
Print Assumptions C23_round_real.
Example C23_real_example : exists c : cursor KA, pc_path (c_pc c) = []
  /\ length_attr (E := KA) (sv_viewBox (c_svg c)) OfWidth "rx" [mkAttr "rx" "5"; mkAttr "ry" "2"] 5
  /\ length_attr (E := KA) (sv_viewBox (c_svg c)) OfHeight "ry" [mkAttr "rx" "5"; mkAttr "ry" "2"] 2
  /\ length_attr (E := KA) (sv_viewBox (c_svg c)) OfWidth "cx" [mkAttr "rx" "5"; mkAttr "ry" "2"] (f0 KA).
Proof.
  exists (cursor0 StrictErrorMode). split; [reflexivity|]. split; [|split].
  - cbn. exists 5. split; [|reflexivity]. exists ""%string, "5"%string, ""%string, UNone, ""%string, 5. repeat split; try reflexivity. cbn. lra.
  - cbn. exists 2. split; [|reflexivity]. exists ""%string, "2"%string, ""%string, UNone, ""%string, 2. repeat split; try reflexivity. cbn. lra.
  - reflexivity.
Qed.

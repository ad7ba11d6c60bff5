(** * PropertiesText: paths written as text and parsed again (C33) *)
From Coq Require Import ZArith.
From Verif Require Import SpecText ProofsText ExPath.
Local Open Scope Z_scope.

(** C33.  Float64, any path of moves, lines, quadratic curves and closes with coordinates below 2^24/64, in any
    parser state outside a use element: the text of ToSVGPath compiles, and draws the same operations, each
    coordinate either unchanged or 1/64 closer to zero; [cut] says which.
    Missing from the full claim: the lost 1/64, see [C33_same_iff] and [C33_refuted]; cubic curves, see
    [C33_cubic_refuted]; coordinates that float32 cannot hold. *)
Theorem C33_text_partial : forall (O : Oracles) (p : path) (c : pcur (F64 O)),
  pc_curX c = fnum (F64 O) 0 -> pc_curY c = fnum (F64 O) 0 -> writable p = true -> closes false p = true ->
  exists c', compilePath (toSVGPath (E := F64 O) p) c = (c', Ret tt)
    /\ pc_path c' = map (map_op cut) p /\ pc_log c' = pc_log c.
Proof. exact text_again. Qed.
Print Assumptions C33_text_partial.
(** the same path comes back exactly when every coordinate is lossless: multiples of 1/8 are *)
Theorem C33_same_iff : forall (O : Oracles) (p : path) (c : pcur (F64 O)),
  pc_curX c = fnum (F64 O) 0 -> pc_curY c = fnum (F64 O) 0 -> writable p = true -> closes false p = true ->
  exists c', compilePath (toSVGPath (E := F64 O) p) c = (c', Ret tt)
    /\ (pc_path c' = p <-> forallb (all_op lossless) p = true).
Proof. exact text_same. Qed.
Print Assumptions C33_same_iff.
Theorem C33_eighths : forall k, lossless (8 * k) = true.
Proof. exact eighths. Qed.
Print Assumptions C33_eighths.
Definition written : path := [OpMoveTo (640, -1); OpLineTo (5, 8); OpQuadTo (16, 24) (-5, 7); OpClose; OpMoveTo (0, 0)].
Example C33_example : writable written = true /\ closes false written = true
  /\ map (map_op cut) written = [OpMoveTo (640, -1); OpLineTo (4, 8); OpQuadTo (16, 24) (-4, 6); OpClose; OpMoveTo (0, 0)]
  /\ toSVGPath (E := D) written = "M10.000,-0.016 L0.078,0.125 Q0.250,0.375,-0.078,0.109 Z M0.000,0.000"%string
  /\ match compilePath (E := D) (toSVGPath (E := D) written) (pc0 StrictErrorMode) with (c, Ret _) => Nat.eqb (length (pc_path c)) 5 | _ => false end = true.
Proof. repeat split; vm_compute; reflexivity. Qed.

(** C33 is false: 5/64 comes back as 4/64 *)
Theorem C33_refuted : exists p, writable p = true /\ closes false p = true
  /\ forall (O : Oracles) (c c' : pcur (F64 O)), pc_curX c = fnum (F64 O) 0 -> pc_curY c = fnum (F64 O) 0 ->
     compilePath (toSVGPath (E := F64 O) p) c = (c', Ret tt) -> pc_path c' <> p.
Proof. exact text_refuted. Qed.
Print Assumptions C33_refuted.
(** C33 is false of every path with a cubic curve: the text has "CC", which is an error; only the operations before it are drawn *)
Theorem C33_cubic_refuted : forall (O : Oracles) (p : path) (b1 b2 b3 : pt) (rest : path) (c : pcur (F64 O)),
  pc_curX c = fnum (F64 O) 0 -> pc_curY c = fnum (F64 O) 0 -> writable p = true -> closes false p = true ->
  exists c', compilePath (toSVGPath (E := F64 O) (p ++ OpCubicTo b1 b2 b3 :: rest)) c = (c', Err ErrParamMismatch)
    /\ pc_path c' = map (map_op cut) p.
Proof. exact text_cubic. Qed.
Print Assumptions C33_cubic_refuted.
Example C33_cubic_example :
  toSVGPath (E := D) [OpMoveTo (64, 64); OpCubicTo (0, 0) (64, 0) (128, 64)] = "M1.000,1.000 CC0.000,0.000,1.000,0.000,2.000,1.000"%string.
Proof. vm_compute. reflexivity. Qed.

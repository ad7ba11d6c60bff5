(** * SpecText: paths as text *)
From Coq Require Import ZArith.
From Verif Require Export Geom SpecPath.
Local Open Scope Z_scope.

(** A coordinate [z] is z/64.  Its text has three decimals, the nearest ones, ties to even; reading it
    truncates to 1/64 again.  Nothing is lost if the text is not smaller in magnitude than z/64. *)
Definition lossless (z : Z) : bool :=
  let n := 125 * Z.abs z in          (* 1000 |z| / 64 = n / 8 *)
  (n mod 8 =? 0) || (4 <? n mod 8) || ((n mod 8 =? 4) && Z.odd (n / 8)).
(** otherwise 1/64 is lost *)
Definition cut (z : Z) : Z := if lossless z then z else z - Z.sgn z.
Definition map_pt (f : Z -> Z) (a : pt) : pt := (f (fst a), f (snd a)).
Definition map_op (f : Z -> Z) (o : op) : op :=
  match o with
  | OpMoveTo a => OpMoveTo (map_pt f a)
  | OpLineTo b => OpLineTo (map_pt f b)
  | OpQuadTo b c => OpQuadTo (map_pt f b) (map_pt f c)
  | OpCubicTo b c d => OpCubicTo (map_pt f b) (map_pt f c) (map_pt f d)
  | OpClose => OpClose
  end.
Definition all_pt (f : Z -> bool) (a : pt) : bool := f (fst a) && f (snd a).
Definition all_op (f : Z -> bool) (o : op) : bool :=
  match o with
  | OpMoveTo a | OpLineTo a => all_pt f a
  | OpQuadTo b c => all_pt f b && all_pt f c
  | OpCubicTo b c d => all_pt f b && all_pt f c && all_pt f d
  | OpClose => true
  end.
Definition no_cubic (o : op) : bool := match o with OpCubicTo _ _ _ => false | _ => true end.
(** exactly representable in float32 *)
Definition small (z : Z) : bool := Z.abs z <? 2 ^ 24.
(** no cubics, float32 coordinates *)
Definition writable (p : path) : bool := forallb (fun o => no_cubic o && all_op small o) p.
(** every close ends a subpath begun by a move after the previous close *)
Fixpoint closes (opened : bool) (p : path) : bool :=
  match p with
  | [] => true
  | OpMoveTo _ :: r => closes true r
  | OpClose :: r => opened && closes false r
  | _ :: r => closes opened r
  end.

(** * SpecRead: decimal numerals and path data read exactly *)
From Coq Require Import Reals ZArith NArith.
From Verif Require Import F64 RealEnv.
From Verif Require Export SpecLong.
Local Open Scope R_scope.

(** the number a string of decimal digits stands for, after [acc] *)
Fixpoint decimal (acc : Z) (s : string) : Z :=
  match s with EmptyString => acc | String c r => decimal (10 * acc + (Z.of_N (N_of_ascii c) - 48)) r end.
(** the number a numeral stands for: sign, digits, power of ten *)
Definition num_exact (n : numeral) : R :=
  (match n_sign n with Minus => -1 | _ => 1 end)
  * IZR (decimal 0 (n_int n ++ match n_frac n with Some f => f | None => "" end))
  * powerRZ 10 (match n_exp n with Some (neg, ds) => (if neg : bool then -1 else 1) * decimal 0 ds | None => 0 end
                - match n_frac n with Some f => Z.of_nat (String.length f) | None => 0 end).
(** exponents below 10000; strconv.ParseFloat may skip digits of larger ones *)
Definition short_exp (n : numeral) : bool :=
  match n_exp n with Some (_, ds) => (decimal 0 ds <? 10000)%Z | None => true end.
(** an exact reader of numbers; numerals with larger exponents have no meaning for it *)
Definition reads_exactly (Q : ROracles) : Prop :=
  forall n, legal_numeral n = true ->
    r_parse Q (match n_sign n with Minus => "-" | _ => "" end ++ unsigned_text n)%string = if short_exp n then Some (num_exact n) else None.

(** every coordinate of the drawing, written out in full, is at most [b] *)
Definition coords_upto (Q : ROracles) (b : R) (cs : list (cmd (RealEnv Q))) : Prop :=
  forall c v, List.In c (longhand (RealEnv Q) (pen0 (RealEnv Q)) cs) -> List.In v (args (RealEnv Q) c) -> Rabs v <= b.
(** operations whose points differ by at most [k]/64 *)
Definition pt_within (k : Z) (a b : pt) : Prop := (Z.abs (fst a - fst b) <= k /\ Z.abs (snd a - snd b) <= k)%Z.
Inductive op_within (k : Z) : op -> op -> Prop :=
| ow_move a b : pt_within k a b -> op_within k (OpMoveTo a) (OpMoveTo b)
| ow_line a b : pt_within k a b -> op_within k (OpLineTo a) (OpLineTo b)
| ow_quad a b a' b' : pt_within k a a' -> pt_within k b b' -> op_within k (OpQuadTo a b) (OpQuadTo a' b')
| ow_cubic a b c a' b' c' : pt_within k a a' -> pt_within k b b' -> pt_within k c c' -> op_within k (OpCubicTo a b c) (OpCubicTo a' b' c')
| ow_close : op_within k OpClose OpClose.
(** the number of argument sets *)
Definition set_count {E : Env} (c : cmd E) : Z :=
  match c with
  | MoveTo _ _ l | LineTo _ _ l | SmoothQuadTo _ _ l => 1 + Z.of_nat (List.length l)
  | HLineTo _ _ l | VLineTo _ _ l => 1 + Z.of_nat (List.length l)
  | QuadTo _ _ l | SmoothCubicTo _ _ l => 1 + Z.of_nat (List.length l)
  | CubicTo _ _ l => 1 + Z.of_nat (List.length l)
  | ClosePath => 0
  end.
Definition sets {E : Env} (cs : list (cmd E)) : Z := fold_right Z.add 0%Z (map set_count cs).

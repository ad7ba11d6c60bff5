(** * ProofsF64: laws of the binary64 instance *)
From Coq Require Import ZArith Lia Floats.SpecFloat.
From Verif Require Export F64.
Local Open Scope Z_scope.

Lemma sfadd_comm p e x y : SFadd p e x y = SFadd p e y x.
Proof.
  destruct x as [sx|sx| |sx mx ex], y as [sy|sy| |sy my ey]; try reflexivity; cbn [SFadd].
  - destruct sx, sy; reflexivity.
  - destruct sx, sy; reflexivity.
  - rewrite (Z.min_comm ex ey), Z.add_comm. reflexivity.
Qed.
(** float64 addition is commutative *)
Lemma F64_add_comm O (a b : F (F64 O)) : fadd (F64 O) a b = fadd (F64 O) b a.
Proof. apply sfadd_comm. Qed.

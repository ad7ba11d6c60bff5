(** * ProofsArcNear2: the centre of arcs in binary64 *)
From Coq Require Import ZArith Lia Reals Lra Psatz Floats.SpecFloat.
From Flocq Require Import Core.Core Relative IEEE754.BinarySingleNaN.
From Verif Require Import F64 RealEnv SpecArc ProofsArc ProofsArc2 ProofsAngle ProofsSize3 ProofsArc64 ProofsDec ProofsScale ProofsClose ProofsF64 SpecClose SpecArcNear ProofsCircle ProofsArcNear ProofsFlocq.
Local Open Scope R_scope.
Local Existing Instance ProofsFlocq.Hprec.
Local Existing Instance ProofsFlocq.Hmax.
Local Notation pow := (bpow radix2).
Local Notation u := (/ 17592186044416).
Local Notation eps := (/ 9007199254740992).

(** ** Plane geometry *)
Lemma norm_le a b c d : sqrt (a * a + b * b) <= sqrt (c * c + d * d) + (Rabs (a - c) + Rabs (b - d)).
Proof.
  set (h := sqrt (c * c + d * d)). assert (Hh : 0 <= h) by apply sqrt_pos. assert (Hq : h * h = c * c + d * d) by (apply sqrt_sqrt; nra).
  pose proof (Rabs_pos (a - c)) as P1. pose proof (Rabs_pos (b - d)) as P2.
  assert (Hc : Rabs c <= h) by (apply Rsqr_incr_0_var; [|exact Hh]; rewrite <- Rsqr_abs; unfold Rsqr; nra).
  assert (Hd : Rabs d <= h) by (apply Rsqr_incr_0_var; [|exact Hh]; rewrite <- Rsqr_abs; unfold Rsqr; nra).
  set (e1 := Rabs (a - c)) in *. set (e2 := Rabs (b - d)) in *.
  rewrite <- (sqrt_square (h + (e1 + e2))) by lra. apply sqrt_le_1_alt.
  assert (A1 : (a - c) * (a - c) = e1 * e1) by (unfold e1; rewrite <- Rabs_mult; symmetry; apply Rabs_pos_eq, Rle_0_sqr).
  assert (A2 : (b - d) * (b - d) = e2 * e2) by (unfold e2; rewrite <- Rabs_mult; symmetry; apply Rabs_pos_eq, Rle_0_sqr).
  assert (B1 : c * (a - c) <= h * e1). { apply Rle_trans with (1 := Rle_abs _). rewrite Rabs_mult. apply Rmult_le_compat; try apply Rabs_pos; [exact Hc|apply Rle_refl]. }
  assert (B2 : d * (b - d) <= h * e2). { apply Rle_trans with (1 := Rle_abs _). rewrite Rabs_mult. apply Rmult_le_compat; try apply Rabs_pos; [exact Hd|apply Rle_refl]. }
  replace (a * a + b * b) with (c * c + d * d + 2 * (c * (a - c)) + 2 * (d * (b - d)) + (a - c) * (a - c) + (b - d) * (b - d)) by ring. rewrite A1, A2, <- Hq. nra.
Qed.
Lemma norm_near a b c d : Rabs (sqrt (a * a + b * b) - sqrt (c * c + d * d)) <= Rabs (a - c) + Rabs (b - d).
Proof.
  pose proof (norm_le a b c d) as H1. pose proof (norm_le c d a b) as H2. rewrite (Rabs_minus_sym c a), (Rabs_minus_sym d b) in H2. apply Rabs_le. lra.
Qed.
Lemma sqrt2_le x y : 0 <= y -> x <= y * y -> sqrt x <= y.
Proof. intros Hy H. rewrite <- (sqrt_square y Hy). apply sqrt_le_1_alt, H. Qed.
Lemma le_sqrt2 x y : 0 <= x -> x * x <= y -> x <= sqrt y.
Proof. intros Hx H. rewrite <- (sqrt_square x Hx) at 1. apply sqrt_le_1_alt, H. Qed.
Lemma half_facts X Y c s r : c * c + s * s = 1 -> / 16 <= r <= 16 -> let N := Rabs X + Rabs Y in
  let p := (X * c + Y * s) / 2 in let q := (- X * s + Y * c) / 2 in let H := sqrt (r * p * (r * p) + q * q) in
  N <= 46 * H /\ r * N <= 46 * H /\ H <= 8 * sqrt (X * X + Y * Y) /\ H <= r * (8 * sqrt (X * X + Y * Y)).
Proof.
  intros Hcs Hr N p q H.
  assert (Hpq : p * p + q * q = (X * X + Y * Y) / 4). { unfold p, q. transitivity ((X * X + Y * Y) * (c * c + s * s) / 4); [field|rewrite Hcs; field]. }
  assert (Q1 : H * H = r * p * (r * p) + q * q) by (apply sqrt_sqrt; nra). assert (Hp : 0 <= H) by apply sqrt_pos.
  assert (HN : N * N <= 2 * (X * X + Y * Y)).
  { unfold N. assert (X * X = Rabs X * Rabs X) by (rewrite <- Rabs_mult; symmetry; apply Rabs_pos_eq, Rle_0_sqr). assert (Y * Y = Rabs Y * Rabs Y) by (rewrite <- Rabs_mult; symmetry; apply Rabs_pos_eq, Rle_0_sqr). 
    pose proof (Rle_0_sqr (Rabs X - Rabs Y)). unfold Rsqr in *. nra. }
  assert (N0 : 0 <= N) by (unfold N; pose proof (Rabs_pos X); pose proof (Rabs_pos Y); lra).
  set (Z := X * X + Y * Y) in *. assert (Z0 : 0 <= Z) by (unfold Z; nra). assert (P2 : 0 <= p * p) by nra. assert (Q2 : 0 <= q * q) by nra.
  assert (R2 : / 256 <= r * r <= 256) by nra. assert (Q1' : H * H = r * r * (p * p) + q * q) by (rewrite Q1; ring).
  assert (SZ : sqrt Z * sqrt Z = Z) by (apply sqrt_sqrt, Z0). pose proof (sqrt_pos Z) as SZ0.
  assert (L1 : Z <= 4 * 256 * (H * H)) by nra. assert (L2 : r * r * Z <= 4 * 256 * (H * H)).
  { rewrite Q1'. destruct (Rle_or_lt r 1); [assert (r * r <= 1) by nra; nra|]. assert (1 <= r * r) by nra. nra. }
  split; [|split; [|split]].
  - apply Rsqr_incr_0_var; [unfold Rsqr; nra|lra].
  - apply Rsqr_incr_0_var; [|lra]. unfold Rsqr. replace (r * N * (r * N)) with (r * r * (N * N)) by ring. nra.
  - apply Rsqr_incr_0_var; [|lra]. unfold Rsqr. nra.
  - apply Rsqr_incr_0_var; [|nra]. unfold Rsqr. replace (r * (8 * sqrt Z) * (r * (8 * sqrt Z))) with (r * r * (64 * (sqrt Z * sqrt Z))) by ring. rewrite SZ, Q1'.
    assert (q * q <= 256 * (r * r) * (q * q)) by nra. assert (0 <= r * r * (p * p)) by nra. nra.
Qed.

(** ** The height of the centre over the chord *)
Lemma sq_rnd z : 0 <= z <= 2 ^ 60 -> Rabs (rnd z * rnd z - z * z) <= 3 * eps * (z * z) + / 2 ^ 200.
Proof.
  intros Hz. pose proof (rnd_rel' z) as H. rewrite (Rabs_pos_eq z) in H by lra. pose proof tn_small as T. set (e := rnd z - z) in *.
  replace (rnd z * rnd z - z * z) with (e * (2 * z + e)) by (unfold e; ring). rewrite Rabs_mult.
  assert (A : Rabs (2 * z + e) <= 2 * z + (eps * z + tn)). { apply Rle_trans with (1 := Rabs_triang _ _). rewrite (Rabs_pos_eq (2 * z)) by lra. lra. }
  apply Rle_trans with ((eps * z + tn) * (2 * z + (eps * z + tn))). { apply Rmult_le_compat; try apply Rabs_pos; assumption. }
  replace ((eps * z + tn) * (2 * z + (eps * z + tn))) with ((2 * eps + eps * eps) * (z * z) + (2 + 2 * eps) * (tn * z) + tn * tn) by ring.
  assert (B : tn * z <= / 2 ^ 300 * 2 ^ 60) by (apply Rmult_le_compat; lra). assert (Cc : tn * tn <= / 2 ^ 300 * 1) by (apply Rmult_le_compat; lra). assert (0 <= z * z) by nra.
  assert (E1 : / 2 ^ 300 * 2 ^ 60 <= / 2 ^ 220) by lra. assert (E2 : / 2 ^ 300 * 1 <= / 2 ^ 220) by lra. assert (E0 : 0 < / 2 ^ 220) by (apply Rinv_0_lt_compat; lra). assert (E3 : 4 * / 2 ^ 220 <= / 2 ^ 200) by lra. 
  set (t1 := / 2 ^ 300 * 2 ^ 60) in *. set (t2 := / 2 ^ 300 * 1) in *. set (t3 := / 2 ^ 220) in *. set (t4 := / 2 ^ 200) in *. clearbody t1 t2 t3 t4. set (w := z * z) in *. clearbody w. lra.
Qed.
Lemma root_rnd z : 0 <= z <= 2 ^ 60 -> Rabs (rnd (sqrt z) * rnd (sqrt z) - z) <= 3 * eps * z + / 2 ^ 200.
Proof.
  intros Hz. assert (E : sqrt z * sqrt z = z) by (apply sqrt_sqrt; lra). pose proof (sq_rnd (sqrt z)) as H. rewrite E in H. apply H. split; [apply sqrt_pos|].
  apply sqrt2_le; [lra|]. apply Rle_trans with (2 ^ 60); [apply Hz|lra].
Qed.
Lemma square_near M1 M2 : / 2 ^ 30 <= M1 * M1 + M2 * M2 -> let D := M1 * M1 + M2 * M2 in Rabs (rnd (rnd (M1 * M1) + rnd (M2 * M2)) - D) <= 4 * eps * D.
Proof.
  intros HD D. pose proof (rnd_rel' (M1 * M1)) as A. pose proof (rnd_rel' (M2 * M2)) as B. pose proof (rnd_rel' (rnd (M1 * M1) + rnd (M2 * M2))) as Cc. pose proof tn_small as T.
  rewrite (Rabs_pos_eq (M1 * M1)) in A by nra. rewrite (Rabs_pos_eq (M2 * M2)) in B by nra. assert (P1 : 0 <= M1 * M1) by nra. assert (P2 : 0 <= M2 * M2) by nra.
  fold D in HD. assert (ED : D = M1 * M1 + M2 * M2) by reflexivity. clearbody D. set (x := M1 * M1) in *. set (y := M2 * M2) in *. clearbody x y.
  assert (Ht : 1000 * tn <= eps * D). { apply Rle_trans with (1000 * / 2 ^ 300); [lra|]. apply Rle_trans with (eps * / 2 ^ 30); [lra|]. apply Rmult_le_compat_l; [lra|exact HD]. }
  clear HD T. set (a := rnd x) in *. set (b := rnd y) in *. set (c := rnd (a + b)) in *. clearbody a b c. set (t0 := tn) in *. clearbody t0.
  assert (S : Rabs (a + b) <= 2 * D). { absl. apply Rabs_le. lra. } assert (K : Rabs (c - (a + b)) <= eps * (2 * D) + t0) by lra. clear Cc S. absl. apply Rabs_le. lra.
Qed.
Lemma sq_pos_rnd z : 0 <= z -> 0 <= rnd z. Proof. apply rnd_pos. Qed.
Lemma height_near D ml b : / 2 ^ 30 <= D -> / 16 <= b <= 2 ^ 12 -> Rabs (ml - D) <= 4 * eps * D -> ml <= rnd (b * b) ->
  let Q := rnd (rnd (b * b) - ml) in let hr := rnd (rnd (sqrt Q) / rnd (sqrt ml)) in
  0 <= hr /\ Rabs (hr * hr * D + D - b * b) <= / 8 * u * (b * b).
Proof.
  intros HD Hb Hml Hle Q hr.
  assert (D0 : 0 < D). { apply Rlt_le_trans with (2 := HD). apply Rinv_0_lt_compat. lra. }
  assert (Hx : / 256 <= b * b <= 2 ^ 24) by (split; [|replace (2 ^ 24) with (2 ^ 12 * 2 ^ 12) by lra]; nra).
  pose proof (rnd_rel' (b * b)) as A. pose proof tn_small as T. set (x := b * b) in *. rewrite (Rabs_pos_eq x) in A by lra.
  assert (Tx : tn <= / 1000 * (eps * x)). { apply Rle_trans with (/ 2 ^ 300); [lra|]. apply Rle_trans with (/ 1000 * (eps * / 256)); [|lra]. clear. lra. }
  set (bb := rnd x) in *. assert (Hbb : Rabs (bb - x) <= 2 * eps * x) by (absl; apply Rabs_le; lra). clear A.
  assert (ml0 : (1 - 4 * eps) * D <= ml <= (1 + 4 * eps) * D) by (absl; lra). assert (Dx : D <= (1 + 7 * eps) * x) by (absl; lra).
  pose proof (rnd_rel' (bb - ml)) as A. fold Q in A. rewrite (Rabs_pos_eq (bb - ml)) in A by lra.
  assert (Q0 : 0 <= Q) by (apply rnd_pos; lra). 
  assert (QE : Rabs (Q - (x - D)) <= 12 * eps * x). { absl. apply Rabs_le. split; lra. } clear A.
  assert (Qx : Q <= (1 + 12 * eps) * x) by (absl; lra).
  pose proof (root_rnd Q) as HQ. specialize (HQ ltac:(split; [exact Q0|]; apply Rle_trans with (1 := Qx); apply Rle_trans with (2 * x); [nra|]; apply Rle_trans with (2 * 2 ^ 24); lra)).
  pose proof (root_rnd ml) as HM. specialize (HM ltac:(split; [apply Rle_trans with ((1 - 4 * eps) * D); [nra|apply ml0]|]; apply Rle_trans with (1 := Hle); apply Rle_trans with (2 * x); [absl; lra|]; apply Rle_trans with (2 * 2 ^ 24); lra)).
  set (sQ := rnd (sqrt Q)) in *. set (sM := rnd (sqrt ml)) in *.
  assert (sQ0 : 0 <= sQ) by (apply rnd_pos, sqrt_pos). assert (sM0 : 0 <= sM) by (apply rnd_pos, sqrt_pos).
  assert (TD : / 2 ^ 200 <= / 1000 * (eps * D)). { apply Rle_trans with (/ 1000 * (eps * / 2 ^ 30)); [clear; lra|]. apply Rmult_le_compat_l; [lra|]. apply Rmult_le_compat_l; [lra|exact HD]. }
  assert (Txx : / 2 ^ 200 <= / 1000 * (eps * x)). { apply Rle_trans with (/ 1000 * (eps * / 256)); [clear; lra|]. lra. }
  assert (MM : (1 - 8 * eps) * D <= sM * sM <= (1 + 8 * eps) * D). { set (t := / 2 ^ 200) in *. clearbody t. absl. split; lra. }
  assert (QQ : Rabs (sQ * sQ - Q) <= 4 * eps * x). { set (t := / 2 ^ 200) in *. clearbody t. absl. apply Rabs_le. split; lra. }
  clear HM HQ. assert (sMp : 0 < sM). { destruct sM0 as [|E0]; [assumption|]. exfalso. rewrite <- E0, Rmult_0_l in MM. lra. }
  set (z := sQ / sM) in *. assert (z0 : 0 <= z) by (apply Rmult_le_pos; [exact sQ0|apply Rlt_le, Rinv_0_lt_compat, sMp]).
  assert (Ez : z * z * (sM * sM) = sQ * sQ) by (unfold z; field; lra). set (y := sQ * sQ) in *. set (m := sM * sM) in *. set (w := z * z) in *.
  assert (w0 : 0 <= w) by (unfold w; nra). assert (y0 : 0 <= y) by (unfold y; nra). assert (yx : y <= (1 + 16 * eps) * x) by (absl; lra).
  assert (wD : Rabs (w * D - y) <= 9 * eps * y).
  { assert (E : w * D - y = w * (D - m)) by (rewrite <- Ez; ring). rewrite E. rewrite Rabs_mult, (Rabs_pos_eq w) by exact w0.
    assert (Rabs (D - m) <= 8 * eps * D) by (apply Rabs_le; lra). assert (Dm : 8 * eps * D <= 9 * eps * m) by nra. apply Rle_trans with (w * (9 * eps * m)); [apply Rmult_le_compat_l; lra|]. rewrite <- Ez. nra. }
  pose proof (sq_rnd z) as Hz. fold hr w in Hz.
  assert (zb : z <= 2 ^ 60).
  { apply Rsqr_incr_0_var; [|lra]. unfold Rsqr. fold w. assert (w * D <= 2 * (2 * x)) by (absl; lra). assert (w * / 2 ^ 30 <= w * D) by (apply Rmult_le_compat_l; assumption).
    apply Rmult_le_reg_r with (/ 2 ^ 30); [apply Rinv_0_lt_compat; lra|]. apply Rle_trans with (4 * 2 ^ 24); [lra|]. clear. lra. }
  specialize (Hz (conj z0 zb)). split; [apply rnd_pos, z0|].
  assert (F1 : Rabs (hr * hr * D - w * D) <= 3 * eps * (w * D) + / 2 ^ 200 * D).
  { replace (hr * hr * D - w * D) with ((hr * hr - w) * D) by ring. rewrite Rabs_mult, (Rabs_pos_eq D) by lra. apply Rle_trans with ((3 * eps * w + / 2 ^ 200) * D); [apply Rmult_le_compat_r; lra|]. apply Req_le. ring. }
  assert (F2 : / 2 ^ 200 * D <= eps * x). { apply Rle_trans with (eps * (/ 2) * D); [apply Rmult_le_compat_r; [lra|]; clear; lra|]. nra. }
  set (t := / 2 ^ 200 * D) in *. set (v := w * D) in *. set (g := hr * hr * D) in *. clearbody t v g. clear - F1 F2 wD QQ QE yx Dx Hx y0 Qx.
  absl. apply Rabs_le. split; lra.
Qed.

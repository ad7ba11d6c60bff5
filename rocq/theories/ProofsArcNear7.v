(** * ProofsArcNear7: the span of an arc in binary64 *)
From Coq Require Import ZArith Lia Reals Lra Psatz Floats.SpecFloat.
From Flocq Require Import Core.Core Relative IEEE754.BinarySingleNaN.
From Verif Require Import F64 RealEnv SpecArc ProofsArc ProofsArc2 ProofsAngle ProofsSize3 ProofsArc64 ProofsDec ProofsScale ProofsClose ProofsF64 SpecClose SpecArcNear ProofsCircle ProofsArcNear ProofsArcNear2 ProofsArcNear3 ProofsArcNear4 ProofsArcNear5 ProofsFlocq.
Local Open Scope R_scope.
Local Existing Instance ProofsFlocq.Hprec.
Local Existing Instance ProofsFlocq.Hmax.
Local Notation pow := (bpow radix2).
Local Notation u := (/ 17592186044416).
Local Notation eps := (/ 9007199254740992).

(** ** Both ends on the unit circle of the ellipse *)
Section Ends.
Context (be r c s M1 M2 h g sx sy ex ey cx cy : R).
Notation D := (M1 * M1 + M2 * M2).
Notation X := (ex - sx). Notation Y := (ey - sy).
Notation p := ((X * c + Y * s) / 2). Notation q := ((- X * s + Y * c) / 2).
Notation c1 := (M1 + g * (M2 * h)). Notation c2 := (M2 - g * (M1 * h)).
Notation K := (be * Rmax 1 (/ r)).
Context (Hcs : c * c + s * s = 1) (Bc : Rabs c <= 1) (Bs : Rabs s <= 1) (Hr : / 16 <= r <= 16) (Hbe : / 17 <= be <= 100000) (Hg : g * g = 1).
Context (HD : Rabs (h * h * D + D - be * be) <= / 8 * u * (be * be)) (E1 : Rabs (M1 - r * p) <= 400 * u * be) (E2 : Rabs (M2 - q) <= 400 * u * be).
Context (T1 : Rabs (cx - (c1 / r * c - c2 * s + sx)) <= 240 * u * K) (T2 : Rabs (cy - (c1 / r * s + c2 * c + sy)) <= 240 * u * K).
Definition P1 := - c1 / be. Definition P2 := - c2 / be. Definition Q1 := (2 * M1 - c1) / be. Definition Q2 := (2 * M2 - c2) / be.
Lemma on_one x y : x * x + y * y = (1 + h * h) * D -> Rabs (x / be * (x / be) + y / be * (y / be) - 1) <= u.
Proof using HD Hbe.
  intros H. assert (B2 : 0 < be * be) by (apply Rmult_lt_0_compat; lra). replace (x / be * (x / be) + y / be * (y / be) - 1) with ((x * x + y * y - be * be) / (be * be)) by (field; lra).
  apply div_le_abs; [exact B2|]. rewrite H. replace ((1 + h * h) * D - be * be) with (h * h * D + D - be * be) by ring. apply Rle_trans with (1 := HD). lra.
Qed.
Lemma P_one : Rabs (P1 * P1 + P2 * P2 - 1) <= u.
Proof using HD Hbe Hg. apply on_one. transitivity (D + (g * g) * (h * h) * D); [ring|]. rewrite Hg. ring. Qed.
Lemma Q_one : Rabs (Q1 * Q1 + Q2 * Q2 - 1) <= u.
Proof using HD Hbe Hg. apply on_one. transitivity (D + (g * g) * (h * h) * D); [ring|]. rewrite Hg. ring. Qed.
Lemma cross_PQ : P1 * Q2 - P2 * Q1 = - g * (2 * h * D / (be * be)).
Proof using Hbe. unfold P1, P2, Q1, Q2. field. lra. Qed.
Lemma chord_PQ : (Q1 - P1) * (Q1 - P1) + (Q2 - P2) * (Q2 - P2) = 4 * D / (be * be).
Proof using Hbe. unfold P1, P2, Q1, Q2. field. lra. Qed.
Lemma K_over : K * (r / be) <= 16 /\ K / be <= 16 /\ 0 < K.
Proof using Hr Hbe.
  assert (I : / 16 <= / r <= 16) by (split; [apply Rinv_le; lra|]; replace 16 with (/ / 16) by field; apply Rinv_le; lra).
  assert (P : 1 <= Rmax 1 (/ r)) by apply Rmax_l. replace (K * (r / be)) with (Rmax 1 (/ r) * r) by (field; lra). replace (K / be) with (Rmax 1 (/ r)) by (field; lra). split; [|split; [apply Rmax_lub; lra|apply Rmult_lt_0_compat; lra]].
  unfold Rmax. destruct (Rle_dec 1 (/ r)); [rewrite Rinv_l by lra|]; lra.
Qed.
Lemma two_abs a b x y z : Rabs a <= 1 -> Rabs b <= 1 -> Rabs x <= z -> Rabs y <= z -> Rabs (x * a + y * b) <= 2 * z.
Proof using.
  clear. intros Ha Hb Hx Hy. pose proof (abs_cs a x Ha) as A. pose proof (abs_cs b y Hb) as B. apply Rle_trans with (1 := Rabs_triang _ _). rewrite (Rmult_comm x), (Rmult_comm y). lra.
Qed.
Lemma start_on : Rabs (((sx - cx) * c + (sy - cy) * s) / (be / r) - P1) <= 7680 * u /\ Rabs ((- (sx - cx) * s + (sy - cy) * c) / be - P2) <= 7680 * u.
Proof using Hcs Bc Bs Hr Hbe T1 T2.
  clear HD E1 E2. destruct K_over as (K1 & K2 & K3). set (e1 := cx - (c1 / r * c - c2 * s + sx)) in *. set (e2 := cy - (c1 / r * s + c2 * c + sy)) in *. set (k := K) in *. clearbody k.
  assert (N : Rabs (- s) <= 1) by (rewrite Rabs_Ropp; exact Bs). split.
  - replace (((sx - cx) * c + (sy - cy) * s) / (be / r) - P1) with (- ((e1 * c + e2 * s) * (r / be)) + c1 / be * (1 - (c * c + s * s))) by (unfold e1, e2, P1; field; lra). rewrite Hcs. replace (1 - 1) with 0 by ring. rewrite Rmult_0_r, Rplus_0_r.
    assert (0 < r / be) by (apply Rdiv_lt_0_compat; lra). rewrite Rabs_Ropp, Rabs_mult, (Rabs_pos_eq (r / be)) by lra. pose proof (two_abs c s e1 e2 _ Bc Bs T1 T2) as Q. apply Rle_trans with (2 * (240 * u * k) * (r / be)); [apply Rmult_le_compat_r; lra|]. lra.
  - replace ((- (sx - cx) * s + (sy - cy) * c) / be - P2) with (- ((e2 * c + e1 * - s) * / be) + c2 / be * (1 - (c * c + s * s))) by (unfold e1, e2, P2; field; lra). rewrite Hcs. replace (1 - 1) with 0 by ring. rewrite Rmult_0_r, Rplus_0_r.
    assert (0 < / be) by (apply Rinv_0_lt_compat; lra). rewrite Rabs_Ropp, Rabs_mult, (Rabs_pos_eq (/ be)) by lra. pose proof (two_abs c (- s) e2 e1 _ Bc N T2 T1) as Q. unfold Rdiv in K2. apply Rle_trans with (2 * (240 * u * k) * / be); [apply Rmult_le_compat_r; lra|]. lra.
Qed.
Lemma end_on : Rabs (((ex - cx) * c + (ey - cy) * s) / (be / r) - Q1) <= 8500 * u /\ Rabs ((- (ex - cx) * s + (ey - cy) * c) / be - Q2) <= 8500 * u.
Proof using All.
  destruct start_on as [A B]. assert (0 < be) by lra. split.
  - replace (((ex - cx) * c + (ey - cy) * s) / (be / r) - Q1) with ((((sx - cx) * c + (sy - cy) * s) / (be / r) - P1) + - (2 * ((M1 - r * p) / be))) by (unfold Q1, P1; field; lra).
    apply Rle_trans with (1 := Rabs_triang _ _). rewrite Rabs_Ropp, Rabs_mult, (Rabs_pos_eq 2) by lra. assert (Rabs ((M1 - r * p) / be) <= 400 * u) by (apply div_le_abs; assumption). lra.
  - replace ((- (ex - cx) * s + (ey - cy) * c) / be - Q2) with (((- (sx - cx) * s + (sy - cy) * c) / be - P2) + - (2 * ((M2 - q) / be))) by (unfold Q2, P2; field; lra).
    apply Rle_trans with (1 := Rabs_triang _ _). rewrite Rabs_Ropp, Rabs_mult, (Rabs_pos_eq 2) by lra. assert (Rabs ((M2 - q) / be) <= 400 * u) by (apply div_le_abs; assumption). lra.
Qed.
(** the point of the ellipse at an angle whose direction is known *)
Lemma at_near xx yy t V1 V2 R1 R2 : V1 = ((xx - cx) * c + (yy - cy) * s) / (be / r) -> V2 = (- (xx - cx) * s + (yy - cy) * c) / be -> Rabs (V1 - R1) <= 8500 * u -> Rabs (V2 - R2) <= 8500 * u -> Rabs (cos t - R1) <= 26100 * u -> Rabs (sin t - R2) <= 26100 * u -> be <= r * 100000 ->
  Rabs (cx + be / r * cos t * c - be * sin t * s - xx) <= / 1024 /\ Rabs (cy + be / r * cos t * s + be * sin t * c - yy) <= / 1024.
Proof using Hcs Bc Bs Hr Hbe.
  clear HD E1 E2 T1 T2. intros EV1 EV2 HV1 HV2 HC HS Hal. assert (A1 : 0 < be / r <= 100000). { split; [apply Rdiv_lt_0_compat; lra|]. apply Rmult_le_reg_r with r; [lra|]. unfold Rdiv. rewrite Rmult_assoc, Rinv_l by lra. lra. }
  set (al := be / r) in *. assert (D1 : Rabs (cos t - V1) <= 34600 * u). { clear - HV1 HC. set (z := cos t) in *. clearbody z. absl. apply Rabs_le. lra. } assert (D2 : Rabs (sin t - V2) <= 34600 * u). { clear - HV2 HS. set (z := sin t) in *. clearbody z. absl. apply Rabs_le. lra. }
  assert (F1 : Rabs (al * (cos t - V1)) <= / 2048). { rewrite Rabs_mult, (Rabs_pos_eq al) by lra. apply Rle_trans with (100000 * (34600 * u)); [apply Rmult_le_compat; try apply Rabs_pos; lra|lra]. }
  assert (F2 : Rabs (be * (sin t - V2)) <= / 2048). { rewrite Rabs_mult, (Rabs_pos_eq be) by lra. apply Rle_trans with (100000 * (34600 * u)); [apply Rmult_le_compat; try apply Rabs_pos; lra|lra]. }
  assert (N : Rabs (- s) <= 1) by (rewrite Rabs_Ropp; exact Bs). 
  assert (W1 : xx - cx = (al * V1) * c - be * V2 * s). { rewrite EV1, EV2. transitivity ((xx - cx) * (c * c + s * s)); [rewrite Hcs; ring|]. field. lra. }
  assert (W2 : yy - cy = (al * V1) * s + be * V2 * c). { rewrite EV1, EV2. transitivity ((yy - cy) * (c * c + s * s)); [rewrite Hcs; ring|]. field. lra. }
  split.
  - replace (cx + al * cos t * c - be * sin t * s - xx) with (al * (cos t - V1) * c + be * (sin t - V2) * - s) by (replace xx with (cx + (xx - cx)) by ring; rewrite W1; ring). pose proof (two_abs c (- s) _ _ _ Bc N F1 F2). lra.
  - replace (cy + al * cos t * s + be * sin t * c - yy) with (al * (cos t - V1) * s + be * (sin t - V2) * c) by (replace yy with (cy + (yy - cy)) by ring; rewrite W2; ring). pose proof (two_abs s c _ _ _ Bs Bc F1 F2). lra.
Qed.
End Ends.

(** ** The difference of the angles *)
Lemma two_pi_near : Rabs (val two_pi64 - 2 * PI) <= / 16 * u.
Proof.
  pose proof pi_bounds. assert (E : val two_pi64 = 7074237752028440 / 1125899906842624) by (unfold two_pi64, SF2R, F2R; cbn; lra). rewrite E. apply Rabs_le. lra.
Qed.
Lemma sum64 x y b : finite64 x -> finite64 y -> Rabs (val x + val y) <= b -> b <= 20 -> finite64 (SFadd 53 1024 x y) /\ Rabs (val (SFadd 53 1024 x y) - (val x + val y)) <= / 16 * u.
Proof.
  intros [V1 W1] [V2 W2] H Hb. destruct (add_round x y V1 V2 W1 W2) as [K1 K2]; [apply big_ok; apply Rle_trans with (1 := H); apply Rle_trans with (1 := Hb); clear; lra|].
  split; [split; [apply add_valid; assumption|exact K1]|]. rewrite K2. pose proof (rnd_rel' (val x + val y)) as T. pose proof tn_small as [_ T0]. assert (T' : tn <= eps) by (apply Rle_trans with (1 := T0); clear; lra). lra.
Qed.
Lemma dif64 x y b : finite64 x -> finite64 y -> Rabs (val x - val y) <= b -> b <= 20 -> finite64 (SFsub 53 1024 x y) /\ Rabs (val (SFsub 53 1024 x y) - (val x - val y)) <= / 16 * u.
Proof. intros H1 [V W] H2 H3. rewrite sub_add. replace (val x - val y) with (val x + val (SFopp y)) in * by (rewrite opp_val; ring). apply (sum64 _ _ b); try assumption. split; [apply opp_valid, V|apply opp_finite, W]. Qed.
Notation fz := (S754_zero false).
Lemma zero_fin : finite64 fz. Proof. split; [reflexivity|exact I]. Qed.
Lemma leb_val0 x : finite64 x -> (SFleb fz x = true -> 0 <= val x) /\ (SFleb fz x = false -> val x <= 0).
Proof.
  intros [V Fi]. destruct x as [b|b| |b m e]; try contradiction; cbn; split; intros K; try lra; destruct b; try discriminate.
  - apply F2R_ge_0. cbn. lia.
  - apply F2R_le_0. cbn. lia.
Qed.
Lemma ltb_val0 x : finite64 x -> (SFltb x fz = true -> val x <= 0) /\ (SFltb x fz = false -> 0 <= val x).
Proof.
  intros [V Fi]. destruct x as [b|b| |b m e]; try contradiction; cbn; split; intros K; try lra; destruct b; try discriminate.
  - apply F2R_le_0. cbn. lia.
  - apply F2R_ge_0. cbn. lia.
Qed.
Lemma adjust_near O d0 (big large sweep : bool) : finite64 d0 -> / 1800000 <= Rabs (val d0) <= 2 * PI - / 1800000 ->
  let d := adjustEta (E := F64 O) d0 big large sweep in
  finite64 d /\ (if sweep then / 1900000 <= val d <= 2 * PI - / 1900000 else - (2 * PI) + / 1900000 <= val d <= - / 1900000) /\ exists j : Z, Rabs (val d - (val d0 + 2 * PI * IZR j)) <= u.
Proof.
  intros Fd Hd. pose proof pi_bounds as HP. pose proof two_pi_near as HT. assert (FT : finite64 two_pi64) by (split; [reflexivity|exact I]).
  cbv zeta. unfold adjustEta. rewrite two_pi64_eq. change (fltb (F64 O)) with SFltb. change (fleb (F64 O)) with SFleb. change (fadd (F64 O)) with (SFadd 53 1024). change (fsub (F64 O)) with (SFsub 53 1024). change (fnum (F64 O) 0) with fz. cbv zeta.
  match goal with |- context [if xorb big large then ?t else ?e] => set (d1 := if xorb big large then t else e) end.
  assert (S1 : finite64 d1 /\ / 1850000 <= Rabs (val d1) <= 2 * PI - / 1850000 /\ exists j : Z, Rabs (val d1 - (val d0 + 2 * PI * IZR j)) <= / 4 * u).
  { unfold d1. destruct (xorb big large); [|split; [exact Fd|]; split; [lra|]; exists 0%Z; replace (val d0 - (val d0 + 2 * PI * 0)) with 0 by ring; rewrite Rabs_R0; lra].
    destruct (ltb_val0 d0 Fd) as [L1 L2]. destruct (SFltb d0 fz); [specialize (L1 eq_refl); clear L2|specialize (L2 eq_refl); clear L1].
    - rewrite Rabs_left1 in Hd by exact L1. destruct (sum64 d0 two_pi64 20 Fd FT) as [K1 K2]; [clear - Hd HT HP L1; absl; apply Rabs_le; lra|lra|].
      split; [exact K1|]. set (z := val (SFadd 53 1024 d0 two_pi64)) in *. set (w := val two_pi64) in *. clearbody z w. assert (Z : Rabs (z - (val d0 + 2 * PI)) <= / 8 * u) by (clear - K2 HT; absl; apply Rabs_le; lra). clear K2 HT.
      split; [|exists 1%Z; rewrite Rmult_1_r; lra]. assert (0 <= z) by (clear - Z Hd; absl; lra). rewrite Rabs_pos_eq by assumption. clear - Z Hd. absl. lra.
    - rewrite Rabs_pos_eq in Hd by exact L2. destruct (dif64 d0 two_pi64 20 Fd FT) as [K1 K2]; [clear - Hd HT HP L2; absl; apply Rabs_le; lra|lra|].
      split; [exact K1|]. set (z := val (SFsub 53 1024 d0 two_pi64)) in *. set (w := val two_pi64) in *. clearbody z w. assert (Z : Rabs (z - (val d0 - 2 * PI)) <= / 8 * u) by (clear - K2 HT; absl; apply Rabs_le; lra). clear K2 HT.
      split; [|exists (-1)%Z; replace (z - (val d0 + 2 * PI * -1)) with (z - (val d0 - 2 * PI)) by ring; lra]. assert (z <= 0) by (clear - Z Hd; absl; lra). rewrite Rabs_left1 by assumption. clear - Z Hd. absl. lra. }
  destruct S1 as (F1 & B1 & j & J). clearbody d1. clear Hd Fd. destruct (ltb_val0 d1 F1) as [L1 L2]. destruct (leb_val0 d1 F1) as [L3 L4].
  destruct (SFltb d1 fz), sweep; cbn [andb negb].
  - specialize (L1 eq_refl). clear L2 L3 L4. rewrite Rabs_left1 in B1 by exact L1. destruct (sum64 d1 two_pi64 20 F1 FT) as [K1 K2]; [clear - B1 HT HP L1; absl; apply Rabs_le; lra|lra|].
    split; [exact K1|]. set (z := val (SFadd 53 1024 d1 two_pi64)) in *. set (w := val two_pi64) in *. clearbody z w. assert (Z : Rabs (z - (val d1 + 2 * PI)) <= / 8 * u) by (clear - K2 HT; absl; apply Rabs_le; lra). clear K2 HT.
    split; [clear - Z B1; absl; lra|]. exists (j + 1)%Z. rewrite plus_IZR. replace (z - (val d0 + 2 * PI * (IZR j + 1))) with ((z - (val d1 + 2 * PI)) + (val d1 - (val d0 + 2 * PI * IZR j))) by ring. apply Rle_trans with (1 := Rabs_triang _ _). lra.
  - specialize (L1 eq_refl). clear L2. rewrite Rabs_left1 in B1 by exact L1. destruct (SFleb fz d1); cbn [andb]; [specialize (L3 eq_refl); exfalso; lra|]. split; [exact F1|]. split; [lra|]. exists j. lra.
  - specialize (L2 eq_refl). clear L1 L3 L4. rewrite Rabs_pos_eq in B1 by exact L2. destruct (SFleb fz d1); cbn [andb]; (split; [exact F1|]); (split; [lra|]); exists j; lra.
  - specialize (L2 eq_refl). clear L1. rewrite Rabs_pos_eq in B1 by exact L2. destruct (SFleb fz d1); cbn [andb]; [clear L3 L4|specialize (L4 eq_refl); exfalso; lra].
    destruct (dif64 d1 two_pi64 20 F1 FT) as [K1 K2]; [clear - B1 HT HP L2; absl; apply Rabs_le; lra|lra|].
    split; [exact K1|]. set (z := val (SFsub 53 1024 d1 two_pi64)) in *. set (w := val two_pi64) in *. clearbody z w. assert (Z : Rabs (z - (val d1 - 2 * PI)) <= / 8 * u) by (clear - K2 HT; absl; apply Rabs_le; lra). clear K2 HT.
    split; [clear - Z B1; absl; lra|]. exists (j - 1)%Z. rewrite minus_IZR. replace (z - (val d0 + 2 * PI * (IZR j - 1))) with ((z - (val d1 - 2 * PI)) + (val d1 - (val d0 + 2 * PI * IZR j))) by ring. apply Rle_trans with (1 := Rabs_triang _ _). lra.
Qed.
Lemma sin_turns x j : sin (x + 2 * PI * IZR j) = sin x /\ cos (x + 2 * PI * IZR j) = cos x.
Proof.
  assert (N : forall n x, sin (x + 2 * PI * INR n) = sin x /\ cos (x + 2 * PI * INR n) = cos x).
  { intros n y. replace (2 * PI * INR n) with (2 * INR n * PI) by ring. split; [apply sin_period|apply cos_period]. }
  destruct (Z_le_gt_dec 0 j) as [H|H].
  - rewrite <- (Z2Nat.id j) by exact H. rewrite <- INR_IZR_INZ. apply N.
  - destruct (N (Z.to_nat (- j)) (x + 2 * PI * IZR j)) as [A B]. rewrite INR_IZR_INZ, Z2Nat.id, opp_IZR in A, B by lia. replace (x + 2 * PI * IZR j + 2 * PI * - IZR j) with x in A, B by ring. auto.
Qed.
(** two angles whose directions differ *)
Lemma apart_angles a b e : sqrt ((cos b - cos a) * (cos b - cos a) + (sin b - sin a) * (sin b - sin a)) >= e -> forall j, e <= Rabs (b - a - 2 * PI * IZR j).
Proof.
  intros H j. apply Rge_le in H. apply Rle_trans with (1 := H). set (d := b - a - 2 * PI * IZR j).
  assert (E : (cos b - cos a) * (cos b - cos a) + (sin b - sin a) * (sin b - sin a) = 2 * sin (d / 2) * (2 * sin (d / 2))).
  { destruct (sin_turns (d + a) j) as [S C]. replace (d + a + 2 * PI * IZR j) with b in S, C by (unfold d; ring). rewrite S, C, cos_plus, sin_plus. replace d with (2 * (d / 2)) at 1 2 3 4 5 6 7 8 by field. rewrite cos_2a_sin, sin_2a. set (w := d / 2). pose proof (sin2_cos2 w) as Q1. pose proof (sin2_cos2 a) as Q2. unfold Rsqr in *.
    set (sw := sin w) in *. set (cw := cos w) in *. set (sa := sin a) in *. set (ca := cos a) in *. clearbody sw cw sa ca. clear - Q1 Q2.
    transitivity (((1 - 2 * sw * sw - 1) * (1 - 2 * sw * sw - 1) + 2 * sw * cw * (2 * sw * cw)) * (sa * sa + ca * ca)); [ring|]. rewrite Q2. transitivity (4 * (sw * sw) * (sw * sw + cw * cw)); [ring|]. rewrite Q1. ring. }
  rewrite E. change (2 * sin (d / 2) * (2 * sin (d / 2))) with (Rsqr (2 * sin (d / 2))). rewrite sqrt_Rsqr_abs, Rabs_mult, (Rabs_pos_eq 2) by lra. pose proof (sin_small (d / 2)) as S. unfold Rdiv in S at 2. rewrite Rabs_mult, (Rabs_pos_eq (/ 2)) in S by lra. lra.
Qed.
Lemma sin_low x : 0 <= x <= 1 -> x / 2 <= sin x.
Proof.
  intros H. pose proof pi_bounds. assert (x * x <= 1) by nra.
  assert (P : 0 <= x * x) by nra. 
  assert (K : x - x * (x * x) / 6 <= sin x).
  { pose proof (pre_sin_bound x 0 ltac:(lra) ltac:(lra)) as [Q _]. unfold sin_approx, sin_term in Q. cbn in Q. lra. }
  assert (x * (x * x) <= x * 1) by (apply Rmult_le_compat_l; lra). lra.
Qed.
(** the size of the arc *)
Lemma arc_size d : / 1900000 <= d <= 2 * PI - / 1900000 -> (sin d <= / 50000000 -> PI - / 2 ^ 20 <= d) /\ (- / 50000000 <= sin d -> d <= PI + / 2 ^ 20).
Proof.
  intros H. pose proof pi_bounds as HP.
  assert (K : forall x, / 1900000 <= x <= PI - / 2 ^ 20 -> / 50000000 < sin x).
  { intros x Hx. assert (Lo : forall y, / 1900000 <= y <= PI / 2 -> / 50000000 < sin y).
    { intros y Hy. apply Rlt_le_trans with (/ 1900000 / 2); [lra|]. apply Rle_trans with (sin (/ 1900000)); [apply sin_low; lra|]. apply sin_incr_1; lra. }
    destruct (Rle_or_lt x (PI / 2)) as [B|B]; [apply Lo; lra|]. rewrite <- sin_PI_x. apply Lo. split; lra. }
  split; intros Hs.
  - destruct (Rle_or_lt (PI - / 2 ^ 20) d) as [L|L]; [exact L|]. exfalso. pose proof (K d ltac:(lra)). lra.
  - destruct (Rle_or_lt d (PI + / 2 ^ 20)) as [L|L]; [exact L|]. exfalso. pose proof (K (2 * PI - d) ltac:(lra)) as Q. replace (2 * PI - d) with (- d + 2 * PI) in Q by ring. destruct (sin_turns (- d) 1) as [S _]. rewrite Rmult_1_r in S. rewrite S, sin_neg in Q. lra.
Qed.
(** the number of pieces *)
Lemma abs_fin x : finite64 x -> finite64 (SFabs x) /\ val (SFabs x) = Rabs (val x).
Proof.
  intros [V Fi]. split; [split; destruct x; assumption|]. destruct x as [b|b| |b m e]; cbn; try (rewrite Rabs_R0; reflexivity). rewrite <- F2R_Zabs. destruct b; reflexivity.
Qed.
Lemma count_near O x : finite64 x -> Rabs (val x) <= 2 * PI ->
  exists n : nat, (f_to_int (F64 O) (fdiv (F64 O) (fabs (F64 O) x) (piOver8 (E := F64 O))) + 1)%Z = Z.of_nat n /\ (1 <= n <= 18)%nat /\ Rabs (val x) <= INR n * (PI / 7).
Proof.
  intros Fx Hx. destruct (abs_fin x Fx) as [[Va Wa] Ea]. rewrite eighth_eq. change (fdiv (F64 O)) with (SFdiv 53 1024). change (fabs (F64 O)) with SFabs. change (f_to_int (F64 O)) with (sf_to_int64 O).
  pose proof pi_bounds as HP. assert (E8 : val eighth64 = 7074237752028440 / 18014398509481984) by (unfold eighth64, SF2R, F2R; cbn; lra). set (a := Rabs (val x)) in *. assert (a0 : 0 <= a) by apply Rabs_pos. clearbody a.
  assert (Q0 : 0 <= a / val eighth64) by (apply Rmult_le_pos; [exact a0|apply Rlt_le, Rinv_0_lt_compat; rewrite E8; lra]).
  assert (Q1 : a / val eighth64 <= 16.1). { apply Rmult_le_reg_r with (val eighth64); [rewrite E8; lra|]. unfold Rdiv. rewrite Rmult_assoc, Rinv_l by (rewrite E8; lra). rewrite E8. lra. }
  destruct (div_round (SFabs x) eighth64 Va eq_refl Wa I ltac:(rewrite E8; lra)) as [K1 K2]; [rewrite Ea; apply big_ok; rewrite Rabs_pos_eq by lra; apply Rle_trans with 17; [lra|clear; lra]|]. rewrite Ea in K2.
  pose proof (rnd_rel' (a / val eighth64)) as T. rewrite (Rabs_pos_eq (a / val eighth64)) in T by exact Q0. pose proof tn_small as [_ T0]. assert (T' : tn <= eps) by (apply Rle_trans with (1 := T0); clear; lra). clear T0.
  set (w := rnd (a / val eighth64)) in *. assert (W0 : 0 <= w) by (apply rnd_pos, Q0). set (t0 := tn) in *. set (y := a / val eighth64) in *. assert (W1 : Rabs (w - y) <= 20 * eps) by (clear - T T' Q1 Q0; lra). clear T T'.
  assert (W2 : w <= 16.5) by (clear - W1 Q1; absl; lra). pose proof (Ztrunc_floor w W0) as Ef. pose proof (Zfloor_lb w) as F1. pose proof (Zfloor_ub w) as F2. rewrite <- Ef in F1, F2.
  assert (Z1 : (0 <= Ztrunc w <= 16)%Z). { split; [rewrite <- (Ztrunc_IZR 0); apply Ztrunc_le, W0|]. apply Zlt_succ_le. apply lt_IZR. change (IZR (Z.succ 16)) with 17. lra. }
  rewrite (to_int_val O _ (Ztrunc w) K1 (f_equal Ztrunc K2)) by lia. exists (Z.to_nat (Ztrunc w + 1)). split; [lia|]. split; [lia|]. rewrite INR_IZR_INZ, Z2Nat.id, plus_IZR by lia.
  assert (B : y <= IZR (Ztrunc w) + 1 + 20 * eps) by (clear - W1 F2; absl; lra). assert (B2 : 1 <= IZR (Ztrunc w) + 1) by (assert (0 <= IZR (Ztrunc w)) by (apply IZR_le; lia); lra). set (m := IZR (Ztrunc w) + 1) in *. clearbody m.
  assert (Ey : a = y * val eighth64) by (unfold y; field; rewrite E8; lra). rewrite Ey. apply Rle_trans with ((m + 20 * eps) * val eighth64); [apply Rmult_le_compat_r; [rewrite E8|]; lra|]. rewrite E8.
  assert (m * (3141592653589792 / 10 ^ 15 / 7) <= m * (PI / 7)) by (apply Rmult_le_compat_l; lra). lra.
Qed.

(** * ProofsArcNear4: both ends of an arc lie on the ellipse found, up to rounding *)
From Coq Require Import ZArith Lia Reals Lra Psatz Floats.SpecFloat.
From Flocq Require Import Core.Core Relative IEEE754.BinarySingleNaN.
From Verif Require Import F64 RealEnv SpecArc ProofsArc ProofsArc2 ProofsAngle ProofsSize3 ProofsArc64 ProofsDec ProofsScale ProofsClose ProofsF64 SpecClose SpecArcNear ProofsCircle ProofsArcNear ProofsArcNear2 ProofsArcNear3 ProofsFlocq.
Local Open Scope R_scope.
Local Existing Instance ProofsFlocq.Hprec.
Local Existing Instance ProofsFlocq.Hmax.
Local Notation pow := (bpow radix2).
Local Notation u := (/ 17592186044416).
Local Notation eps := (/ 9007199254740992).
Lemma u44 : / 2 ^ 44 = u. Proof. f_equal. lra. Qed.
Lemma sq_abs x : x * x = Rabs x * Rabs x. Proof. rewrite <- Rabs_mult. symmetry. apply Rabs_pos_eq, Rle_0_sqr. Qed.
Lemma root_sq x : 0 <= x -> sqrt x * sqrt x = x. Proof. apply sqrt_sqrt. Qed.
Lemma div_le_abs x y z : 0 < y -> Rabs x <= z * y -> Rabs (x / y) <= z.
Proof.
  intros Hy H. unfold Rdiv. rewrite Rabs_mult, (Rabs_pos_eq (/ y)) by (apply Rlt_le, Rinv_0_lt_compat, Hy). apply Rmult_le_reg_r with y; [exact Hy|]. rewrite Rmult_assoc, Rinv_l by lra. lra.
Qed.

Lemma eqb_val x y : valid x -> valid y -> finite x -> finite y -> SFeqb x y = true -> val x = val y.
Proof.
  intros [v ->]%of_valid [w ->]%of_valid Hv%finite_b Hw%finite_b. rewrite !SF2R_B2SF.
  pose proof (Beqb_correct 53 1024 v w Hv Hw) as H. unfold Beqb in H. rewrite H. destruct (Req_bool_spec (B2R v) (B2R w)); [auto|discriminate].
Qed.

Section Center.
Context (O : Oracles) (HO : fair_angles O).
Notation E := (F64 O).
Context (ra rb rotX sx sy ex ey : sf) (rot : R).
Notation a := (val ra). Notation b := (val rb).
Context (Fra : finite64 ra) (Frb : finite64 rb) (Frot : finite64 rotX) (Fsx : finite64 sx) (Fsy : finite64 sy) (Fex : finite64 ex) (Fey : finite64 ey).
Context (Ha : / 16 <= a <= 4096) (Hb : / 16 <= b <= 4096) (Hab : a <= 16 * b) (Hba : b <= 16 * a).
Context (Ssx : Rabs (val sx) <= 4096) (Ssy : Rabs (val sy) <= 4096) (Sex : Rabs (val ex) <= 4096) (Sey : Rabs (val ey) <= 4096).
Context (Hfar : / 16 <= Rabs (val ex - val sx) \/ / 16 <= Rabs (val ey - val sy)).
Context (Srot : Rabs (val rotX) <= 16) (Erot : Rabs (val rotX - rot) <= u).
Notation X := (val ex - val sx). Notation Y := (val ey - val sy).
Notation c := (cos rot). Notation s := (sin rot). Notation r := (b / a).
Notation N := (Rabs X + Rabs Y).
Notation p := ((X * c + Y * s) / 2). Notation q := ((- X * s + Y * c) / 2).
Notation H := (sqrt (r * p * (r * p) + q * q)).
Notation C := (o_cos O rotX). Notation S := (o_sin O rotX).
Lemma C_near : er 2 1 C c.
Proof using HO Frot Srot Erot.
  destruct (angle_cos O HO rotX Frot Srot) as [H1 H2]. rewrite u44 in H2. split; [exact H1|]. split; [|pose proof (COS_bound rot); apply Rabs_le; lra].
  pose proof (cos_lip (val rotX) rot). pose proof (Rabs_triang (val C - cos (val rotX)) (cos (val rotX) - c)) as T. replace (val C - cos (val rotX) + (cos (val rotX) - c)) with (val C - c) in T by ring. lra.
Qed.
Lemma S_near : er 2 1 S s.
Proof using HO Frot Srot Erot.
  destruct (angle_sin O HO rotX Frot Srot) as [H1 H2]. rewrite u44 in H2. split; [exact H1|]. split; [|pose proof (SIN_bound rot); apply Rabs_le; lra].
  pose proof (sin_lip (val rotX) rot). pose proof (Rabs_triang (val S - sin (val rotX)) (sin (val rotX) - s)) as T. replace (val S - sin (val rotX) + (sin (val rotX) - s)) with (val S - s) in T by ring. lra.
Qed.
Lemma N_bounds : / 16 <= N <= 16384.
Proof using Ssx Ssy Sex Sey Hfar.
  clear Srot Erot. pose proof (Rabs_pos X). pose proof (Rabs_pos Y). assert (Rabs X <= 8192) by (absl; apply Rabs_le; lra). assert (Rabs Y <= 8192) by (absl; apply Rabs_le; lra). destruct Hfar; lra.
Qed.
Lemma r_bounds : / 16 <= r <= 16.
Proof using Ha Hb Hab Hba.
  split; apply Rmult_le_reg_r with a; try lra; unfold Rdiv; rewrite Rmult_assoc, Rinv_l by lra; lra.
Qed.
Notation nx := (SFsub 53 1024 ex sx). Notation ny := (SFsub 53 1024 ey sy).
Notation tx := (SFadd 53 1024 (SFmul 53 1024 nx C) (SFmul 53 1024 ny S)).
Notation ty := (SFadd 53 1024 (SFmul 53 1024 (SFopp nx) S) (SFmul 53 1024 ny C)).
Notation midX := (SFdiv 53 1024 (SFmul 53 1024 tx (SFdiv 53 1024 rb ra)) (sf_of_Z 2)).
Notation midY := (SFdiv 53 1024 ty (sf_of_Z 2)).
Notation M1 := (val midX). Notation M2 := (val midY).
Lemma two_fin : finite64 (sf_of_Z 2) /\ val (sf_of_Z 2) = 2.
Proof using. destruct (of_Z_val 2 ltac:(lia)) as [F2 V2]. split; [split; [apply of_Z_valid|exact F2]|exact V2]. Qed.
Lemma er_half2 k M x z : ms (M / 2) -> 0 <= k <= 1000000 -> 0 < M -> er k M x z -> er (k + 1) (M / 2) (SFdiv 53 1024 x (sf_of_Z 2)) (z / 2).
Proof using.
  intros H1 H2 H3 H4. destruct two_fin as [F2 V2]. apply er_div; try assumption; try lra. rewrite V2. replace (2 - 2) with 0 by ring. rewrite Rabs_R0. lra.
Qed.
Lemma mid_near : er 8 (N * r) midX (r * p) /\ er 7 N midY q.
Proof using All.
  pose proof C_near as HC. pose proof S_near as HS. pose proof N_bounds as BN. pose proof r_bounds as Br.
  assert (MN : ms N) by (apply ms_lit; lra). pose proof (Rabs_pos X) as PX. pose proof (Rabs_pos Y) as PY.
  pose proof (er_sub0 N ex sx MN Fex Fsx ltac:(lra)) as Hx. pose proof (er_sub0 N ey sy MN Fey Fsy ltac:(lra)) as Hy.
  pose proof (er_div0 r rb ra ltac:(apply ms_lit; lra) Frb Fra ltac:(lra) ltac:(rewrite Rabs_pos_eq; lra)) as Hr. pose proof (er_opp _ _ _ _ Hx) as Ho.
  set (N := Rabs X + Rabs Y) in *. set (vx := SFsub 53 1024 ex sx) in *. set (vy := SFsub 53 1024 ey sy) in *. set (R1 := SFdiv 53 1024 rb ra) in *. set (C' := o_cos O rotX) in *. set (S' := o_sin O rotX) in *.
  set (X' := val ex - val sx) in *. set (Y' := val ey - val sy) in *. set (r' := val rb / val ra) in *.
  clearbody vx vy R1 C' S' X' Y'. clearbody N r'. clear - HC HS BN Br MN Hx Hy Hr Ho O.
  assert (M1 : ms (N * 1)) by (apply ms_lit; lra). assert (M2 : ms (2 * (N * 1))) by (apply ms_lit; lra).
  assert (T : forall z w z' w', er (/ 16) N z z' -> er 2 1 w w' -> er 4 (N * 1) (SFmul 53 1024 z w) (z' * w')).
  { intros z w z' w' H1 H2. apply (er_le (/ 16 + 2 + 1) _ (N * 1)); [lra|lra|]. apply er_mul; try assumption; lra. }
  assert (A : er 5 (2 * (N * 1)) (SFadd 53 1024 (SFmul 53 1024 vx C') (SFmul 53 1024 vy S')) (X' * cos rot + Y' * sin rot)).
  { replace 5 with ((4 + 4) / 2 + 1) by field. apply er_add; try assumption; try lra; apply T; assumption. }
  assert (B : er 5 (2 * (N * 1)) (SFadd 53 1024 (SFmul 53 1024 (SFopp vx) S') (SFmul 53 1024 vy C')) (- X' * sin rot + Y' * cos rot)).
  { replace 5 with ((4 + 4) / 2 + 1) by field. apply er_add; try assumption; try lra; apply T; assumption. }
  assert (M3 : ms (2 * (N * 1) * r')) by (apply ms_lit; split; nra). assert (0 < 2 * (N * 1) * r') by nra.
  pose proof (er_mul 5 (/ 16) _ _ _ _ _ _ M3 ltac:(lra) ltac:(lra) ltac:(lra) ltac:(lra) ltac:(lra) A Hr) as A2.
  apply er_half2 in A2; [|apply ms_lit; split; nra|lra|assumption]. apply er_half2 in B; [|apply ms_lit; lra|lra|lra]. split.
  - replace (r' * ((X' * cos rot + Y' * sin rot) / 2)) with ((X' * cos rot + Y' * sin rot) * r' / 2) by field. revert A2. apply er_le; [lra|]. split; [lra|]. lra.
  - revert B. apply er_le; [lra|]. lra.
Qed.
Lemma H_facts : N <= 46 * H /\ r * N <= 46 * H /\ H <= 92682 /\ H <= r * 92682.
Proof using All.
  pose proof r_bounds as Br. assert (Hcs : c * c + s * s = 1) by (pose proof (sin2_cos2 rot); unfold Rsqr in *; lra).
  destruct (half_facts X Y c s r Hcs Br) as (H1 & H2 & H3 & H4).
  assert (L : 8 * sqrt (X * X + Y * Y) <= 92682).
  { assert (Rabs X <= 8192) by (absl; apply Rabs_le; lra). assert (Rabs Y <= 8192) by (absl; apply Rabs_le; lra). pose proof (Rabs_pos X). pose proof (Rabs_pos Y).
    assert (sqrt (X * X + Y * Y) <= 11585.25). { apply sqrt2_le; [lra|]. rewrite (sq_abs X), (sq_abs Y). assert (Rabs X * Rabs X <= 8192 * 8192) by (apply Rmult_le_compat; lra). assert (Rabs Y * Rabs Y <= 8192 * 8192) by (apply Rmult_le_compat; lra). lra. } lra. }
  split; [exact H1|]. split; [exact H2|]. split; [lra|]. apply Rle_trans with (1 := H4). apply Rmult_le_compat_l; lra.
Qed.
Notation G := (sqrt (M1 * M1 + M2 * M2)).
Lemma G_near : Rabs (M1 - r * p) <= 370 * u * H /\ Rabs (M2 - q) <= 370 * u * H /\ Rabs (G - H) <= 740 * u * H /\ / 800 <= G <= 92690 /\ G <= r * 92690.
Proof using All.
  destruct mid_near as [(_ & A & _) (_ & B & _)]. destruct H_facts as (H1 & H2 & H3 & H4). pose proof N_bounds as BN.
  pose proof (norm_near M1 M2 (r * p) q) as HN. 
  assert (A' : Rabs (M1 - r * p) <= 370 * u * H) by (apply Rle_trans with (1 := A); lra). assert (B' : Rabs (M2 - q) <= 370 * u * H) by (apply Rle_trans with (1 := B); lra).
  assert (C' : Rabs (G - H) <= 740 * u * H) by lra. split; [exact A'|]. split; [exact B'|]. split; [exact C'|]. set (G' := sqrt (M1 * M1 + M2 * M2)) in *. set (H' := sqrt (_ + q * q)) in *.
  assert (H' <= r * 92682) by exact H4. set (r' := r) in *. clear - H1 H3 H4 BN C'. clearbody G' H' r'. apply Rabs_le_inv in C'. split; lra.
Qed.
Notation D := (M1 * M1 + M2 * M2).
Lemma D_bounds : / 640000 <= D <= 8600000000 /\ G * G = D.
Proof using All.
  destruct G_near as (_ & _ & _ & B & _). assert (0 <= D) by (pose proof (Rle_0_sqr M1); pose proof (Rle_0_sqr M2); unfold Rsqr in *; lra).
  pose proof (sqrt_sqrt D ltac:(assumption)) as Q. split; [|exact Q]. rewrite <- Q. set (z := sqrt D) in *. clear - B. clearbody z. split.
  - replace (/ 640000) with (/ 800 * / 800) by lra. apply Rmult_le_compat; lra.
  - apply Rle_trans with (92690 * 92690); [apply Rmult_le_compat; lra|lra].
Qed.
Notation ml := (SFadd 53 1024 (SFmul 53 1024 midX midX) (SFmul 53 1024 midY midY)).
Lemma ml_near : finite64 ml /\ Rabs (val ml - D) <= 4 * eps * D.
Proof using All.
  destruct D_bounds as [B _]. destruct mid_near as [((V1 & F1) & _) ((V2 & F2) & _)].
  assert (P1 : 0 <= M1 * M1) by apply Rle_0_sqr. assert (P2 : 0 <= M2 * M2) by apply Rle_0_sqr.
  destruct (mul_round _ _ V1 V1 F1 F1) as [A1 A2]; [apply big_ok; rewrite Rabs_pos_eq by lra; apply Rle_trans with 8600000000; [lra|clear; lra]|].
  destruct (mul_round _ _ V2 V2 F2 F2) as [B1 B2]; [apply big_ok; rewrite Rabs_pos_eq by lra; apply Rle_trans with 8600000000; [lra|clear; lra]|].
  pose proof (square_near M1 M2 ltac:(apply Rle_trans with (/ 640000); [clear|]; lra)) as HS. cbv zeta in HS. rewrite <- A2, <- B2 in HS.
  pose proof (rnd_rel' (M1 * M1)) as T1. pose proof (rnd_rel' (M2 * M2)) as T2. rewrite <- A2 in T1. rewrite <- B2 in T2. rewrite (Rabs_pos_eq (M1 * M1)) in T1 by assumption. rewrite (Rabs_pos_eq (M2 * M2)) in T2 by assumption.
  pose proof tn_small as [_ T]. assert (T' : tn <= 1) by (apply Rle_trans with (1 := T); clear; lra). clear T.
  destruct (add_round _ _ (mul_valid _ _ V1 V1) (mul_valid _ _ V2 V2) A1 B1) as [C1 C2].
  { apply big_ok. set (x := val (SFmul 53 1024 midX midX)) in *. set (y := val (SFmul 53 1024 midY midY)) in *. set (x2 := M1 * M1) in *. set (y2 := M2 * M2) in *. clear - T1 T2 T' B P1 P2. clearbody x y x2 y2. set (t0 := tn) in *. clearbody t0.
    absl. apply Rabs_le. assert (20000000000 <= 2 ^ 70) by (clear; lra). split; lra. }
  split; [split; [apply add_valid; apply mul_valid; assumption|exact C1]|]. rewrite C2. exact HS.
Qed.
Lemma bb_near : finite64 (SFmul 53 1024 rb rb) /\ val (SFmul 53 1024 rb rb) = rnd (b * b) /\ Rabs (rnd (b * b) - b * b) <= 2 * eps * (b * b).
Proof using Frb Hb.
  clear Srot Erot Ssx Ssy Sex Sey. destruct Frb as [V Fi]. assert (B : / 256 <= b * b <= 16777216) by (split; [replace (/ 256) with (/ 16 * / 16) by lra|replace 16777216 with (4096 * 4096) by lra]; apply Rmult_le_compat; lra).
  destruct (mul_round _ _ V V Fi Fi) as [A1 A2]; [apply big_ok; rewrite Rabs_pos_eq by lra; apply Rle_trans with 16777216; [lra|clear; lra]|].
  split; [split; [apply mul_valid; assumption|exact A1]|]. split; [exact A2|]. pose proof (rnd_rel' (b * b)) as T1. rewrite (Rabs_pos_eq (b * b)) in T1 by lra.
  pose proof tn_small as [_ T]. assert (T' : tn <= eps * / 256) by (apply Rle_trans with (1 := T); clear; lra). lra.
Qed.
(** what is found besides the centre: the radii, and the height over the chord *)
Definition found (ra' rb' hr : sf) : Prop :=
  let be := val rb' in finite64 ra' /\ finite64 rb' /\ finite64 hr /\ / 17 <= be <= 100000 /\ be <= r * 100000 /\ Rabs (val ra' - be / r) <= / 4 * u * (be / r)
  /\ 0 <= val hr /\ Rabs (val hr * val hr * D + D - be * be) <= / 8 * u * (be * be) /\ (1 - / 2 ^ 20) * b <= be /\ (be <= b \/ be <= (1 + 800 * u) * H).
Lemma normal_found : SFltb (SFmul 53 1024 rb rb) ml = false -> found ra rb (SFdiv 53 1024 (SFsqrt 53 1024 (SFsub 53 1024 (SFmul 53 1024 rb rb) ml)) (SFsqrt 53 1024 ml)).
Proof using All.
  intros Hl. destruct ml_near as [[Vm Fm] Em]. destruct bb_near as ([Vb Fb] & Ebb & Eb). apply ltb_false in Hl; try assumption. rewrite Ebb in Hl. destruct D_bounds as [DB _]. pose proof r_bounds as Br.
  assert (B : / 256 <= b * b <= 16777216) by (split; [replace (/ 256) with (/ 16 * / 16) by lra|replace 16777216 with (4096 * 4096) by lra]; apply Rmult_le_compat; lra).
  pose proof (height_near D (val ml) b ltac:(apply Rle_trans with (/ 640000); [clear|]; lra) ltac:(lra) Em Hl) as HH. cbv zeta in HH.
  assert (E1 : finite64 (SFsub 53 1024 (SFmul 53 1024 rb rb) ml) /\ val (SFsub 53 1024 (SFmul 53 1024 rb rb) ml) = rnd (rnd (b * b) - val ml)).
  { rewrite sub_add. rewrite <- Ebb. destruct (add_round _ _ Vb (opp_valid _ Vm) Fb (opp_finite _ Fm)) as [K1 K2].
    - rewrite opp_val, Ebb. apply big_ok. set (x := rnd (b * b)) in *. set (y := val ml) in *. set (d := D) in *. clearbody x y d. set (z := b * b) in *. clearbody z. clear - Hl Em Eb DB B. absl. assert (20000000000 <= 2 ^ 70) by (clear; lra). apply Rabs_le. lra.
    - rewrite opp_val in K2. split; [split; [apply add_valid; [|apply opp_valid]; assumption|exact K1]|exact K2]. }
  destruct E1 as [[Vd Fd] Ed]. assert (Pd : 0 <= val (SFsub 53 1024 (SFmul 53 1024 rb rb) ml)) by (rewrite Ed; apply rnd_pos; lra).
  destruct (sqrt_round _ Vd Fd Pd) as (VS & FS & ES). assert (Pm : / 700000 <= val ml). { set (y := val ml) in *. set (d := D) in *. clearbody y d. clear - DB Em. absl. lra. }
  destruct (sqrt_round _ Vm Fm ltac:(lra)) as (VM & FM & EM). rewrite Ed in ES.
  assert (Hd : finite64 (SFdiv 53 1024 (SFsqrt 53 1024 (SFsub 53 1024 (SFmul 53 1024 rb rb) ml)) (SFsqrt 53 1024 ml)) /\ val (SFdiv 53 1024 (SFsqrt 53 1024 (SFsub 53 1024 (SFmul 53 1024 rb rb) ml)) (SFsqrt 53 1024 ml)) = rnd (rnd (sqrt (rnd (rnd (b * b) - val ml))) / rnd (sqrt (val ml)))).
  { rewrite <- ES, <- EM. assert (LM : / 1024 <= val (SFsqrt 53 1024 ml)).
    { rewrite EM. replace (/ 1024) with (pow (-10)) by (cbn; lra). rewrite <- (Rabs_pos_eq (rnd _)) by (apply rnd_pos, sqrt_pos). apply rnd_lo; [lia|]. rewrite Rabs_pos_eq by apply sqrt_pos. change (pow (-10)) with (/ 1024). apply le_sqrt2; lra. }
    assert (LS : Rabs (val (SFsqrt 53 1024 (SFsub 53 1024 (SFmul 53 1024 rb rb) ml))) <= 2 ^ 40).
    { rewrite ES. replace (2 ^ 40) with (pow 40) by (cbn; lra). apply rnd_up; [lia|]. rewrite Rabs_pos_eq by apply sqrt_pos. apply sqrt2_le; [apply bpow_ge_0|]. rewrite <- (Rabs_pos_eq (rnd _)) by (rewrite <- Ed; exact Pd). rewrite <- bpow_plus. apply rnd_up; [lia|].
      set (x := rnd (b * b)) in *. set (y := val ml) in *. set (d := D) in *. clearbody x y d. set (z := b * b) in *. clearbody z. clear - Hl Em Eb DB B. absl. assert (20000000000 <= pow (40 + 40)) by (cbn; clear; lra). apply Rabs_le. lra. }
    destruct (div_round _ _ VS VM FS FM ltac:(lra)) as [K1 K2]; [|split; [split; [apply div_valid; assumption|exact K1]|exact K2]].
    apply big_ok. apply div_le_abs; [lra|]. apply Rle_trans with (1 := LS). apply Rle_trans with (2 ^ 70 * / 1024); [clear; lra|]. apply Rmult_le_compat_l; [clear; lra|exact LM]. }
  destruct Hd as [Hd1 Hd2]. rewrite <- Hd2 in HH. destruct HH as [H1 H2]. assert (Er : b / r = a) by (field; lra). assert (Er' : r * a = b) by (field; lra).
  unfold found. cbv zeta. rewrite Er. replace (a - a) with 0 by ring. rewrite Rabs_R0.
  repeat match goal with |- _ /\ _ => split end; try assumption; try (clear - Hb; lra); try (clear - Ha; lra).
  - apply Rle_trans with (r * a); [rewrite Er'; apply Rle_refl|]. apply Rmult_le_compat_l; lra.
Qed.
Lemma grown_found : SFltb (SFmul 53 1024 rb rb) ml = true -> found (if SFeqb ra rb then SFsqrt 53 1024 ml else SFdiv 53 1024 (SFmul 53 1024 ra (SFsqrt 53 1024 ml)) rb) (SFsqrt 53 1024 ml) (sf_of_Z 0).
Proof using All.
  intros Hl. destruct ml_near as [[Vm Fm] Em]. destruct bb_near as ([Vb Fb] & Ebb & Eb). apply ltb_val in Hl; try assumption. rewrite Ebb in Hl. destruct D_bounds as [DB GD]. pose proof r_bounds as Br.
  destruct G_near as (_ & _ & GN & GB & GR).
  assert (B : / 256 <= b * b <= 16777216) by (split; [replace (/ 256) with (/ 16 * / 16) by lra|replace 16777216 with (4096 * 4096) by lra]; apply Rmult_le_compat; lra).
  assert (Pm : / 700000 <= val ml). { set (y := val ml) in *. set (d := D) in *. clearbody y d. clear - DB Em. absl. lra. }
  assert (Pm2 : val ml <= 2 ^ 60). { set (y := val ml) in *. set (d := D) in *. clearbody y d. clear - DB Em. absl. lra. }
  destruct (sqrt_round _ Vm Fm ltac:(lra)) as (VM & FM & EM). pose proof (root_rnd (val ml) ltac:(lra)) as HR. rewrite <- EM in HR.
  assert (P0 : 0 <= val (SFsqrt 53 1024 ml)) by (rewrite EM; apply rnd_pos, sqrt_pos). set (nrb := SFsqrt 53 1024 ml) in *. clearbody nrb.
  set (be := val nrb) in *. assert (HB : Rabs (be * be - D) <= 8 * eps * D).
  { assert (T : / 2 ^ 200 <= eps * / 640000000) by (clear; lra). set (t := / 2 ^ 200) in *. set (d := D) in *. set (m := val ml) in *. set (y := be * be) in *. clear - Em HR DB T. clearbody t d m y. absl. apply Rabs_le. lra. }
  set (g := G) in *. assert (HG : Rabs (be - g) <= 8 * eps * g).
  { assert (G0 : 0 < g) by lra. rewrite <- GD in HB. set (e := 8 * eps) in *. clear - HB G0 P0. assert (0 < e) by (unfold e; lra). replace (be * be - g * g) with ((be - g) * (be + g)) in HB by ring. rewrite Rabs_mult, (Rabs_pos_eq (be + g)) in HB by lra.
    apply Rmult_le_reg_r with (be + g); [lra|]. apply Rle_trans with (1 := HB). rewrite (Rmult_assoc e g). apply Rmult_le_compat_l; [lra|]. apply Rmult_le_compat_l; lra. }
  assert (Hbg : b * b <= (1 + 8 * eps) * (g * g)). { rewrite GD. set (d := D) in *. set (m := val ml) in *. set (z := rnd (b * b)) in *. set (y := b * b) in *. clear - Em Hl Eb DB. clearbody d m z y. absl. lra. }
  assert (Hbg2 : b <= (1 + 8 * eps) * g). { apply Rsqr_incr_0_var; [unfold Rsqr|lra]. apply Rle_trans with (1 := Hbg). assert (0 <= g * g) by apply Rle_0_sqr. replace ((1 + 8 * eps) * g * ((1 + 8 * eps) * g)) with ((1 + 8 * eps) * (1 + 8 * eps) * (g * g)) by ring. apply Rmult_le_compat_r; lra. }
  assert (F1 : / 17 <= be <= 100000) by (clear - HG GB Hbg2 Hb; absl; lra). assert (F2 : be <= r * 100000). { set (r' := r) in *. clear - HG GB GR Br. clearbody r' g be. absl. lra. }
  assert (F3 : (1 - / 2 ^ 20) * b <= be) by (clear - HG GB Hbg2 Hb; absl; lra).
  assert (F4 : be <= (1 + 800 * u) * H). { set (h' := H) in *. clear - HG GN GB. clearbody h' be g. absl. lra. }
  assert (F5 : Rabs (val (sf_of_Z 0) * val (sf_of_Z 0) * D + D - be * be) <= / 8 * u * (be * be)).
  { replace (val (sf_of_Z 0)) with 0 by reflexivity. rewrite Rmult_0_l, Rmult_0_l, Rplus_0_l. set (d := D) in *. set (y := be * be) in *. clear - HB DB. clearbody d y. absl. apply Rabs_le. lra. }
  assert (Er : be / r = a * be / b) by (field; lra).
  assert (FA : finite64 (if SFeqb ra rb then nrb else SFdiv 53 1024 (SFmul 53 1024 ra nrb) rb) /\ Rabs (val (if SFeqb ra rb then nrb else SFdiv 53 1024 (SFmul 53 1024 ra nrb) rb) - be / r) <= / 4 * u * (be / r)).
  { assert (PB : 0 < be / r) by (apply Rdiv_lt_0_compat; lra). destruct (SFeqb ra rb) eqn:Hq.
    - assert (Eab : a = b). { destruct Fra as [V1 W1], Frb as [V2 W2]. apply eqb_val; assumption. } split; [split; assumption|]. fold be. replace (be / r) with be by (rewrite Eab; field; lra). replace (be - be) with 0 by ring. rewrite Rabs_R0. lra.
    - destruct Fra as [V1 W1], Frb as [V2 W2]. assert (Z1 : / 300 <= a * be <= 409600000). { split; [apply Rle_trans with (/ 16 * / 17); [lra|]; apply Rmult_le_compat; lra|replace 409600000 with (4096 * 100000) by lra; apply Rmult_le_compat; lra]. }
      destruct (mul_round ra nrb V1 VM W1 FM) as [K1 K2]; [fold be; apply big_ok; rewrite Rabs_pos_eq by lra; apply Rle_trans with 409600000; [lra|clear; lra]|]. fold be in K2.
      pose proof (rnd_rel' (a * be)) as T1. rewrite (Rabs_pos_eq (a * be)) in T1 by lra. pose proof tn_small as [_ T]. assert (T' : tn <= eps * / 1000000000) by (apply Rle_trans with (1 := T); clear; lra). clear T.
      assert (T2 : Rabs (rnd (a * be) - a * be) <= 2 * eps * (a * be)) by lra. clear T1. set (z := rnd (a * be)) in *. assert (Z2 : / 301 <= z <= 409600001) by (absl; lra).
      set (v := SFmul 53 1024 ra nrb) in *. assert (Vv : valid v) by (apply mul_valid; assumption). clearbody v. rewrite <- K2 in T2, Z2. clear K2 z.
      assert (Z3 : / 2000000 <= val v / b <= 6553600016). { split; [apply Rmult_le_reg_r with b|apply Rmult_le_reg_r with b]; try lra; unfold Rdiv; rewrite Rmult_assoc, Rinv_l by lra; lra. }
      destruct (div_round v rb Vv V2 K1 W2 ltac:(lra)) as [L1 L2]; [apply big_ok; rewrite Rabs_pos_eq by lra; apply Rle_trans with 6553600016; [lra|clear; lra]|].
      split; [split; [apply div_valid; assumption|exact L1]|]. rewrite L2, Er. pose proof (rnd_rel' (val v / b)) as T3. rewrite (Rabs_pos_eq (val v / b)) in T3 by lra.
      assert (T4 : Rabs (val v / b - a * be / b) <= 2 * eps * (a * be / b)).
      { replace (val v / b - a * be / b) with ((val v - a * be) / b) by (field; lra). apply div_le_abs; [lra|]. replace (2 * eps * (a * be / b) * b) with (2 * eps * (a * be)) by (field; lra). exact T2. }
      assert (Z4 : / 4000000 <= a * be / b) by (clear T2 T3; absl; lra). set (z1 := val v / b) in *. set (z2 := a * be / b) in *. set (z3 := rnd z1) in *. clear - T3 T4 T' Z4. clearbody z1 z2 z3. set (t0 := tn) in *. clearbody t0. absl. apply Rabs_le. lra. }
  destruct FA as [FA1 FA2]. unfold found. cbv zeta. fold be. split; [exact FA1|]. split; [split; assumption|]. split; [split; [apply of_Z_valid|exact I]|]. split; [exact F1|]. split; [exact F2|]. split; [exact FA2|].
  split; [replace (val (sf_of_Z 0)) with 0 by reflexivity; apply Rle_refl|]. split; [exact F5|]. split; [exact F3|right; exact F4].
Qed.
Lemma center_near sw sm : exists cx cy ra' rb' hr, findEllipseCenter (E := E) ra rb rotX sx sy ex ey sw sm = ((cx, cy), (ra', rb')) /\ found ra' rb' hr
  /\ finite64 cx /\ finite64 cy
  /\ let be := val rb' in let g := if (sw && sm) || (negb sw && negb sm) then 1 else -1 in let c1 := M1 + g * (M2 * val hr) in let c2 := M2 - g * (M1 * val hr) in let K := be * Rmax 1 (/ r) in
     Rabs (val cx - (c1 / r * c - c2 * s + val sx)) <= 240 * u * K /\ Rabs (val cy - (c1 / r * s + c2 * c + val sy)) <= 240 * u * K.
Proof using All.
  pose proof normal_found as HN. pose proof grown_found as HG. unfold findEllipseCenter.
  change (fcos E rotX) with C. change (fsin E rotX) with S. change (fsub E) with (SFsub 53 1024). change (fadd E) with (SFadd 53 1024).
  change (fmul E) with (SFmul 53 1024). change (fdiv E) with (SFdiv 53 1024). change (fneg E) with SFopp. change (fsqrt E) with (SFsqrt 53 1024). change (fltb E) with SFltb. change (feqb E) with SFeqb.
  change (fnum E 2) with (sf_of_Z 2). change (fnum E 0) with (sf_of_Z 0). cbv zeta.
  match goal with |- context [let '(_, _) := if SFltb ?a ?b then ?t else ?e in _] =>
    assert (HT : exists ra' rb' hr, (if SFltb a b then t else e) = (ra', rb', hr) /\ found ra' rb' hr) end.
  { destruct (SFltb (SFmul 53 1024 rb rb) ml); eexists _, _, _; (split; [reflexivity|]); auto. }
  clear HN HG. destruct HT as (ra' & rb' & hr & -> & HF). set (first := (sw && sm || negb sw && negb sm)%bool). pose proof HF as (Y1 & Y2 & Y3 & Y4 & Y5 & Y6 & Y7 & Y8 & _). destruct mid_near as [(F1 & _) (F2 & _)].
  assert (HD : (val hr * val hr + 1) * D <= 2 * (val rb' * val rb')).
  { assert (0 <= val rb' * val rb') by apply Rle_0_sqr. set (z := val rb' * val rb') in *. replace ((val hr * val hr + 1) * D) with (val hr * val hr * D + D) by ring. set (w := val hr * val hr * D + D) in *. clearbody z w. clear - Y8 H. apply Rabs_le_inv in Y8. lra. }
  pose proof (tail_near midX midY hr ra' rb' C S sx sy (val rb') r c s first F1 F2 Y3 Y1 Y2 Fsx Fsy ltac:(lra) r_bounds eq_refl Y6 HD C_near S_near Ssx Ssy) as HT. unfold tail64 in HT.
  destruct first eqn:Ef; cbv beta iota; cbv beta iota zeta in HT; destruct HT as (T1 & T2 & T3 & T4); (eexists _, _, _, _, hr; split; [reflexivity|]); (split; [exact HF|]); (split; [exact T1|]); (split; [exact T2|]); cbv zeta; fold first; rewrite ?Ef; split; assumption.
Qed.
End Center.

(** * ProofsArcNear8: an arc of ordinary measures in binary64 is near the arc of SVG *)
From Coq Require Import ZArith Lia Reals Lra Psatz List Floats.SpecFloat.
From Flocq Require Import Core.Core Relative IEEE754.BinarySingleNaN.
From Verif Require Import F64 RealEnv SpecArc ProofsArc ProofsArc2 ProofsAngle ProofsSize3 ProofsArc64 ProofsDec ProofsScale ProofsClose ProofsF64 SpecClose SpecRead SpecArcNear ProofsCircle ProofsArcNear ProofsArcNear2 ProofsArcNear3 ProofsArcNear4 ProofsArcNear5 ProofsArcNear6 ProofsArcNear7 ProofsFlocq.
Import ListNotations.
Local Open Scope R_scope.
Local Existing Instance ProofsFlocq.Hprec.
Local Existing Instance ProofsFlocq.Hmax.
Local Notation pow := (bpow radix2).
Local Notation u := (/ 17592186044416).
Local Notation eps := (/ 9007199254740992).
Local Notation fz := (S754_zero false).

(** ** The angle of rotation *)
Lemma deg_near deg : finite64 deg -> Rabs (val deg) <= 512 ->
  let x := SFdiv 53 1024 (SFmul 53 1024 deg pi64) (sf_of_Z 180) in
  ap 4 (2 ^ 56) x (degrees (val deg)) /\ finite64 x /\ Rabs (val x - degrees (val deg)) <= u /\ Rabs (val x) <= 9.
Proof.
  intros Fd Sd x. pose proof (ap_exact 9 deg Fd) as A. specialize (A Sd).
  pose proof (ap_mul 9 2 _ _ _ _ _ _ ltac:(lia) ltac:(lia) ltac:(lia) A pi_ap) as B.
  destruct (of_Z_val 180 eq_refl) as [Z1 Z2].
  assert (C : ap 4 (2 ^ 54 + 2 ^ (4 + 47)) x (val deg * PI / 180)).
  { refine (ap_over (9 + 2) 4 _ (2 ^ 54) _ _ (sf_of_Z 180) 180 ltac:(lia) _ Z2 ltac:(lra) _ _ B); [split; [apply of_Z_valid|exact Z1]|cbn; lra|].
    rewrite <- mult_IZR. apply IZR_le. zc. }
  fold (degrees (val deg)) in C. apply (ap_le _ 4 _ (2 ^ 56)) in C; [|lia|zc]. split; [exact C|]. destruct C as ((V & Fi & _) & E & _). split; [split; assumption|].
  assert (EU : IZR (2 ^ 56) * u100 = u) by (rewrite <- u56; apply u44). rewrite EU in E. split; [exact E|].
  assert (D : Rabs (degrees (val deg)) <= 8.95). { unfold degrees, Rdiv. rewrite !Rabs_mult, (Rabs_pos_eq PI), (Rabs_pos_eq (/ 180)) by (pose proof pi_bounds; lra). pose proof pi_bounds as HP. apply Rle_trans with (512 * PI * / 180); [|lra]. apply Rmult_le_compat_r; [lra|]. apply Rmult_le_compat_r; [lra|exact Sd]. }
  clear - E D. set (y := val x) in *. set (z := degrees _) in *. clearbody y z. absl. apply Rabs_le. lra.
Qed.
(** adding zero *)
Lemma plus_zero x : finite64 x -> finite64 (SFadd 53 1024 x fz) /\ val (SFadd 53 1024 x fz) = val x.
Proof.
  intros [V Fi]. destruct x as [b|b| |b m e]; try contradiction; (split; [split|]); try exact I; try reflexivity; try (destruct b; reflexivity); exact V.
Qed.

(** ** The ellipse *)
Section Geometry.
Context (O : Oracles) (HO : fair_angles O).
Context (rx ry rotX sx sy ex ey : sf) (rot : R).
Notation a := (val rx). Notation b := (val ry).
Context (Frx : finite64 rx) (Fry : finite64 ry) (Frot : finite64 rotX) (Fsx : finite64 sx) (Fsy : finite64 sy) (Fex : finite64 ex) (Fey : finite64 ey).
Context (Ha : / 16 <= a <= 4096) (Hb : / 16 <= b <= 4096) (Hab : a <= 16 * b) (Hba : b <= 16 * a).
Context (Ssx : Rabs (val sx) <= 4096) (Ssy : Rabs (val sy) <= 4096) (Sex : Rabs (val ex) <= 4096) (Sey : Rabs (val ey) <= 4096).
Context (Hfar : / 16 <= Rabs (val ex - val sx) \/ / 16 <= Rabs (val ey - val sy)).
Context (Srot : Rabs (val rotX) <= 9) (Erot : Rabs (val rotX - rot) <= u).
Notation c := (cos rot). Notation s := (sin rot).
(** an ellipse with centre ([cx], [cy]) and radii [ra], [rb] that nearly passes through both points *)
Record ellipse_found (sw sm : bool) (cx cy ra rb : sf) (k P1 P2 Q1 Q2 : R) : Prop := {
  ef_cx : finite64 cx; ef_cy : finite64 cy; ef_ra : finite64 ra; ef_rb : finite64 rb;
  ef_ecx : Rabs (val cx) <= 250000; ef_ecy : Rabs (val cy) <= 250000;
  ef_al : / 17 <= k * a <= 100000; ef_be : / 17 <= k * b <= 100000;
  ef_va : Rabs (val ra - k * a) <= / 4 * u * (k * a); ef_vb : val rb = k * b;
  ef_k : 1 - / 2 ^ 20 <= k;
  ef_min : forall k', 1 <= k' -> fits (k' * a) (k' * b) rot (val sx, val sy) (val ex, val ey) -> k <= k' * (1 + / 2 ^ 20);
  ef_P : Rabs (P1 * P1 + P2 * P2 - 1) <= u; ef_Q : Rabs (Q1 * Q1 + Q2 * Q2 - 1) <= u;
  ef_s1 : Rabs (((val sx - val cx) * c + (val sy - val cy) * s) / (k * a) - P1) <= 8500 * u;
  ef_s2 : Rabs ((- (val sx - val cx) * s + (val sy - val cy) * c) / (k * b) - P2) <= 8500 * u;
  ef_e1 : Rabs (((val ex - val cx) * c + (val ey - val cy) * s) / (k * a) - Q1) <= 8500 * u;
  ef_e2 : Rabs ((- (val ex - val cx) * s + (val ey - val cy) * c) / (k * b) - Q2) <= 8500 * u;
  ef_chord : / 1700000 <= sqrt ((Q1 - P1) * (Q1 - P1) + (Q2 - P2) * (Q2 - P2));
  ef_side : if agree sw sm then P1 * Q2 - P2 * Q1 <= 0 else 0 <= P1 * Q2 - P2 * Q1
}.
Lemma ellipse_ok sw sm : exists cx cy ra rb k P1 P2 Q1 Q2, findEllipseCenter (E := F64 O) rx ry rotX sx sy ex ey sw sm = ((cx, cy), (ra, rb)) /\ ellipse_found sw sm cx cy ra rb k P1 P2 Q1 Q2.
Proof using All.
  assert (Sr16 : Rabs (val rotX) <= 16) by lra.
  destruct (center_near O HO rx ry rotX sx sy ex ey rot Frx Fry Frot Fsx Fsy Fex Fey Ha Hb Hab Hba Ssx Ssy Sex Sey Hfar Sr16 Erot sw sm) as (cx & cy & ra & rb & hr & EQ & FD & Fcx & Fcy & T).
  pose proof (G_near O HO rx ry rotX sx sy ex ey rot Frx Fry Frot Fsx Fsy Fex Fey Ha Hb Hab Hba Ssx Ssy Sex Sey Hfar Sr16 Erot) as GN.
  pose proof (D_bounds O HO rx ry rotX sx sy ex ey rot Frx Fry Frot Fsx Fsy Fex Fey Ha Hb Hab Hba Ssx Ssy Sex Sey Hfar Sr16 Erot) as DB.
  pose proof (r_bounds rx ry Ha Hb Hab Hba) as RB.
  unfold found in FD. cbv zeta in FD, T. fold (agree sw sm) in T.
  match type of GN with Rabs (val ?m - _) <= _ /\ Rabs (val ?n - _) <= _ /\ _ => set (M1 := val m) in *; set (M2 := val n) in * end. clearbody M1 M2.
  set (D := M1 * M1 + M2 * M2) in *. set (r := b / a) in *.
  set (p := ((val ex - val sx) * c + (val ey - val sy) * s) / 2) in *. set (q := (- (val ex - val sx) * s + (val ey - val sy) * c) / 2) in *.
  set (H := sqrt (r * p * (r * p) + q * q)) in *. set (G := sqrt D) in *. set (be := val rb) in *.
  destruct FD as (Fra & Frb & Fhr & Hbe & Hbr & Hva & Hh & HD & Hkb & Hor). destruct GN as (E1 & E2 & GH & GB & _). destruct DB as [DB GG]. destruct T as [T1 T2].
  set (g := if agree sw sm then 1 else -1) in *.
  assert (Hg : g * g = 1) by (unfold g; destruct (agree sw sm); ring).
  assert (Hcs : c * c + s * s = 1) by (pose proof (sin2_cos2 rot) as W; unfold Rsqr in W; lra).
  assert (Bc : Rabs c <= 1) by (pose proof (COS_bound rot); apply Rabs_le; lra). assert (Bs : Rabs s <= 1) by (pose proof (SIN_bound rot); apply Rabs_le; lra).
  set (h := val hr) in *. assert (G0 : 0 < G) by lra. assert (H0 : 0 <= H) by apply sqrt_pos.
  assert (Gbe : G <= (1 + u) * be).
  { apply Rsqr_incr_0_var; [|apply Rmult_le_pos; lra]. unfold Rsqr. rewrite GG. assert (0 <= h * h * D) by (apply Rmult_le_pos; [apply Rle_0_sqr|lra]).
    assert (0 < be * be) by (apply Rmult_lt_0_compat; lra). apply Rabs_le_inv in HD. replace ((1 + u) * be * ((1 + u) * be)) with ((1 + u) * (1 + u) * (be * be)) by ring. set (B := be * be) in *. clearbody B. lra. }
  assert (Hbe2 : H <= 1.01 * be). { clear - GH Gbe H0 Hbe. apply Rabs_le_inv in GH. lra. }
  assert (E1' : Rabs (M1 - r * p) <= 400 * u * be) by lra. assert (E2' : Rabs (M2 - q) <= 400 * u * be) by lra.
  assert (Be1 : 1 <= Rmax 1 (/ r) <= 16).
  { split; [apply Rmax_l|]. apply Rmax_lub; [lra|]. replace 16 with (/ / 16) by field. apply Rinv_le; lra. }
  assert (K1 : 240 * u * (be * Rmax 1 (/ r)) <= 1). { apply Rle_trans with (240 * u * (100000 * 16)); [|lra]. apply Rmult_le_compat_l; [lra|]. apply Rmult_le_compat; lra. }
  pose proof (P_one be M1 M2 h g Hbe Hg HD) as PO. pose proof (Q_one be M1 M2 h g Hbe Hg HD) as QO.
  pose proof (start_on be r c s M1 M2 h g (val sx) (val sy) (val cx) (val cy) Hcs Bc Bs RB Hbe T1 T2) as [S1 S2].
  pose proof (end_on be r c s M1 M2 h g (val sx) (val sy) (val ex) (val ey) (val cx) (val cy) Hcs Bc Bs RB Hbe Hg HD E1' E2' T1 T2) as [S3 S4].
  pose proof (cross_PQ be M1 M2 h g Hbe) as CR. pose proof (chord_PQ be M1 M2 h g Hbe) as CH. fold D in CR, CH.
  assert (EK : be / b * a = be / r) by (unfold r; field; lra). assert (EKb : be / b * b = be) by (field; lra).
  assert (Hal : be / r <= 100000) by (apply Rmult_le_reg_r with r; [lra|]; unfold Rdiv; rewrite Rmult_assoc, Rinv_l by lra; lra).
  set (p1 := P1 be M1 M2 h g) in *. set (p2 := P2 be M1 M2 h g) in *. set (q1 := Q1 be M1 M2 h g) in *. set (q2 := Q2 be M1 M2 h g) in *.
  assert (Hal2 : / 17 <= be / r).
  { assert (L : (1 - / 2 ^ 20) * a <= be / r). { apply Rmult_le_reg_r with r; [lra|]. unfold Rdiv. rewrite Rmult_assoc, (Rmult_assoc be), Rinv_l by lra. rewrite Rmult_1_r. replace (a * r) with b by (unfold r; field; lra). exact Hkb. } lra. }
  exists cx, cy, ra, rb, (be / b), p1, p2, q1, q2. split; [exact EQ|].
  assert (U1 : forall x y, Rabs (x * x + y * y - 1) <= u -> Rabs x <= 1.01 /\ Rabs y <= 1.01).
  { clear. intros x y W. apply Rabs_le_inv in W. split; apply Rabs_le; nra. }
  destruct (U1 _ _ PO) as [Bp1 Bp2].
  assert (C1 : M1 + g * (M2 * h) = - (p1 * be)) by (unfold p1, P1; field; lra). assert (C2 : M2 - g * (M1 * h) = - (p2 * be)) by (unfold p2, P2; field; lra).
  assert (Z1 : Rabs (p1 * be / r) <= 101000). { unfold Rdiv. rewrite Rmult_assoc, Rabs_mult. fold (be / r). rewrite (Rabs_pos_eq (be / r)) by lra. apply Rle_trans with (1.01 * 100000); [|lra]. apply Rmult_le_compat; try apply Rabs_pos; lra. }
  assert (Z2 : Rabs (p2 * be) <= 101000). { rewrite Rabs_mult, (Rabs_pos_eq be) by lra. apply Rle_trans with (1.01 * 100000); [|lra]. apply Rmult_le_compat; try apply Rabs_pos; lra. }
  assert (N : Rabs (- s) <= 1) by (rewrite Rabs_Ropp; exact Bs).
  constructor; try assumption; try (rewrite EK); try (rewrite EKb); try assumption; try reflexivity; try lra.
  - pose proof (two_abs (- c) s _ _ _ ltac:(rewrite Rabs_Ropp; exact Bc) Bs Z1 Z2) as W. rewrite C1, C2 in T1. clear - W T1 K1 Ssx.
    replace (val cx) with ((val cx - (- (p1 * be) / r * c - - (p2 * be) * s + val sx)) + (p1 * be / r * - c + p2 * be * s) + val sx) by (unfold Rdiv; ring).
    apply Rle_trans with (1 := Rabs_triang _ _). pose proof (Rabs_triang (val cx - (- (p1 * be) / r * c - - (p2 * be) * s + val sx)) (p1 * be / r * - c + p2 * be * s)). lra.
  - pose proof (two_abs (- s) (- c) _ _ _ N ltac:(rewrite Rabs_Ropp; exact Bc) Z1 Z2) as W. rewrite C1, C2 in T2. clear - W T2 K1 Ssy.
    replace (val cy) with ((val cy - (- (p1 * be) / r * s + - (p2 * be) * c + val sy)) + (p1 * be / r * - s + p2 * be * - c) + val sy) by (unfold Rdiv; ring).
    apply Rle_trans with (1 := Rabs_triang _ _). pose proof (Rabs_triang (val cy - (- (p1 * be) / r * s + - (p2 * be) * c + val sy)) (p1 * be / r * - s + p2 * be * - c)). lra.
  - apply Rmult_le_reg_r with b; [lra|]. rewrite EKb. exact Hkb.
  - intros k' Hk' FT. assert (A0 : 0 < a) by lra. assert (B0 : 0 < b) by lra. pose proof (fits_half a b rot k' _ _ A0 B0 ltac:(lra) FT) as W. unfold half2, half in W. cbn [fst snd] in W. fold r in W.
    assert (HK : H <= k' * b). { apply Rsqr_incr_0_var; [|apply Rmult_le_pos; lra]. unfold Rsqr. unfold H at 1 2. rewrite sqrt_sqrt by (pose proof (Rle_0_sqr (r * p)); pose proof (Rle_0_sqr q); unfold Rsqr in *; lra). apply Rle_trans with (2 := W). right. unfold p, q. field. }
    apply Rmult_le_reg_r with b; [exact B0|]. rewrite EKb. assert (0 < k' * b) by (apply Rmult_lt_0_compat; lra). destruct Hor as [Ho|Ho].
    + apply Rle_trans with (1 := Ho). replace (k' * (1 + / 2 ^ 20) * b) with (b * k' * (1 + / 2 ^ 20)) by ring. assert (b * 1 <= b * k') by (apply Rmult_le_compat_l; lra). lra.
    + apply Rle_trans with (1 := Ho). replace (k' * (1 + / 2 ^ 20) * b) with (k' * b * (1 + / 2 ^ 20)) by ring. lra.
  - rewrite CH. replace (4 * D / (be * be)) with (2 * G / be * (2 * G / be)) by (rewrite <- GG; field; lra). rewrite sqrt_square by (apply Rlt_le, Rdiv_lt_0_compat; lra).
    apply Rmult_le_reg_r with be; [lra|]. unfold Rdiv. rewrite Rmult_assoc, Rinv_l by lra. destruct Hor as [Ho|Ho]; [lra|]. apply Rabs_le_inv in GH. lra.
  - rewrite CR. assert (W : 0 <= 2 * h * D / (be * be)). { apply Rmult_le_pos; [apply Rmult_le_pos; lra|]. apply Rlt_le, Rinv_0_lt_compat, Rmult_lt_0_compat; lra. } unfold g. destruct (agree sw sm); lra.
Qed.
End Geometry.

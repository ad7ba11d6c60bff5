(** * ProofsArcNear5: the angles of the ends of an arc in binary64 *)
From Coq Require Import ZArith Lia Reals Lra Psatz Floats.SpecFloat.
From Flocq Require Import Core.Core Relative IEEE754.BinarySingleNaN.
From Verif Require Import F64 RealEnv SpecArc ProofsArc ProofsArc2 ProofsAngle ProofsSize3 ProofsArc64 ProofsDec ProofsScale ProofsClose ProofsF64 SpecClose SpecArcNear ProofsCircle ProofsArcNear ProofsArcNear2 ProofsArcNear3 ProofsArcNear4 ProofsFlocq.
Local Open Scope R_scope.
Local Existing Instance ProofsFlocq.Hprec.
Local Existing Instance ProofsFlocq.Hmax.
Local Notation pow := (bpow radix2).
Local Notation u := (/ 17592186044416).
Local Notation eps := (/ 9007199254740992).

Lemma abs_le_norm x y : Rabs x <= sqrt (x * x + y * y).
Proof. pose proof (Rle_0_sqr y). pose proof (Rle_0_sqr x). unfold Rsqr in *. apply le_sqrt2; [apply Rabs_pos|]. rewrite <- sq_abs. lra. Qed.
Lemma abs_le_norm2 x y : Rabs y <= sqrt (x * x + y * y).
Proof. rewrite Rplus_comm. apply abs_le_norm. Qed.
(** a coordinate over the length, for two vectors close to each other *)
Lemma unit_near x y x' y' l l' e : l = sqrt (x * x + y * y) -> l' = sqrt (x' * x' + y' * y') -> 0 < l -> 0 < l' -> Rabs (x' - x) <= e * l -> Rabs (y' - y) <= e * l ->
  l <= 2 * l' -> Rabs (x' / l' - x / l) <= 6 * e /\ Rabs (y' / l' - y / l) <= 6 * e.
Proof.
  intros El El' Hl Hl' Hx Hy Hll. pose proof (norm_near x' y' x y) as Hn. rewrite <- El, <- El' in Hn. assert (He : 0 <= e). { pose proof (Rabs_pos (x' - x)). destruct (Rle_or_lt 0 e); [assumption|]. exfalso. assert (e * l < 0) by nra. lra. }
  assert (Hn' : Rabs (l - l') <= 2 * e * l) by (rewrite Rabs_minus_sym; lra). clear Hn.
  assert (T : forall z z', Rabs z <= l -> Rabs (z' - z) <= e * l -> Rabs (z' / l' - z / l) <= 6 * e).
  { intros z z' H1 H2. replace (z' / l' - z / l) with (((z' - z) + z / l * (l - l')) / l') by (field; lra). apply div_le_abs; [exact Hl'|].
    assert (Q : Rabs (z / l) <= 1) by (apply div_le_abs; lra). apply Rle_trans with (1 := Rabs_triang _ _). rewrite Rabs_mult.
    assert (Rabs (z / l) * Rabs (l - l') <= 1 * (2 * e * l)) by (apply Rmult_le_compat; try apply Rabs_pos; assumption).
    assert (e * l <= e * (2 * l')) by (apply Rmult_le_compat_l; assumption). lra. }
  split; apply T; try assumption; rewrite El; [apply abs_le_norm|apply abs_le_norm2].
Qed.

Section Angle.
Context (O : Oracles) (HO : fair_angles O).
Context (px py cx cy ra rb rotX : sf) (al be rot P1 P2 : R).
Context (Fpx : finite64 px) (Fpy : finite64 py) (Fcx : finite64 cx) (Fcy : finite64 cy) (Fra : finite64 ra) (Frb : finite64 rb) (Frot : finite64 rotX).
Context (Spx : Rabs (val px) <= 4096) (Spy : Rabs (val py) <= 4096) (Scx : Rabs (val cx) <= 1000000000) (Scy : Rabs (val cy) <= 1000000000).
Context (Hal : / 17 <= al <= 100000) (Hbe : / 17 <= be <= 100000) (Hab : al <= 16 * be) (Hba : be <= 16 * al) (Hra : Rabs (val ra - al) <= / 4 * u * al) (Hrb : val rb = be).
Context (Srot : Rabs (val rotX) <= 9) (Erot : Rabs (val rotX - rot) <= u).
Notation c := (cos rot). Notation s := (sin rot).
Notation X := (val px - val cx). Notation Y := (val py - val cy).
Notation U := (X * c + Y * s). Notation V := (- X * s + Y * c).
Context (HU : Rabs (U / al - P1) <= 8500 * u) (HV : Rabs (V / be - P2) <= 8500 * u) (HP : Rabs (P1 * P1 + P2 * P2 - 1) <= u).
Notation L := (sqrt (X * X + Y * Y)).
Lemma cs1 : c * c + s * s = 1. Proof using. clear. pose proof (sin2_cos2 rot). unfold Rsqr in *. lra. Qed.
Lemma L_rot : X * X + Y * Y = U * U + V * V.
Proof using. clear. pose proof cs1 as K. replace (U * U + V * V) with ((X * X + Y * Y) * (c * c + s * s)) by ring. rewrite K. ring. Qed.
Lemma norm_one : Rabs (sqrt (P1 * P1 + P2 * P2) - 1) <= u.
Proof using HP.
  clear HU HV Hra Erot Srot Spx Spy Scx Scy. apply Rabs_le_inv in HP. pose proof (sqrt_pos (P1 * P1 + P2 * P2)). apply Rabs_le. split.
  - assert (1 - u <= sqrt (P1 * P1 + P2 * P2)); [|lra]. apply le_sqrt2; lra.
  - assert (sqrt (P1 * P1 + P2 * P2) <= 1 + u); [|lra]. apply sqrt2_le; lra.
Qed.
Notation w := (sqrt (U / al * (U / al) + V / be * (V / be))).
Lemma w_one : Rabs (w - 1) <= 17002 * u.
Proof using HU HV HP.
  clear Hra Erot Srot Spx Spy Scx Scy. pose proof norm_one as N1. pose proof (norm_near (U / al) (V / be) P1 P2) as N2. set (a := w) in *. set (b := sqrt (P1 * P1 + P2 * P2)) in *. clearbody a b. 
  set (d1 := Rabs (U / al - P1)) in *. set (d2 := Rabs (V / be - P2)) in *. clearbody d1 d2. clear HP. absl. apply Rabs_le. lra.
Qed.
Lemma L_bounds : / 18 <= L /\ L <= 17 * al /\ L <= 17 * be.
Proof using All.
  pose proof w_one as W. rewrite L_rot. assert (Hw : 0.99 <= w <= 1.01). { apply Rabs_le_inv in W. lra. } clear W.
  set (x := U / al) in *. set (y := V / be) in *. assert (Ex : U = al * x) by (unfold x; field; lra). assert (Ey : V = be * y) by (unfold y; field; lra). rewrite Ex, Ey.
  assert (Q : sqrt (x * x + y * y) * sqrt (x * x + y * y) = x * x + y * y) by (apply sqrt_sqrt; pose proof (Rle_0_sqr x); pose proof (Rle_0_sqr y); unfold Rsqr in *; lra). set (v := sqrt (x * x + y * y)) in *. clearbody v x y. clear Ex Ey HU HV HP Hra Hrb.
  assert (x2 : 0 <= x * x) by apply Rle_0_sqr. assert (y2 : 0 <= y * y) by apply Rle_0_sqr. replace (al * x * (al * x) + be * y * (be * y)) with (al * al * (x * x) + be * be * (y * y)) by ring.
  assert (B1 : 0.98 <= x * x + y * y <= 1.0201) by (rewrite <- Q; split; [apply Rle_trans with (0.99 * 0.99); [lra|]; apply Rmult_le_compat; lra|replace 1.0201 with (1.01 * 1.01) by lra; apply Rmult_le_compat; lra]).
  set (xx := x * x) in *. set (yy := y * y) in *. clearbody xx yy.
  assert (A1 : / 289 <= al * al) by (replace (/ 289) with (/ 17 * / 17) by lra; apply Rmult_le_compat; lra). assert (A2 : / 289 <= be * be) by (replace (/ 289) with (/ 17 * / 17) by lra; apply Rmult_le_compat; lra).
  assert (A3 : al * al <= 256 * (be * be)) by (replace (256 * (be * be)) with (16 * be * (16 * be)) by ring; apply Rmult_le_compat; lra). assert (A4 : be * be <= 256 * (al * al)) by (replace (256 * (al * al)) with (16 * al * (16 * al)) by ring; apply Rmult_le_compat; lra).
  set (a2 := al * al) in *. set (b2 := be * be) in *. split; [|split].
  - apply le_sqrt2; [lra|]. assert (/ 289 * xx <= a2 * xx) by (apply Rmult_le_compat_r; assumption). assert (/ 289 * yy <= b2 * yy) by (apply Rmult_le_compat_r; assumption). lra.
  - apply sqrt2_le; [lra|]. replace (17 * al * (17 * al)) with (289 * a2) by (unfold a2; ring). assert (a2 * xx <= 256 * a2 * xx) by (apply Rmult_le_compat_r; lra). assert (b2 * yy <= 256 * a2 * yy) by (apply Rmult_le_compat_r; lra).
    assert (256 * a2 * (xx + yy) <= 256 * a2 * 1.0201) by (apply Rmult_le_compat_l; lra). lra.
  - apply sqrt2_le; [lra|]. replace (17 * be * (17 * be)) with (289 * b2) by (unfold b2; ring). assert (a2 * xx <= 256 * b2 * xx) by (apply Rmult_le_compat_r; lra). assert (b2 * yy <= 256 * b2 * yy) by (apply Rmult_le_compat_r; lra).
    assert (256 * b2 * (xx + yy) <= 256 * b2 * 1.0201) by (apply Rmult_le_compat_l; lra). lra.
Qed.
Notation dx := (SFsub 53 1024 px cx). Notation dy := (SFsub 53 1024 py cy).
Lemma dif_near p q : finite64 p -> finite64 q -> Rabs (val p) <= 4096 -> Rabs (val q) <= 1000000000 -> Rabs (val p - val q) <= L -> / 18 <= L ->
  finite64 (SFsub 53 1024 p q) /\ Rabs (val (SFsub 53 1024 p q) - (val p - val q)) <= 2 * eps * L.
Proof using.
  intros [V1 W1] [V2 W2] Sp Sq HL HL2. rewrite sub_add. destruct (add_round p (SFopp q) V1 (opp_valid _ V2) W1 (opp_finite _ W2)) as [K1 K2].
  - rewrite opp_val. apply big_ok. clear - Sp Sq. absl. apply Rabs_le. assert (2000000000 <= 2 ^ 70) by (clear; lra). lra.
  - split; [split; [apply add_valid; [|apply opp_valid]; assumption|exact K1]|]. rewrite K2, opp_val. change (val p + - val q) with (val p - val q). pose proof (rnd_rel' (val p - val q)) as T. pose proof tn_small as [_ T0]. assert (T' : tn <= eps * / 18) by (apply Rle_trans with (1 := T0); clear; lra). lra.
Qed.
Notation th := (o_atan2 O dy dx).
Lemma theta_near : finite64 th /\ Rabs (val th) <= 3.2 /\ Rabs (cos (val th) - X / L) <= 1.1 * u /\ Rabs (sin (val th) - Y / L) <= 1.1 * u.
Proof using All.
  destruct L_bounds as (L1 & _ & _). destruct (dif_near px cx Fpx Fcx Spx Scx (abs_le_norm X Y) L1) as [A1 A2]. destruct (dif_near py cy Fpy Fcy Spy Scy (abs_le_norm2 X Y) L1) as [B1 B2].
  pose proof (norm_near (val dx) (val dy) X Y) as HN. set (l' := sqrt (val dx * val dx + val dy * val dy)) in *. set (l := L) in *.
  assert (Hl' : l <= 2 * l'). { clear - HN A2 B2 L1. set (e1 := Rabs (val dx - X)) in *. set (e2 := Rabs (val dy - Y)) in *. clearbody e1 e2. absl. lra. }
  assert (P' : 0 < l') by lra. assert (Hz : val dy <> 0 \/ val dx <> 0).
  { destruct (Req_dec (val dx) 0) as [E1|E1]; [|right; exact E1]. left. intros E2. unfold l' in P'. rewrite E1, E2, Rmult_0_l, Rplus_0_l, sqrt_0 in P'. lra. }
  destruct (angle_atan2 O HO dy dx B1 A1 Hz) as (T1 & T2 & T3 & T4). fold l' in T3, T4. rewrite u44 in *.
  destruct (unit_near X Y (val dx) (val dy) l l' (2 * eps) eq_refl eq_refl ltac:(lra) P' A2 B2 Hl') as [N1 N2].
  split; [exact T1|]. split; [pose proof pi_bounds; lra|]. change (value64 th) with (val th) in *. change (value64 dx) with (val dx) in *. change (value64 dy) with (val dy) in *. split.
  - pose proof (Rabs_triang (cos (val th) - val dx / l') (val dx / l' - X / l)) as T. replace (cos (val th) - val dx / l' + (val dx / l' - X / l)) with (cos (val th) - X / l) in T by ring. lra.
  - pose proof (Rabs_triang (sin (val th) - val dy / l') (val dy / l' - Y / l)) as T. replace (sin (val th) - val dy / l' + (val dy / l' - Y / l)) with (sin (val th) - Y / l) in T by ring. lra.
Qed.
Notation A := (SFsub 53 1024 th rotX).
Lemma A_near : finite64 A /\ Rabs (val A) <= 12.3 /\ Rabs (val A - (val th - rot)) <= 1.1 * u.
Proof using All.
  destruct theta_near as ([V1 W1] & T2 & _). destruct Frot as [V2 W2]. rewrite sub_add. 
  assert (B : Rabs (val th + - val rotX) <= 12.2). { set (t := val th) in *. clear - T2 Srot. clearbody t. absl. apply Rabs_le. lra. }
  destruct (add_round th (SFopp rotX) V1 (opp_valid _ V2) W1 (opp_finite _ W2)) as [K1 K2]; [rewrite opp_val; apply big_ok; apply Rle_trans with (1 := B); clear; lra|].
  rewrite opp_val in K2. pose proof (rnd_rel' (val th + - val rotX)) as T. rewrite <- K2 in T. pose proof tn_small as [_ T0]. assert (T' : tn <= eps) by (apply Rle_trans with (1 := T0); clear; lra). clear T0 K2.
  split; [split; [apply add_valid; [|apply opp_valid]; assumption|exact K1]|]. set (z := val (SFadd 53 1024 th (SFopp rotX))) in *. set (t := val th) in *. clearbody z t. assert (T1 : Rabs (z - (t + - val rotX)) <= 14 * eps) by lra. clear - T1 B Erot. absl. split; apply Rabs_le; lra.
Qed.
Notation x1 := (o_cos O A). Notation y1 := (o_sin O A).
Lemma abs_cs a b : Rabs a <= 1 -> Rabs (a * b) <= Rabs b.
Proof using. intros H. rewrite Rabs_mult. pose proof (Rabs_pos b). assert (Rabs a * Rabs b <= 1 * Rabs b) by (apply Rmult_le_compat_r; assumption). lra. Qed.
Lemma one_near : finite64 x1 /\ finite64 y1 /\ Rabs (val x1 - U / L) <= 5 * u /\ Rabs (val y1 - V / L) <= 5 * u.
Proof using All.
  destruct theta_near as (_ & _ & T1 & T2). destruct A_near as (A1 & A2 & A3). destruct (angle_cos O HO A A1 ltac:(change (value64 A) with (val A); lra)) as [C1 C2]. destruct (angle_sin O HO A A1 ltac:(change (value64 A) with (val A); lra)) as [S1 S2]. rewrite u44 in *.
  change (value64 A) with (val A) in *. change (value64 x1) with (val x1) in *. change (value64 y1) with (val y1) in *.
  split; [exact C1|]. split; [exact S1|]. pose proof (cos_lip (val A) (val th - rot)) as K1. pose proof (sin_lip (val A) (val th - rot)) as K2. rewrite cos_minus in K1. rewrite sin_minus in K2.
  set (l := L) in *. assert (Hl : l <> 0) by (destruct L_bounds; unfold l; lra). set (ct := cos (val th)) in *. set (st := sin (val th)) in *. set (cA := cos (val A)) in *. set (sA := sin (val A)) in *.
  replace (U / l) with (c * (X / l) + s * (Y / l)) by (field; exact Hl). replace (V / l) with (c * (Y / l) - s * (X / l)) by (field; exact Hl). set (xl := X / l) in *. set (yl := Y / l) in *.
  assert (Bc : Rabs c <= 1) by (pose proof (COS_bound rot); apply Rabs_le; lra). assert (Bs : Rabs s <= 1) by (pose proof (SIN_bound rot); apply Rabs_le; lra).
  pose proof (abs_cs c (ct - xl) Bc) as Q1. pose proof (abs_cs s (st - yl) Bs) as Q2. pose proof (abs_cs c (st - yl) Bc) as Q3. pose proof (abs_cs s (ct - xl) Bs) as Q4.
  set (cc := c) in *. set (ss := s) in *. set (x := val x1) in *. set (y := val y1) in *. set (a := val A) in *. set (t := val th - rot) in *. clearbody x y cA sA ct st xl yl cc ss a t. clear - C2 S2 K1 K2 Q1 Q2 Q3 Q4 T1 T2 A3.
  assert (L1 : Rabs (cA - (ct * cc + st * ss)) <= 1.1 * u) by lra. assert (L2 : Rabs (sA - (st * cc - ct * ss)) <= 1.1 * u) by lra. assert (Q1' : Rabs (cc * (ct - xl)) <= 1.1 * u) by lra. assert (Q2' : Rabs (ss * (st - yl)) <= 1.1 * u) by lra. assert (Q3' : Rabs (cc * (st - yl)) <= 1.1 * u) by lra. assert (Q4' : Rabs (ss * (ct - xl)) <= 1.1 * u) by lra.
  clear K1 K2 Q1 Q2 Q3 Q4 T1 T2 A3. absl. split; apply Rabs_le; lra.
Qed.
Lemma quot_near z m g W : finite64 z -> finite64 m -> / 17 <= g <= 100000 -> L <= 17 * g -> / 18 <= L -> Rabs (val m - g) <= / 4 * u * g -> Rabs (val z - W / L) <= 5 * u -> Rabs W <= L ->
  finite64 (SFdiv 53 1024 z m) /\ Rabs (val (SFdiv 53 1024 z m) * L - W / g) <= 110 * u.
Proof using.
  intros [V1 W1] [V2 W2] Hg HL HL2 Hm Hz HW. set (l := L) in *. clearbody l. assert (Wl : Rabs (W / l) <= 1) by (apply div_le_abs; lra).
  assert (Bz : Rabs (val z) <= 1.01). { clear - Hz Wl. set (v := val z) in *. set (y := W / l) in *. clearbody v y. absl. apply Rabs_le. lra. }
  assert (Bm : (1 - / 4 * u) * g <= val m <= (1 + / 4 * u) * g) by (clear - Hm Hg; absl; lra). assert (Pm : / 18 <= val m) by lra.
  assert (Bq : Rabs (val z / val m) <= 20) by (apply div_le_abs; [lra|]; lra).
  destruct (div_round z m V1 V2 W1 W2 ltac:(lra)) as [K1 K2]; [apply big_ok; apply Rle_trans with (1 := Bq); clear; lra|]. split; [split; [apply div_valid; assumption|exact K1]|]. rewrite K2.
  pose proof (rnd_rel' (val z / val m)) as T. pose proof tn_small as [_ T0]. set (n := rnd _) in *. clearbody n. clear K1 K2 V1 V2 W1 W2.
  assert (B3 : Rabs (val z / val m) <= 1.02 / g). { apply div_le_abs; [lra|]. apply Rle_trans with (1 := Bz). unfold Rdiv. rewrite Rmult_assoc. apply Rmult_le_reg_r with g; [lra|]. replace (1.02 * (/ g * val m) * g) with (1.02 * val m) by (field; lra). lra. }
  assert (Dm : Rabs (/ val m - / g) <= / 3 * u * / g).
  { replace (/ val m - / g) with ((g - val m) / val m * / g) by (field; lra). rewrite Rabs_mult, (Rabs_pos_eq (/ g)) by (apply Rlt_le, Rinv_0_lt_compat; lra). apply Rmult_le_compat_r; [apply Rlt_le, Rinv_0_lt_compat; lra|]. apply div_le_abs; [lra|]. rewrite Rabs_minus_sym. lra. }
  assert (I0 : 0 < / g) by (apply Rinv_0_lt_compat; lra). assert (Lg : 0 <= l * / g <= 17). { split; [apply Rmult_le_pos; lra|]. apply Rmult_le_reg_r with g; [lra|]. rewrite Rmult_assoc, Rinv_l by lra. lra. }
  assert (Ig : / 100000 <= / g). { apply Rinv_le; lra. }
  assert (T1 : Rabs (n - val z / val m) <= 3 * eps * / g). { assert (T' : tn <= eps * / 100000) by (apply Rle_trans with (1 := T0); clear; lra). unfold Rdiv in B3. assert (eps * / 100000 <= eps * / g) by (apply Rmult_le_compat_l; [lra|exact Ig]). unfold Rdiv in *. lra. }
  assert (T2 : Rabs (val z / val m - val z / g) <= / 2 * u * / g). { replace (val z / val m - val z / g) with (val z * (/ val m - / g)) by (unfold Rdiv; ring). rewrite Rabs_mult. apply Rle_trans with (1.01 * (/ 3 * u * / g)); [apply Rmult_le_compat; try apply Rabs_pos; assumption|lra]. }
  assert (T3 : Rabs (n - val z / g) <= u * / g). { clear - T1 T2 I0. set (v := / g) in *. set (v1 := val z / val m) in *. set (v2 := val z / g) in *. clearbody v v1 v2. absl. apply Rabs_le. lra. }
  replace (n * l - W / g) with ((n - val z / g) * l + (val z - W / l) * (l * / g)) by (field; lra).
  apply Rle_trans with (1 := Rabs_triang _ _). rewrite (Rabs_mult (n - val z / g)), (Rabs_mult (val z - W / l)), (Rabs_pos_eq l), (Rabs_pos_eq (l * / g)) by lra.
  assert (Rabs (n - val z / g) * l <= u * / g * l) by (apply Rmult_le_compat_r; lra). assert (Rabs (val z - W / l) * (l * / g) <= 5 * u * (l * / g)) by (apply Rmult_le_compat_r; lra). lra.
Qed.
Notation eta := (o_atan2 O (SFdiv 53 1024 y1 rb) (SFdiv 53 1024 x1 ra)).
Lemma angle_near : finite64 eta /\ Rabs (val eta) <= PI + u /\ Rabs (cos (val eta) - P1) <= 26000 * u /\ Rabs (sin (val eta) - P2) <= 26000 * u.
Proof using All.
  destruct L_bounds as (L1 & L2 & L3). destruct one_near as (F1 & F2 & N1 & N2).
  assert (BU : Rabs U <= L) by (rewrite L_rot; apply abs_le_norm). assert (BV : Rabs V <= L) by (rewrite L_rot; apply abs_le_norm2).
  destruct (quot_near x1 ra al U F1 Fra Hal L2 L1 Hra N1 BU) as [Q1 Q2]. destruct (quot_near y1 rb be V F2 Frb Hbe L3 L1 ltac:(rewrite Hrb; replace (be - be) with 0 by ring; rewrite Rabs_R0; lra) N2 BV) as [R1 R2].
  set (x := SFdiv 53 1024 x1 ra) in *. set (y := SFdiv 53 1024 y1 rb) in *. set (l := L) in *. pose proof norm_one as HN.
  assert (D1 : Rabs (val x * l - P1) <= 8610 * u). { set (v := val x * l) in *. set (v1 := U / al) in *. clear - Q2 HU. clearbody v v1. absl. apply Rabs_le. lra. }
  assert (D2 : Rabs (val y * l - P2) <= 8610 * u). { set (v := val y * l) in *. set (v1 := V / be) in *. clear - R2 HV. clearbody v v1. absl. apply Rabs_le. lra. }
  pose proof (norm_near (val x * l) (val y * l) P1 P2) as HM. assert (Es : sqrt (val x * l * (val x * l) + val y * l * (val y * l)) = sqrt (val x * val x + val y * val y) * l).
  { replace (val x * l * (val x * l) + val y * l * (val y * l)) with ((val x * val x + val y * val y) * (l * l)) by ring. rewrite sqrt_mult_alt by (pose proof (Rle_0_sqr (val x)); pose proof (Rle_0_sqr (val y)); unfold Rsqr in *; lra). rewrite sqrt_square by lra. reflexivity. }
  rewrite Es in HM. set (h := sqrt (val x * val x + val y * val y)) in *. set (pp := sqrt (P1 * P1 + P2 * P2)) in *.
  assert (HL : Rabs (h * l - 1) <= 17221 * u). { set (v := h * l) in *. set (e1 := Rabs (val x * l - P1)) in *. set (e2 := Rabs (val y * l - P2)) in *. clear - HM HN D1 D2. clearbody v e1 e2 pp. absl. apply Rabs_le. lra. }
  assert (Hh : 0 < h * l). { clear - HL. set (v := h * l) in *. clearbody v. absl. lra. } assert (l0 : 0 < l) by lra. assert (h0 : 0 < h). { destruct (Rle_or_lt h 0) as [K|K]; [|exact K]. exfalso. assert (h * l <= 0 * l) by (apply Rmult_le_compat_r; lra). lra. }
  assert (Hz : val y <> 0 \/ val x <> 0).
  { destruct (Req_dec (val x) 0) as [E1|E1]; [|right; exact E1]. left. intros E2. unfold h in h0. rewrite E1, E2, Rmult_0_l, Rplus_0_l, sqrt_0 in h0. lra. }
  destruct (angle_atan2 O HO y x R1 Q1 Hz) as (T1 & T2 & T3 & T4). change (value64 x) with (val x) in *. change (value64 y) with (val y) in *. change (value64 (o_atan2 O y x)) with (val (o_atan2 O y x)) in *. fold h in T3, T4. rewrite u44 in *.
  split; [exact T1|]. split; [exact T2|].
  assert (K : forall z P t, Rabs z <= h -> Rabs (z * l - P) <= 8610 * u -> Rabs (t - z / h) <= u -> Rabs (t - P) <= 26000 * u).
  { intros z P t H1 H2 H3. assert (Q : Rabs (z / h) <= 1) by (apply div_le_abs; lra). pose proof (abs_cs (z / h) (1 - h * l) Q) as H4. rewrite (Rabs_minus_sym 1) in H4. assert (H4' : Rabs (z / h * (1 - h * l)) <= 17221 * u) by lra.
    replace (z / h * (1 - h * l)) with (z / h - z * l) in H4' by (field; lra). clear - H2 H3 H4'. set (v := z / h) in *. set (v2 := z * l) in *. clearbody v v2. absl. apply Rabs_le. lra. }
  split; [apply (K (val x))|apply (K (val y))]; try assumption; [apply abs_le_norm|apply abs_le_norm2].
Qed.
End Angle.

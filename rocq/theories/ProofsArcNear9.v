(** * ProofsArcNear9: one call for an arc, in binary64 *)
From Coq Require Import ZArith Lia Reals Lra Psatz List Floats.SpecFloat.
From Flocq Require Import Core.Core Relative IEEE754.BinarySingleNaN.
From Verif Require Import F64 SpecDoc SpecTree SpecLift SpecEnd ProofsLift3 RealEnv SpecArc ProofsArc ProofsArc2 ProofsAngle ProofsSize3 ProofsArc64 ProofsDec ProofsScale ProofsClose ProofsF64 SpecClose SpecRead SpecArcNear ProofsCircle ProofsArcNear ProofsArcNear2 ProofsArcNear3 ProofsArcNear4 ProofsArcNear5 ProofsArcNear6 ProofsArcNear7 ProofsArcNear8 ProofsFlocq.
From Verif Require ProofsTrace.
Import ListNotations.
Local Open Scope R_scope.
Local Existing Instance ProofsFlocq.Hprec.
Local Existing Instance ProofsFlocq.Hmax.
Local Notation pow := (bpow radix2).
Local Notation u := (/ 17592186044416).
Local Notation eps := (/ 9007199254740992).
Local Notation fz := (S754_zero false).

(** ** The span *)
Lemma span_near O (t e : sf) (P1 P2 Q1 Q2 : R) (big large sweep : bool) :
  finite64 t -> finite64 e -> Rabs (val t) <= PI + u -> Rabs (val e) <= PI + u ->
  Rabs (cos (val t) - P1) <= 26000 * u -> Rabs (sin (val t) - P2) <= 26000 * u -> Rabs (cos (val e) - Q1) <= 26000 * u -> Rabs (sin (val e) - Q2) <= 26000 * u ->
  / 1700000 <= sqrt ((Q1 - P1) * (Q1 - P1) + (Q2 - P2) * (Q2 - P2)) ->
  (if agree (negb sweep) (negb large) then P1 * Q2 - P2 * Q1 <= 0 else 0 <= P1 * Q2 - P2 * Q1) ->
  let d := adjustEta (E := F64 O) (SFsub 53 1024 e t) big large sweep in
  finite64 d /\ Rabs (val d) <= 2 * PI /\ (if sweep then 0 < val d < 2 * PI else - (2 * PI) < val d < 0)
  /\ (if large then PI - / 2 ^ 20 <= Rabs (val d) else Rabs (val d) <= PI + / 2 ^ 20)
  /\ Rabs (cos (val t + val d) - Q1) <= 26100 * u /\ Rabs (sin (val t + val d) - Q2) <= 26100 * u.
Proof.
  intros Ft Fe Bt Be C1 C2 C3 C4 HC HS d. pose proof pi_bounds as HP.
  set (x := val t) in *. set (y := val e) in *.
  assert (B0 : Rabs (y - x) <= 2 * PI + 2 * u) by (clear - Bt Be; absl; apply Rabs_le; lra).
  destruct (dif64 e t 20 Fe Ft) as [F0 E0]; [fold x y; lra|lra|]. fold x y in E0.
  assert (AP : forall j, / 1750000 <= Rabs (y - x - 2 * PI * IZR j)).
  { apply apart_angles. apply Rle_ge. pose proof (norm_near (Q1 - P1) (Q2 - P2) (cos y - cos x) (sin y - sin x)) as W.
    assert (W1 : Rabs (Q1 - P1 - (cos y - cos x)) <= 52000 * u). { clear - C1 C3. set (z := cos y) in *. set (w := cos x) in *. clearbody z w. absl. apply Rabs_le. lra. }
    assert (W2 : Rabs (Q2 - P2 - (sin y - sin x)) <= 52000 * u). { clear - C2 C4. set (z := sin y) in *. set (w := sin x) in *. clearbody z w. absl. apply Rabs_le. lra. }
    set (z := sqrt ((Q1 - P1) * _ + _)) in *. set (w := sqrt _) in *. clearbody z w. apply Rabs_le_inv in W. lra. }
  assert (R0 : / 1800000 <= Rabs (val (SFsub 53 1024 e t)) <= 2 * PI - / 1800000).
  { pose proof (AP 0%Z) as A0. pose proof (AP 1%Z) as A1. pose proof (AP (-1)%Z) as A2. rewrite Rmult_0_r, Rminus_0_r in A0. rewrite Rmult_1_r in A1. replace (y - x - 2 * PI * -1) with (y - x + 2 * PI) in A2 by ring.
    set (w := y - x) in *. set (z := val (SFsub 53 1024 e t)) in *. clearbody w z. clear - A0 A1 A2 B0 E0 HP.
    apply Rabs_le_inv in E0, B0. unfold Rabs in *. destruct (Rcase_abs w), (Rcase_abs (w - 2 * PI)), (Rcase_abs (w + 2 * PI)), (Rcase_abs z); lra. }
  destruct (adjust_near O _ big large sweep F0 R0) as (Fd & Rg & j & J). fold d in Fd, Rg, J. split; [exact Fd|]. 
  set (z := val d) in *. set (w := val (SFsub 53 1024 e t)) in *. clearbody z w.
  assert (JJ : Rabs (z - (y - x + 2 * PI * IZR j)) <= 2 * u). { replace (z - (y - x + 2 * PI * IZR j)) with ((z - (w + 2 * PI * IZR j)) + (w - (y - x))) by ring. apply Rle_trans with (1 := Rabs_triang _ _). lra. }
  assert (SD : Rabs (sin z - (P1 * Q2 - P2 * Q1)) <= / 50000000).
  { pose proof (sin_lip z (y - x + 2 * PI * IZR j)) as L. destruct (sin_turns (y - x) j) as [L2 _]. rewrite L2, sin_minus in L.
    set (cy := cos y) in *. set (sy := sin y) in *. pose proof (COS_bound x) as Bc. pose proof (SIN_bound x) as Bs. set (cx := cos x) in *. set (sx := sin x) in *.
    pose proof (COS_bound y) as Bc'. pose proof (SIN_bound y) as Bs'. fold cy in Bc'. fold sy in Bs'.
    assert (G : forall a b a' b', Rabs (a - a') <= 26000 * u -> Rabs (b - b') <= 26000 * u -> -1 <= a <= 1 -> -1 <= b <= 1 -> Rabs (a * b - a' * b') <= 52600 * u).
    { clear. intros a b a' b' H1 H2 Ha Hb. replace (a * b - a' * b') with ((a - a') * b + a * (b - b') - (a - a') * (b - b')) by ring.
      assert (X1 : Rabs ((a - a') * b) <= 26000 * u * 1) by (rewrite Rabs_mult; apply Rmult_le_compat; try apply Rabs_pos; [exact H1|apply Rabs_le; lra]).
      assert (X2 : Rabs (a * (b - b')) <= 1 * (26000 * u)) by (rewrite Rabs_mult; apply Rmult_le_compat; try apply Rabs_pos; [apply Rabs_le; lra|exact H2]).
      assert (X3 : Rabs ((a - a') * (b - b')) <= 26000 * u * (26000 * u)) by (rewrite Rabs_mult; apply Rmult_le_compat; try apply Rabs_pos; assumption).
      set (t1 := (a - a') * b) in *. set (t2 := a * (b - b')) in *. set (t3 := (a - a') * (b - b')) in *. clearbody t1 t2 t3. absl. apply Rabs_le. lra. }
    pose proof (G cx sy P1 Q2 C1 C4 Bc Bs') as G1. pose proof (G sx cy P2 Q1 C2 C3 Bs Bc') as G2.
    set (m1 := P1 * Q2) in *. set (m2 := P2 * Q1) in *. rewrite (Rmult_comm sy cx), (Rmult_comm cy sx) in L. set (n1 := cx * sy) in *. set (n2 := sx * cy) in *. set (sz := sin z) in *. clearbody m1 m2 n1 n2 sz.
    assert (L' : Rabs (sz - (n1 - n2)) <= 2 * u) by lra. clear - L' G1 G2. absl. apply Rabs_le. lra. }
  split; [destruct sweep; apply Rabs_le; lra|]. split; [destruct sweep; lra|].
  assert (ED : x + z = (y + (z - (y - x + 2 * PI * IZR j))) + 2 * PI * IZR j) by ring. set (m := z - (y - x + 2 * PI * IZR j)) in *.
  destruct (sin_turns (y + m) j) as [T1 T2]. rewrite <- ED in T1, T2. rewrite T1, T2.
  split; [|split].
  - destruct sweep.
    + rewrite (Rabs_pos_eq z) by lra. destruct (arc_size z Rg) as [A1 A2]. replace (agree (negb true) (negb large)) with large in HS by (destruct large; reflexivity).
      apply Rabs_le_inv in SD. destruct large; [apply A1|apply A2]; lra.
    + rewrite (Rabs_left z) by lra. destruct (arc_size (- z)) as [A1 A2]; [lra|]. rewrite sin_neg in A1, A2. replace (agree (negb false) (negb large)) with (negb large) in HS by (destruct large; reflexivity).
      apply Rabs_le_inv in SD. destruct large; [apply A1|apply A2]; cbn [negb] in HS; lra.
  - pose proof (cos_lip (y + m) y) as L. replace (y + m - y) with m in L by ring. clearbody m. set (v := cos (y + m)) in *. set (v' := cos y) in *. clearbody v v'. assert (L' : Rabs (v - v') <= 2 * u) by lra. clear - L' C3. absl. apply Rabs_le. lra.
  - pose proof (sin_lip (y + m) y) as L. replace (y + m - y) with m in L by ring. clearbody m. set (v := sin (y + m)) in *. set (v' := sin y) in *. clearbody v v'. assert (L' : Rabs (v - v') <= 2 * u) by lra. clear - L' C4. absl. apply Rabs_le. lra.
Qed.
(** the step *)
Lemma step_near d n : finite64 d -> (1 <= n <= 18)%nat -> Rabs (val d) <= INR n * (PI / 7) ->
  ap 0 (2 ^ 48) (SFdiv 53 1024 d (sf_of_Z (Z.of_nat n))) (val d / INR n) /\ Rabs (val d / INR n) <= PI / 7.
Proof.
  intros [V Fi] Hn Hd. pose proof pi_bounds as HP. destruct (of_Z_val (Z.of_nat n)) as [Z1 Z2]; [lia|]. rewrite <- INR_IZR_INZ in Z2.
  assert (Hp : 1 <= INR n) by (apply (le_INR 1); lia).
  assert (B : Rabs (val d / INR n) <= PI / 7). { apply div_le_abs; [lra|]. lra. }
  split; [|exact B].
  destruct (div_round d (sf_of_Z (Z.of_nat n)) V (of_Z_valid _) Fi Z1) as [K1 K2]; [rewrite Z2; lra|rewrite Z2; apply big_ok; lra|].
  rewrite Z2 in K2. pose proof (rnd_rel' (val d / INR n)) as W. pose proof tn_small as [_ T0]. assert (T' : tn <= / 1000 * eps) by (apply Rle_trans with (1 := T0); clear; lra).
  set (x := val d / INR n) in *. rewrite <- K2 in W.
  assert (E48 : IZR (2 ^ 48) * u100 = 2 * eps). { rewrite pow_Z by lia. rewrite <- bpow_plus. cbn. lra. }
  assert (W' : Rabs (val (SFdiv 53 1024 d (sf_of_Z (Z.of_nat n))) - x) <= eps) by lra.
  split; [split; [apply div_valid; [exact V|apply of_Z_valid]|split; [exact K1|]]|split; [rewrite E48; lra|cbn; lra]].
  clear - W' B HP. set (y := val (SFdiv _ _ _ _)) in *. clearbody y. cbn. absl. apply Rabs_le. lra.
Qed.
(** ** The call *)
Lemma flag_val x : finite64 x -> (SFeqb x fz = true <-> val x = 0).
Proof.
  intros Fx. split; [intros H; destruct Fx as [V Fi]; exact (eqb_val x fz V eq_refl Fi I H)|].
  destruct Fx as [V Fi], x as [b|b| |b m e]; try contradiction; [reflexivity|]. intros H. apply eq_0_F2R in H. destruct b; discriminate.
Qed.
Lemma beside_ap x r : finite64 x -> Rabs (val x) <= 4096 -> Rabs (r - val x) <= / 1024 -> ap 21 (2 ^ 91) x r.
Proof.
  intros [V Fi] S H. assert (P : pow 21 = 2097152) by reflexivity. assert (E : IZR (2 ^ 91) * u100 = / 512) by (rewrite pow_Z by lia; rewrite <- bpow_plus; reflexivity).
  split; [split; [exact V|split; [exact Fi|]]|split].
  - rewrite P. apply Rle_trans with (1 := S). lra.
  - rewrite E, Rabs_minus_sym. apply Rle_trans with (1 := H). lra.
  - rewrite P. clear - S H. absl. apply Rabs_le. lra.
Qed.
Lemma segs_prefix {E : Env} (n : nat) : forall i sg rx ry (ex ey cx cy sT cT eta de al lx ly dx dy : F E) p r,
  ellSegs n i sg rx ry ex ey cx cy sT cT eta de al lx ly dx dy (p ++ r) = (p ++ fst (ellSegs n i sg rx ry ex ey cx cy sT cT eta de al lx ly dx dy r), snd (ellSegs n i sg rx ry ex ey cx cy sT cT eta de al lx ly dx dy r)).
Proof.
  induction n as [|n IH]; intros; cbn [ellSegs]; [reflexivity|].
  match goal with |- context [let (px, py) := ?e in _] => destruct e as [px py] end.
  match goal with |- context [let (dx, dy) := ?e in _] => destruct e as [dx' dy'] end.
  unfold pCube. rewrite <- app_assoc. apply IH.
Qed.
Section Call.
Context (O : Oracles) (HO : fair_angles O).
Notation E := (F64 O).
Lemma arc_call_near (s q : sf * sf) (rx ry deg fa fs : sf) (large sweep : bool) p : ordinary_arc s (rx, ry, deg, fa, fs) q ->
  (large = true <-> val fa <> 0) -> (sweep = true <-> val fs <> 0) ->
  exists o, arc_call (E := E) (fz, fz) s (rx, ry, deg, fa, fs) q p = Ret (p ++ o, q)
    /\ near_arc (val (fst s), val (snd s)) (val rx) (val ry) (val deg) large sweep (val (fst q), val (snd q)) o.
Proof using HO.
  destruct s as [sx sy], q as [ex ey]. cbn [fst snd ordinary_arc].
  intros ([Fsx Ssx] & [Fsy Ssy] & [Fex Sex] & [Fey Sey] & Hfar & [Frx Srx] & [Fry Sry] & Ha & Hb & [Fdeg Sdeg] & Ffa & Ffs) HL HS.
  replace (2 ^ 12) with 4096 in * by lra. replace (2 ^ 9) with 512 in Sdeg by lra.
  assert (NL : SFeqb fa fz = negb large). { destruct (flag_val fa Ffa) as [K1 K2], (SFeqb fa fz), large; cbn; try reflexivity; exfalso; [apply (proj1 HL eq_refl), K1; reflexivity|]. destruct (Req_dec (val fa) 0) as [Z|Z]; [specialize (K2 Z); discriminate|apply HL in Z; discriminate]. }
  assert (NS : SFeqb fs fz = negb sweep). { destruct (flag_val fs Ffs) as [K1 K2], (SFeqb fs fz), sweep; cbn; try reflexivity; exfalso; [apply (proj1 HS eq_refl), K1; reflexivity|]. destruct (Req_dec (val fs) 0) as [Z|Z]; [specialize (K2 Z); discriminate|apply HS in Z; discriminate]. }
  destruct (deg_near deg Fdeg Sdeg) as (Arot & Frot & Erot & Srot). cbv zeta in Arot, Frot, Erot, Srot.
  assert (Ha' : / 16 <= val rx <= 4096) by (split; [lra|apply Rabs_le_inv in Srx; lra]). assert (Hb' : / 16 <= val ry <= 4096) by (split; [lra|apply Rabs_le_inv in Sry; lra]).
  unfold arc_call. rewrite pi64_eq. change (fdiv E) with (SFdiv 53 1024). change (fmul E) with (SFmul 53 1024). change (fadd E) with (SFadd 53 1024). change (feqb E) with SFeqb. change (fnum E 180) with (sf_of_Z 180). change (fnum E 0) with fz. cbn [fst snd].
  rewrite NL, NS. set (rotX := SFdiv 53 1024 (SFmul 53 1024 deg pi64) (sf_of_Z 180)) in *. set (rot := degrees (val deg)) in *.
  destruct (ellipse_ok O HO rx ry rotX sx sy ex ey rot Frx Fry Frot Fsx Fsy Fex Fey Ha' Hb' ltac:(lra) ltac:(lra) Ssx Ssy Sex Sey Hfar Srot Erot (negb sweep) (negb large)) as (cx & cy & ra & rb & k & P1 & P2 & Q1 & Q2 & EQ & EF).
  match goal with |- context [let '(_, _) := ?x in _] => replace x with ((cx, cy), (ra, rb)) by (symmetry; exact EQ) end. clear EQ.
  destruct EF as [Fcx Fcy Fra Frb Bcx Bcy Bal Bbe Va Vb Hk Hmin PO QO S1 S2 S3 S4 HC HSD].
  destruct (plus_zero cx Fcx) as [Fcx' Ecx]. destruct (plus_zero cy Fcy) as [Fcy' Ecy]. destruct (plus_zero sx Fsx) as [Fsx' Esx]. destruct (plus_zero sy Fsy) as [Fsy' Esy].
  set (cx' := SFadd 53 1024 cx fz) in *. set (cy' := SFadd 53 1024 cy fz) in *. set (sx' := SFadd 53 1024 sx fz) in *. set (sy' := SFadd 53 1024 sy fz) in *. clearbody cx' cy' sx' sy'.
  rewrite <- Ecx, <- Ecy in *. rewrite <- Esx, <- Esy in *. clear Fcx Fcy Fsx Fsy Ecx Ecy Esx Esy cx cy sx sy. rename cx' into cx, cy' into cy, sx' into sx, sy' into sy.
  unfold addArc. cbn [idx nth_error obind]. rewrite pi64_eq. change (fdiv E) with (SFdiv 53 1024). change (fmul E) with (SFmul 53 1024). change (fadd E) with (SFadd 53 1024). change (fsub E) with (SFsub 53 1024). change (feqb E) with SFeqb. change (fnum E 180) with (sf_of_Z 180). change (fnum E 0) with fz. 
  change (fatan2 E) with (o_atan2 O). change (fsin E) with (o_sin O). change (fcos E) with (o_cos O). change (ftan E) with (o_tan O). change (fsqrt E) with (SFsqrt 53 1024). change (fabs E) with SFabs. change (f_of_Z E) with sf_of_Z. change (fltb E) with SFltb.
  fold rotX. rewrite NL, NS, !Bool.negb_involutive. cbv zeta.
  assert (K0 : 0 <= k) by lra.
  assert (Hab' : k * val rx <= 16 * (k * val ry)) by (replace (16 * (k * val ry)) with (k * (16 * val ry)) by ring; apply Rmult_le_compat_l; lra). assert (Hba' : k * val ry <= 16 * (k * val rx)) by (replace (16 * (k * val rx)) with (k * (16 * val rx)) by ring; apply Rmult_le_compat_l; lra).
  assert (Vcx : Rabs (val cx) <= 1000000000) by lra. assert (Vcy : Rabs (val cy) <= 1000000000) by lra.
  pose proof (angle_near O HO sx sy cx cy ra rb rotX (k * val rx) (k * val ry) rot P1 P2 Fsx' Fsy' Fcx' Fcy' Fra Frb Frot Ssx Ssy Vcx Vcy Bal Bbe Hab' Hba' Va Vb Srot Erot S1 S2 PO) as (Ft & Bt & C1 & C2).
  pose proof (angle_near O HO ex ey cx cy ra rb rotX (k * val rx) (k * val ry) rot Q1 Q2 Fex Fey Fcx' Fcy' Fra Frb Frot Sex Sey Vcx Vcy Bal Bbe Hab' Hba' Va Vb Srot Erot S3 S4 QO) as (Fe & Be & C3 & C4).
  set (t := o_atan2 O (SFdiv 53 1024 (o_sin O (SFsub 53 1024 (o_atan2 O (SFsub 53 1024 sy cy) _) _)) _) _) in *.
  set (e := o_atan2 O (SFdiv 53 1024 (o_sin O (SFsub 53 1024 (o_atan2 O (SFsub 53 1024 ey cy) _) _)) _) _) in *. clearbody t e.
  match goal with |- context [adjustEta _ ?b _ _] => set (big := b); clearbody big end.
  destruct (span_near O t e P1 P2 Q1 Q2 big large sweep Ft Fe Bt Be C1 C2 C3 C4 HC HSD) as (Fd & Bd & Rg & Sz & T1 & T2).
  set (d := adjustEta _ _ _ _) in *. clearbody d. clear big.
  destruct (count_near O d Fd Bd) as (n & EN & Hn & Hdn). change (fdiv E) with (SFdiv 53 1024) in EN. change (fabs E) with SFabs in EN. rewrite EN. rewrite Nat2Z.id.
  destruct (step_near d n Fd Hn Hdn) as [Ast Bst]. set (step := SFdiv 53 1024 d (sf_of_Z (Z.of_nat n))) in *.
  match goal with |- context [ellSegs _ _ _ _ _ _ _ _ _ _ _ _ step ?h] => change h with (handle4 O step) end.
  assert (AsT : ap 1 (2 ^ 58) (o_sin O rotX) (sin rot)) by (refine (ap_le _ _ _ _ _ _ _ _ (ap_sin4 O HO _ _ _ Arot)); [lia|zc]).
  assert (AcT : ap 1 (2 ^ 58) (o_cos O rotX) (cos rot)) by (refine (ap_le _ _ _ _ _ _ _ _ (ap_cos4 O HO _ _ _ Arot)); [lia|zc]).
  assert (Acx : ap 18 0 cx (val cx)) by (apply ap_exact; [exact Fcx'|]; change (pow 18) with 262144; lra).
  assert (Acy : ap 18 0 cy (val cy)) by (apply ap_exact; [exact Fcy'|]; change (pow 18) with 262144; lra).
  assert (Arb : ap 17 (2 ^ 72) rb (k * val ry)). { rewrite <- Vb. apply (ap_le 17 17 0); [lia|lia|]. apply ap_exact; [exact Frb|]. rewrite Vb, Rabs_pos_eq by lra. change (pow 17) with 131072. lra. }
  assert (Ara : ap 17 (2 ^ 72) ra (k * val rx)).
  { assert (E72 : IZR (2 ^ 72) * u100 = / 268435456) by (rewrite pow_Z by lia; rewrite <- bpow_plus; reflexivity). assert (W : Rabs (val ra - k * val rx) <= / 500000000) by (apply Rle_trans with (1 := Va); lra).
    destruct Fra as [V Fi]. split; [split; [exact V|split; [exact Fi|]]|split; [rewrite E72; lra|rewrite Rabs_pos_eq by lra; change (pow 17) with 131072; lra]].
    change (pow 17) with 131072. clear - W Bal. set (y := val ra) in *. set (z := k * val rx) in *. clearbody y z. absl. apply Rabs_le. lra. }
  pose proof pi_bounds as HP.
  assert (At : ap 3 0 t (val t)) by (apply ap_exact; [exact Ft|]; change (pow 3) with 8; lra).
  assert (Hlast : Rabs (val t) + 18 * Rabs (val d / INR n) <= 15) by lra.
  assert (ER : k * val ry / (val ry / val rx) = k * val rx) by (field; split; lra).
  assert (RB : / 16 <= val ry / val rx <= 16) by (apply r_bounds; lra).
  assert (Hcs : cos rot * cos rot + sin rot * sin rot = 1) by (pose proof (sin2_cos2 rot) as W; unfold Rsqr in W; lra).
  assert (Bc : Rabs (cos rot) <= 1) by (pose proof (COS_bound rot); apply Rabs_le; lra). assert (Bs : Rabs (sin rot) <= 1) by (pose proof (SIN_bound rot); apply Rabs_le; lra).
  assert (Hal : k * val ry <= val ry / val rx * 100000). { rewrite <- ER in Bal. destruct Bal as [_ Bal]. apply Rmult_le_compat_l with (r := val ry / val rx) in Bal; [|lra]. replace (val ry / val rx * (k * val ry / (val ry / val rx))) with (k * val ry) in Bal by (field; split; lra). exact Bal. }
  assert (BS : beside (/ 1024) (/ 1024) (ell_at (val cx) (val cy) (k * val rx) (k * val ry) rot (val t)) (val sx, val sy)).
  { destruct (at_near (k * val ry) (val ry / val rx) (cos rot) (sin rot) (val cx) (val cy) Hcs Bc Bs RB Bbe (val sx) (val sy) (val t) _ _ P1 P2 eq_refl eq_refl) as [W1 W2]; try assumption; try (rewrite ER; assumption); try lra. rewrite ER in W1, W2. split; assumption. }
  assert (BE : beside (/ 1024) (/ 1024) (ell_at (val cx) (val cy) (k * val rx) (k * val ry) rot (val t + val d)) (val ex, val ey)).
  { destruct (at_near (k * val ry) (val ry / val rx) (cos rot) (sin rot) (val cx) (val cy) Hcs Bc Bs RB Bbe (val ex) (val ey) (val t + val d) _ _ Q1 Q2 eq_refl eq_refl) as [W1 W2]; try assumption; try (rewrite ER; assumption); try lra. rewrite ER in W1, W2. split; assumption. }
  assert (Hp : 1 <= INR n) by (apply (le_INR 1); lia).
  assert (En : val t + INR n * (val d / INR n) = val t + val d) by (field; lra).
  assert (E0 : val t + INR 0 * (val d / INR n) = val t) by (cbn [INR]; ring).
  assert (A4 : ap 4 (2 ^ 55) t (val t)) by (apply (ap_le 3 4 0); [lia|lia|exact At]).
  destruct (prime4_ap O HO ra rb (o_sin O rotX) (o_cos O rotX) (k * val rx) (k * val ry) rot Ara Arb AsT AcT t (val t) A4) as [D1 D2].
  destruct (ellipsePrime (E := E) ra rb (o_sin O rotX) (o_cos O rotX) t) as [vx vy]. cbn [fst snd] in D1, D2.
  pose proof (segs4_near O HO step (val d / INR n) Ast cx cy ra rb (o_sin O rotX) (o_cos O rotX) (val cx) (val cy) (k * val rx) (k * val ry) rot Acx Acy Ara Arb AsT AcT t (val t) At n ltac:(lia) Hlast ex ey) as SG.
  rewrite En in SG. destruct BS as [BS1 BS2], BE as [BE1 BE2].
  specialize (SG (beside_ap _ _ Fex Sex BE1) (beside_ap _ _ Fey Sey BE2) n 0%nat sx sy vx vy). rewrite E0 in SG.
  specialize (SG [] [] ltac:(lia) (beside_ap _ _ Fsx' Ssx BS1) (beside_ap _ _ Fsy' Ssy BS2) D1 D2 (Forall2_nil _)).
  change (Z.of_nat 0 + 1)%Z with 1%Z in SG. cbn [app] in SG.
  match goal with |- context [ellSegs n 1 _ _ _ _ _ _ _ _ _ _ _ ?hd _ _ _ _ p] => 
    destruct (ellSegs_arc (E := E) n 1 (Z.of_nat n) ra rb ex ey cx cy (o_sin O rotX) (o_cos O rotX) t step hd sx sy vx vy []) as (cs & H1 & _); [right; lia|] end.
  rewrite H1 in SG. cbn [fst app] in SG. exists cs. split.
  { pose proof (segs_prefix (E := E) n 1 (Z.of_nat n) ra rb ex ey cx cy (o_sin O rotX) (o_cos O rotX) t step (handle4 O step) sx sy vx vy p []) as H2. rewrite app_nil_r in H2.
    rewrite H1 in H2. cbn [fst snd app] in H2. destruct n as [|n]; [lia|]. f_equal. exact H2. }
  exists k, (val cx), (val cy), (val t), (val d), n. fold rot.
  split; [exact Hk|]. split; [exact Hmin|]. split; [split; assumption|]. split; [split; assumption|]. split; [exact Rg|]. split; [exact Sz|]. split; [exact Hdn|]. split; [exact SG|].
  intros f a [A1 A2]. cbn [fst snd] in A1, A2. replace (/ 32 + k * (val rx + val ry) / 800000) with (ProofsTrace.loose (k * val rx) (k * val ry)) by (unfold ProofsTrace.loose; field).
  assert (B0 : Rabs (val cx) <= 250000) by exact Bcx. assert (B1 : Rabs (val cy) <= 250000) by exact Bcy.
  apply (ProofsTrace.arc_drawn (val cx) (val cy) (k * val rx) (k * val ry) rot B0 B1 ltac:(lra) ltac:(lra) (val t) (val d) n cs f a ltac:(lia) Hdn SG).
  clear - A1 A2 BS1 BS2. cbn [fst snd] in BS1, BS2. apply Rabs_le_inv in A1, A2, BS1, BS2. split; apply Rabs_le; lra.
Qed.
End Call.

(** ** The path data and the documents *)
Section Arcs.
Context (O : Oracles) (HO : fair_angles O).
Notation E := (F64 O).
Lemma arc_call_is_near (s : sf * sf) (a : sf * sf * sf * sf * sf) (q : sf * sf) p : exists o e, arc_call (E := E) (fz, fz) s a q p = Ret (p ++ o, e) /\ arc_near O s a q o e.
Proof using HO.
  destruct (arc_call_gen (E := E) (fz, fz) s a q p) as (o & e & H1 & H2). exists o, e. split; [exact H1|]. destruct a as [[[[rx ry] deg] fa] fs]. intros Ho.
  assert (N : forall large sweep, (large = true <-> val fa <> 0) -> (sweep = true <-> val fs <> 0) -> e = q /\ near_arc (val (fst s), val (snd s)) (val rx) (val ry) (val deg) large sweep (val (fst q), val (snd q)) o).
  { intros large sweep HL HS. destruct (arc_call_near O HO s q rx ry deg fa fs large sweep p Ho HL HS) as (o' & K1 & K2).
    assert (K3 : Ret (A := path * (F E * F E)) (p ++ o, e) = Ret (p ++ o', q)) by exact (eq_trans (eq_sym H1) K1). injection K3 as K3 K4. apply app_inv_head in K3. subst o'. split; assumption. }
  assert (FL : forall x : R, exists l : bool, l = true <-> x <> 0).
  { intros x. destruct (Req_dec x 0) as [Z|Z]; [exists false; split; [discriminate|intros W; contradiction]|exists true; split; auto]. }
  destruct (FL (val fa)) as [l0 L0], (FL (val fs)) as [s0 S0]. destruct (N l0 s0 L0 S0) as [He (k & cx & cy & t & d & n & _ & _ & _ & _ & Rg & _ & Hn & HF & _)].
  split; [exact He|]. split; [|intros large sweep HL HS; exact (proj2 (N large sweep HL HS))].
  destruct H2 as [[H2 _]|[-> _]]; [exact H2|]. exfalso. assert (n = 0%nat) as ->.
  { destruct n; [reflexivity|]. unfold pieces in HF. cbn [seq map] in HF. inversion HF. }
  cbn [INR] in Hn. rewrite Rmult_0_l in Hn. apply Rabs_le_inv in Hn. destruct s0; lra.
Qed.
Theorem arcs_near64 lead body (ks : list (step E)) (c : pcur E) : pc_curX c = fz -> pc_curY c = fz ->
  seps lead = true -> spells_steps E body ks -> steps_close E false ks = true ->
  exists c' o s, compilePath (lead ++ body) c = (c', Ret tt)
    /\ SpecArc.drawn E (arc_near O) (fz, fz) (pen0 E) ks o s
    /\ pc_path c' = o /\ (pc_placeX c', pc_placeY c') = at_ s /\ pc_log c' = pc_log c.
Proof using HO.
  intros Hx Hy. assert (Ho : ((fz, fz) : sf * sf) = (pc_curX c, pc_curY c)) by (rewrite Hx, Hy; reflexivity). rewrite Ho.
  apply (compilePath_steps (E := E) (F64_add_comm O) (arc_near O)). intros s a q p. unfold offc. rewrite <- Ho. apply arc_call_is_near.
Qed.
Theorem arc_figure_near mode m vb attrs p lead body ks : alone E mode m vb (fz, fz) "path" attrs p -> attr_once "d" attrs (lead ++ body) ->
  seps lead = true -> spells_steps E body ks -> steps_close E false ks = true ->
  exists s, SpecArc.drawn E (arc_near O) (fz, fz) (pen0 E) ks p s.
Proof using HO.
  intros Ha Hd H1 H2 H3. revert Ha Hd. apply steps_figure. intros c Hc. assert (Hx : pc_curX c = fz) by congruence. assert (Hy : pc_curY c = fz) by congruence.
  destruct (arcs_near64 lead body ks c Hx Hy H1 H2 H3) as (c' & o & s & A & B & C & _). eauto 8.
Qed.
End Arcs.

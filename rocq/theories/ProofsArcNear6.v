(** * ProofsArcNear6: the cubic curves of an arc in binary64 *)
From Coq Require Import ZArith Lia Reals Lra Psatz List Floats.SpecFloat.
From Flocq Require Import Core.Core Relative IEEE754.BinarySingleNaN.
From Verif Require Import F64 RealEnv SpecArc ProofsArc ProofsArc2 ProofsAngle ProofsSize3 ProofsArc64 ProofsDec ProofsScale ProofsClose ProofsF64 SpecClose SpecRead SpecArcNear ProofsCircle ProofsFlocq.
Import ListNotations.
Local Open Scope R_scope.
Local Existing Instance ProofsFlocq.Hprec.
Local Existing Instance ProofsFlocq.Hmax.
Local Notation pow := (bpow radix2).

Lemma u56 : / 2 ^ 44 = IZR (2 ^ 56) * u100.
Proof. rewrite pow_Z by lia. rewrite <- bpow_plus. cbn. lra. Qed.
Section Segs.
Context (O : Oracles) (HO : fair_angles O).
Notation E := (F64 O).
Lemma ap_sin4 e x r : ap 4 e x r -> ap 1 (e + 2 ^ 56) (o_sin O x) (sin r).
Proof using HO.
  intros ((V & Fi & B) & H & K). change (pow 4) with 16 in B. destruct (angle_sin O HO x (conj V Fi) B) as [[V1 F1] H1].
  pose proof (SIN_bound (val x)). pose proof (SIN_bound r). split; [split; [exact V1|split; [exact F1|]]|split].
  - change (pow 1) with 2. apply Rabs_le_inv in H1. apply Rabs_le. lra.
  - rewrite u56 in H1. rewrite plus_IZR, Rmult_plus_distr_r. replace (val (o_sin O x) - sin r) with ((val (o_sin O x) - sin (val x)) + (sin (val x) - sin r)) by ring.
    pose proof (Rabs_triang (val (o_sin O x) - sin (val x)) (sin (val x) - sin r)). pose proof (sin_lip (val x) r). lra.
  - change (pow 1) with 2. apply Rabs_le. lra.
Qed.
Lemma ap_cos4 e x r : ap 4 e x r -> ap 1 (e + 2 ^ 56) (o_cos O x) (cos r).
Proof using HO.
  intros ((V & Fi & B) & H & K). change (pow 4) with 16 in B. destruct (angle_cos O HO x (conj V Fi) B) as [[V1 F1] H1].
  pose proof (COS_bound (val x)). pose proof (COS_bound r). split; [split; [exact V1|split; [exact F1|]]|split].
  - change (pow 1) with 2. apply Rabs_le_inv in H1. apply Rabs_le. lra.
  - rewrite u56 in H1. rewrite plus_IZR, Rmult_plus_distr_r. replace (val (o_cos O x) - cos r) with ((val (o_cos O x) - cos (val x)) + (cos (val x) - cos r)) by ring.
    pose proof (Rabs_triang (val (o_cos O x) - cos (val x)) (cos (val x) - cos r)). pose proof (cos_lip (val x) r). lra.
  - change (pow 1) with 2. apply Rabs_le. lra.
Qed.
Lemma ap_tan4 e x r : ap 0 e x r -> ap 2 (4 * e + 2 ^ 56) (o_tan O x) (tan r).
Proof using HO.
  intros ((V & Fi & B) & H & K). change (pow 0) with 1 in B, K. destruct (angle_tan O HO x (conj V Fi) B) as [[V1 F1] H1].
  pose proof (tan_two _ B) as T1. pose proof (tan_two _ K) as T2. split; [split; [exact V1|split; [exact F1|]]|split].
  - change (pow 2) with 4. apply Rabs_le_inv in H1, T1. apply Rabs_le. lra.
  - rewrite u56 in H1. rewrite plus_IZR, mult_IZR, Rmult_plus_distr_r. replace (val (o_tan O x) - tan r) with ((val (o_tan O x) - tan (val x)) + (tan (val x) - tan r)) by ring.
    pose proof (Rabs_triang (val (o_tan O x) - tan (val x)) (tan (val x) - tan r)). pose proof (tan_lip (val x) r B K). lra.
  - change (pow 2) with 4. lra.
Qed.
Context (step : sf) (step_R : R) (Hstep : ap 0 (2 ^ 48) step step_R).
Definition handle4 : sf :=
  let t := o_tan O (SFdiv 53 1024 step (fnum E 2)) in
  SFdiv 53 1024 (SFmul 53 1024 (o_sin O step) (SFsub 53 1024 (SFsqrt 53 1024 (SFadd 53 1024 (fnum E 4) (SFmul 53 1024 (SFmul 53 1024 (fnum E 3) t) t))) (fnum E 1))) (fnum E 3).
Lemma handle4_ap : ap 1 (2 ^ 70) handle4 (handle step_R).
Proof using HO Hstep.
  unfold handle4, handle. destruct (num_val O 2) as [N1 N2]; [lia|].
  pose proof (ap_half 0 _ _ _ _ ltac:(lia) N1 N2 Hstep) as H1. apply (ap_le _ 0 _ (2 ^ 50)) in H1; [|lia|zc].
  pose proof (ap_tan4 _ _ _ H1) as Ht. set (t := o_tan O _) in *. set (r := tan _) in *. apply (ap_le _ 2 _ (2 ^ 57)) in Ht; [|lia|zc].
  assert (A3 : ap 2 0 (fnum E 3) 3) by (apply ap_num; [lia|cbn; lra]).
  assert (A4 : ap 6 0 (fnum E 4) 4) by (apply ap_num; [lia|cbn; lra]).
  assert (A1 : ap 7 0 (fnum E 1) 1) by (apply ap_num; [lia|cbn; lra]).
  pose proof (ap_mul 4 2 _ _ _ _ _ _ ltac:(lia) ltac:(lia) ltac:(lia) (ap_mul 2 2 _ _ _ _ _ _ ltac:(lia) ltac:(lia) ltac:(lia) A3 Ht) Ht) as H2.
  pose proof (ap_add 6 _ _ _ _ _ _ ltac:(lia) A4 H2) as H3. rewrite Rmult_assoc in H3. apply (ap_le _ 7 _ (2 ^ 65)) in H3; [|lia|zc].
  assert (Hr : 4 <= 4 + 3 * (r * r)) by nra.
  assert (Hx : 1 <= val (SFadd 53 1024 (fnum E 4) (SFmul 53 1024 (SFmul 53 1024 (fnum E 3) t) t))).
  { destruct H3 as (_ & H3 & _). apply Rabs_le_inv in H3. pose proof (small60 (2 ^ 65) ltac:(lia)). lra. }
  assert (Hr1 : 1 <= 4 + 3 * (r * r)) by lra. pose proof (ap_sqrt 7 _ _ _ ltac:(lia) Hr1 Hx H3) as H4. pose proof (ap_sub 7 _ _ _ _ _ _ ltac:(lia) H4 A1) as H5.
  assert (Hs : ap 4 (2 ^ 48) step step_R) by (revert Hstep; apply ap_le; lia). apply ap_sin4 in Hs.
  pose proof (ap_mul 1 8 _ _ _ _ _ _ ltac:(lia) ltac:(lia) ltac:(lia) Hs H5) as H6. destruct (num_val O 3) as [M1 M2]; [lia|].
  apply (ap_le _ 9 _ (2 ^ 70)) in H6; [|lia|zc].
  pose proof (ap_over 9 8 (2 ^ 70) (2 ^ 69) _ _ (fnum E 3) 3 ltac:(lia) M1 M2 ltac:(lra) ltac:(change (pow 9) with 512; change (pow 8) with 256; lra) ltac:(rewrite <- mult_IZR; apply IZR_le; zc) H6) as H7.
  assert (H8 : ap 1 (2 ^ 69 + 2 ^ (8 + 47)) handle4 (handle step_R)).
  { apply (ap_close 8 _ 0); [lia|exact H7|zc|]. unfold handle. fold r. change (pow 0) with 1.
    assert (Hr2 : Rabs r <= 2). { apply tan_two. destruct H1 as (_ & _ & H1). exact H1. } apply Rabs_le_inv in Hr2.
    assert (Hq : sqrt (4 + 3 * (r * r)) <= 4). { assert (r * r <= 4) by nra. apply Rle_trans with (sqrt (4 * 4)); [apply sqrt_le_1_alt; lra|rewrite sqrt_square; lra]. }
    assert (Hq1 : 1 <= sqrt (4 + 3 * (r * r))) by (rewrite <- sqrt_1 at 1; apply sqrt_le_1_alt; lra). pose proof (SIN_bound step_R). set (q := sqrt _) in *. set (a := sin _) in *.
    assert (Hz : Rabs (a * (q - 1)) <= 1 * 3) by (rewrite Rabs_mult; apply Rmult_le_compat; try apply Rabs_pos; apply Rabs_le; lra).
    apply Rabs_le_inv in Hz. apply Rabs_le. lra. }
  revert H8. unfold handle4, handle. apply ap_le; [lia|zc].
Qed.

(** ** The points of the ellipse *)
Context (cx cy rx ry sT cT : sf) (cx' cy' rx' ry' rot : R).
Context (Hcx : ap 18 0 cx cx') (Hcy : ap 18 0 cy cy') (Hrx : ap 17 (2 ^ 72) rx rx') (Hry : ap 17 (2 ^ 72) ry ry') (HsT : ap 1 (2 ^ 58) sT (sin rot)) (HcT : ap 1 (2 ^ 58) cT (cos rot)).
Lemma wave4 a a' w w' : ap 17 (2 ^ 72) a a' -> ap 1 (2 ^ 57) w w' -> ap 19 (2 ^ 79) (SFmul 53 1024 (SFmul 53 1024 a w) cT) (a' * w' * cos rot) /\ ap 19 (2 ^ 79) (SFmul 53 1024 (SFmul 53 1024 a w) sT) (a' * w' * sin rot).
Proof using HsT HcT.
  intros H1 H2. pose proof (ap_mul 17 1 _ _ _ _ _ _ ltac:(lia) ltac:(lia) ltac:(lia) H1 H2) as H3.
  split; [wk (ap_mul 18 1 _ _ _ _ _ _ ltac:(lia) ltac:(lia) ltac:(lia) H3 HcT)|wk (ap_mul 18 1 _ _ _ _ _ _ ltac:(lia) ltac:(lia) ltac:(lia) H3 HsT)].
Qed.
Lemma waves4 eta t : ap 4 (2 ^ 55) eta t -> ap 1 (2 ^ 57) (o_sin O eta) (sin t) /\ ap 1 (2 ^ 57) (o_cos O eta) (cos t).
Proof using HO. intros H. split; [wk (ap_sin4 _ _ _ H)|wk (ap_cos4 _ _ _ H)]. Qed.
Lemma point4_ap eta t : ap 4 (2 ^ 55) eta t -> ap 21 (2 ^ 82) (fst (ellipsePointAt (E := E) rx ry sT cT eta cx cy)) (fst (ell_at cx' cy' rx' ry' rot t))
  /\ ap 21 (2 ^ 82) (snd (ellipsePointAt (E := E) rx ry sT cT eta cx cy)) (snd (ell_at cx' cy' rx' ry' rot t)).
Proof using HO Hcx Hcy Hrx Hry HsT HcT.
  intros H. destruct (waves4 _ _ H) as [Hs Hc]. destruct (wave4 _ _ _ _ Hrx Hc) as [A1 A2]. destruct (wave4 _ _ _ _ Hry Hs) as [B1 B2].
  apply (ap_le _ 20 _ (2 ^ 79)) in B1, B2; try zc. apply (ap_le _ 19 _ 0) in Hcx, Hcy; try zc.
  split; [wk (ap_sub 20 _ _ _ _ _ _ ltac:(lia) (ap_add 19 _ _ _ _ _ _ ltac:(lia) Hcx A1) B2)|wk (ap_add 20 _ _ _ _ _ _ ltac:(lia) (ap_add 19 _ _ _ _ _ _ ltac:(lia) Hcy A2) B1)].
Qed.
Lemma prime4_ap eta t : ap 4 (2 ^ 55) eta t -> ap 20 (2 ^ 82) (fst (ellipsePrime (E := E) rx ry sT cT eta)) (fst (ell_dir rx' ry' rot t))
  /\ ap 20 (2 ^ 82) (snd (ellipsePrime (E := E) rx ry sT cT eta)) (snd (ell_dir rx' ry' rot t)).
Proof using HO Hrx Hry HsT HcT.
  intros H. destruct (waves4 _ _ H) as [Hs Hc]. destruct (wave4 _ _ _ _ Hry Hc) as [A1 A2].
  pose proof (ap_opp _ _ _ _ (ap_mul 17 1 _ _ _ _ _ _ ltac:(lia) ltac:(lia) ltac:(lia) Hrx Hs)) as N.
  pose proof (ap_mul 18 1 _ _ _ _ _ _ ltac:(lia) ltac:(lia) ltac:(lia) N HcT) as N1. pose proof (ap_mul 18 1 _ _ _ _ _ _ ltac:(lia) ltac:(lia) ltac:(lia) N HsT) as N2.
  unfold ell_dir. cbn [fst snd]. rewrite <- !Ropp_mult_distr_l in *.
  split; [wk (ap_sub 19 _ _ _ _ _ _ ltac:(lia) N1 A2)|wk (ap_add 19 _ _ _ _ _ _ ltac:(lia) N2 A1)].
Qed.
Context (eta0 : sf) (t0 : R) (Heta : ap 3 0 eta0 t0) (N : nat) (HN : (N <= 18)%nat) (Hlast : Rabs t0 + 18 * Rabs step_R <= 15).
Notation at_R i := (t0 + INR i * step_R).
Lemma eta4_ap i : (i <= 18)%nat -> ap 4 (2 ^ 55) (SFadd 53 1024 eta0 (SFmul 53 1024 step (sf_of_Z (Z.of_nat i)))) (at_R i).
Proof using O Hstep Heta Hlast.
  clear HN. intros Hi. assert (Hz : ap 5 0 (sf_of_Z (Z.of_nat i)) (IZR (Z.of_nat i))) by (apply (ap_ofZ O 5); [lia|change (2 ^ 5)%Z with 32%Z; lia]).
  pose proof (ap_mul 0 5 _ _ _ _ _ _ ltac:(lia) ltac:(lia) ltac:(lia) Hstep Hz) as H1.
  assert (H0 : ap 5 0 eta0 t0) by (revert Heta; apply ap_le; lia). pose proof (ap_add 5 _ _ _ _ _ _ ltac:(lia) H0 H1) as H2.
  rewrite INR_IZR_INZ, (Rmult_comm (IZR _)). assert (H3 : ap 6 (2 ^ 55) (SFadd 53 1024 eta0 (SFmul 53 1024 step (sf_of_Z (Z.of_nat i)))) (t0 + step_R * IZR (Z.of_nat i))) by (revert H2; apply ap_le; [lia|zc]).
  assert (B : Rabs (t0 + step_R * IZR (Z.of_nat i)) <= 15).
  { apply Rle_trans with (1 := Rabs_triang _ _). rewrite Rabs_mult, (Rabs_pos_eq (IZR _)) by (apply IZR_le; lia). assert (Rabs step_R * IZR (Z.of_nat i) <= Rabs step_R * 18) by (apply Rmult_le_compat_l; [apply Rabs_pos|apply IZR_le; lia]). lra. }
  destruct H3 as ((V & Fi & _) & H & _). pose proof (small60 (2 ^ 55) ltac:(lia)) as Sm. split; [split; [exact V|split; [exact Fi|]]|split; [exact H|change (pow 4) with 16; lra]].
  apply Rabs_le_inv in H, B. apply Rabs_le. change (pow 4) with 16. lra.
Qed.
Lemma ctrl4_ap x x' v v' : ap 21 (2 ^ 91) x x' -> ap 20 (2 ^ 82) v v' ->
  ap 22 (2 ^ 93) (SFadd 53 1024 x (SFmul 53 1024 handle4 v)) (x' + handle step_R * v') /\ ap 22 (2 ^ 93) (SFsub 53 1024 x (SFmul 53 1024 handle4 v)) (x' - handle step_R * v').
Proof using HO Hstep.
  clear HN. intros Hx Hv. pose proof (ap_mul 1 20 _ _ _ _ _ _ ltac:(lia) ltac:(lia) ltac:(lia) handle4_ap Hv) as Hm.
  split; [wk (ap_add 21 _ _ _ _ _ _ ltac:(lia) Hx Hm)|wk (ap_sub 21 _ _ _ _ _ _ ltac:(lia) Hx Hm)].
Qed.
Lemma grid4_near x y x' y' : ap 22 (2 ^ 93) x x' -> ap 22 (2 ^ 93) y y' -> pt_within 1 (toFixedP (E := E) x y) (grid_R (x', y')).
Proof using.
  clear HN. intros H1 H2. apply grid_ap; [revert H1; apply ap_le; lia|revert H2; apply ap_le; lia| |]; [apply Rle_trans with (1 := proj2 (proj2 H1))|apply Rle_trans with (1 := proj2 (proj2 H2))]; apply bpow_le; lia.
Qed.
Notation EA i := (ell_at cx' cy' rx' ry' rot (at_R i)).
Notation ED i := (ell_dir rx' ry' rot (at_R i)).
Lemma segs4_near (ex ey : F E) : ap 21 (2 ^ 91) ex (fst (EA N)) -> ap 21 (2 ^ 91) ey (snd (EA N)) ->
  forall n i (lx ly vx vy : F E) p q, (i + n = N)%nat ->
  ap 21 (2 ^ 91) lx (fst (EA i)) -> ap 21 (2 ^ 91) ly (snd (EA i)) -> ap 20 (2 ^ 82) vx (fst (ED i)) -> ap 20 (2 ^ 82) vy (snd (ED i)) -> Forall2 (op_within 1) p q ->
  Forall2 (op_within 1) (fst (ellSegs (E := E) n (Z.of_nat i + 1) (Z.of_nat N) rx ry ex ey cx cy sT cT eta0 step handle4 lx ly vx vy p))
    (q ++ map (fun j => piece cx' cy' rx' ry' rot (at_R j) step_R) (seq i n)).
Proof using All.
  intros Hex Hey. induction n as [|n IH]; intros i lx ly vx vy p q Hi Hlx Hly Hvx Hvy Hp; cbn [ellSegs seq map]; [rewrite app_nil_r; exact Hp|].
  pose proof (eta4_ap (S i) ltac:(lia)) as He.
  replace (Z.of_nat i + 1)%Z with (Z.of_nat (S i)) by lia.
  change (fadd E eta0 (fmul E step (f_of_Z E (Z.of_nat (S i))))) with (SFadd 53 1024 eta0 (SFmul 53 1024 step (sf_of_Z (Z.of_nat (S i))))).
  set (eta := SFadd 53 1024 eta0 _) in *. clearbody eta.
  pose proof (point4_ap _ _ He) as [P1 P2]. pose proof (prime4_ap _ _ He) as [D1 D2].
  assert (Q : exists px py : F E, (if (Z.of_nat (S i) =? Z.of_nat N)%Z then (ex, ey) else ellipsePointAt (E := E) rx ry sT cT eta cx cy) = (px, py)
    /\ ap 21 (2 ^ 91) px (fst (EA (S i))) /\ ap 21 (2 ^ 91) py (snd (EA (S i)))).
  { destruct (Z.eqb_spec (Z.of_nat (S i)) (Z.of_nat N)) as [E1|E1].
    - assert (Ei : S i = N) by lia. exists ex, ey. rewrite Ei. auto.
    - destruct (ellipsePointAt _ _ _ _ _ _ _) as [px py]. exists px, py. split; [reflexivity|]. split; [revert P1|revert P2]; apply ap_le; lia. }
  destruct Q as (px & py & -> & Q1 & Q2). destruct (ellipsePrime (E := E) rx ry sT cT eta) as [dx dy]. cbn [fst snd] in D1, D2.
  assert (Et : at_R i + step_R = at_R (S i)) by (rewrite S_INR; ring).
  replace (q ++ piece cx' cy' rx' ry' rot (at_R i) step_R :: map (fun j => piece cx' cy' rx' ry' rot (at_R j) step_R) (seq (S i) n))
    with ((q ++ [piece cx' cy' rx' ry' rot (at_R i) step_R]) ++ map (fun j => piece cx' cy' rx' ry' rot (at_R j) step_R) (seq (S i) n)) by (rewrite <- app_assoc; reflexivity).
  apply IH; try assumption; [lia|]. unfold pCube. apply Forall2_app; [exact Hp|]. constructor; [|constructor]. unfold piece. rewrite Et.
  constructor; [apply grid4_near; apply ctrl4_ap; assumption|apply grid4_near; apply ctrl4_ap; assumption|].
  rewrite (surjective_pairing (EA (S i))). apply grid4_near; [revert Q1|revert Q2]; apply ap_le; lia.
Qed.
End Segs.

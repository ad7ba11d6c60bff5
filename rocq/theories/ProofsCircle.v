(** * ProofsCircle: circles and ellipses in binary64 *)
From Coq Require Import ZArith Lia Reals Lra Psatz Floats.SpecFloat Machin.
From Flocq Require Import Core.Core Relative IEEE754.BinarySingleNaN.
From Verif Require Import F64 RealEnv SpecArc ProofsArc ProofsShape ProofsAngle ProofsFlocq ProofsSize3 ProofsArc64 ProofsDec ProofsScale ProofsClose ProofsF64 SpecClose SpecRead SpecTrig.
Local Open Scope R_scope.
Local Existing Instance ProofsFlocq.Hprec.
Local Existing Instance ProofsFlocq.Hmax.
Local Notation pow := (bpow radix2).
Ltac zc := (apply Z.leb_le; vm_compute; reflexivity).
Ltac wk t := refine (ap_le _ _ _ _ _ _ _ _ t); [zc|zc].

(** ** Errors *)
Lemma ap_close b e k x r : (0 <= k)%Z -> ap b e x r -> (e <= 2 ^ (100 + k))%Z -> Rabs r <= pow k -> ap (k + 1) e x r.
Proof.
  intros Hk ((V & Fi & _) & H & _) He Hr. split; [split; [exact V|split; [exact Fi|]]|].
  - assert (Rabs (val x - r) <= pow k). { apply Rle_trans with (1 := H). apply Rle_trans with (IZR (2 ^ (100 + k)) * u100); [apply Rmult_le_compat_r; [apply Rlt_le, u_pos|]; apply IZR_le, He|]. rewrite pow_Z by lia. rewrite <- bpow_plus. apply bpow_le. lia. }
    rewrite pow_S. pose proof (Rabs_triang (val x - r) r) as T. replace (val x - r + r) with (val x) in T by ring. lra.
  - split; [exact H|]. apply Rle_trans with (1 := Hr). apply bpow_le. lia.
Qed.
(** division by an exact number *)
Lemma ap_over b b' e e' x r y c : (0 <= b' <= 900)%Z -> finite64 y -> val y = c -> 1 <= c -> pow b / c <= pow b' -> IZR e <= c * IZR e' -> ap b e x r ->
  ap b' (e' + 2 ^ (b' + 47)) (SFdiv 53 1024 x y) (r / c).
Proof.
  intros Hb [Vy Fy] Hy Hc Hbb He ((V & Fi & B) & H & K).
  assert (Hi : 0 < / c) by (apply Rinv_0_lt_compat; lra).
  assert (Hq : forall z, Rabs z <= pow b -> Rabs (z / c) <= pow b').
  { intros z Hz. unfold Rdiv. rewrite Rabs_mult, (Rabs_pos_eq (/ c)) by lra. apply Rle_trans with (pow b * / c); [apply Rmult_le_compat_r; lra|exact Hbb]. }
  destruct (div_round x y V Vy Fi Fy) as [K1 K2]; [lra|rewrite Hy; apply (no_over b'); [lia|apply Hq, B]|].
  rewrite Hy in K2. split; [split; [apply div_valid; assumption|split; [exact K1|]]|].
  - rewrite K2. apply rnd_up; [lia|apply Hq, B].
  - split; [|apply Hq, K]. rewrite K2. pose proof (rnd_err b' _ Hb (Hq _ B)) as H0. rewrite plus_IZR.
    replace (rnd (val x / c) - r / c) with ((rnd (val x / c) - val x / c) + (val x - r) / c) by (field; lra).
    pose proof (Rabs_triang (rnd (val x / c) - val x / c) ((val x - r) / c)) as H1.
    assert (H2 : Rabs ((val x - r) / c) <= IZR e' * u100).
    { unfold Rdiv. rewrite Rabs_mult, (Rabs_pos_eq (/ c)) by lra. apply Rle_trans with (IZR e * u100 * / c); [apply Rmult_le_compat_r; lra|].
      replace (IZR e * u100 * / c) with (IZR e * / c * u100) by ring. apply Rmult_le_compat_r; [apply Rlt_le, u_pos|].
      apply Rmult_le_reg_r with c; [lra|]. replace (IZR e * / c * c) with (IZR e) by (field; lra). lra. }
    lra.
Qed.
(** ** PI *)
Definition big : Z := 10 ^ 20.
Definition odd n : Z := Z.of_nat (2 * n + 1).
Definition term n : Z := (2 * (big / (3 ^ odd n * odd n)) + big / (7 ^ odd n * odd n))%Z.
Fixpoint total n : Z := match n with O => term 0 | S m => total m + (if Nat.even n then term n else - term n) end%Z.
Lemma floor_inv q : (0 < q)%Z -> IZR (big / q) <= IZR big * / IZR q <= IZR (big / q) + 1.
Proof.
  intros Hq. assert (Q : 0 < IZR q) by (apply IZR_lt; lia).
  pose proof (Z.div_mod big q ltac:(lia)) as D. pose proof (Z.mod_pos_bound big q Hq) as [M1 M2].
  apply IZR_le in M1. apply IZR_lt in M2. assert (D' : IZR big = IZR q * IZR (big / q) + IZR (big mod q)) by (rewrite <- mult_IZR, <- plus_IZR, <- D; reflexivity).
  assert (X : IZR big * / IZR q = IZR (big / q) + IZR (big mod q) * / IZR q) by (rewrite D' at 1; field; lra).
  rewrite X. assert (0 < / IZR q) by (apply Rinv_0_lt_compat; exact Q).
  assert (IZR (big mod q) * / IZR q <= 1). { apply (Rmult_le_reg_r (IZR q)); [exact Q|]. rewrite Rmult_assoc, Rinv_l by lra. lra. }
  assert (0 <= IZR (big mod q) * / IZR q) by (apply Rmult_le_pos; lra). lra.
Qed.
Lemma atan_term (k : Z) n : (0 < k)%Z -> Ratan_seq (/ IZR k) n = / IZR (k ^ odd n * odd n).
Proof.
  intros H. unfold Ratan_seq, Rdiv, odd. rewrite pow_inv, INR_IZR_INZ, mult_IZR, <- pow_IZR, Rinv_mult. reflexivity.
Qed.
Lemma term_near n : IZR (term n) <= IZR big * PI_2_3_7_tg n <= IZR (term n) + 3.
Proof.
  unfold PI_2_3_7_tg, term. rewrite (atan_term 3), (atan_term 7) by lia.
  assert (P : (0 < odd n)%Z) by (unfold odd; lia).
  destruct (floor_inv (3 ^ odd n * odd n)) as [A1 A2]; [apply Z.mul_pos_pos; [apply Z.pow_pos_nonneg; lia|exact P]|].
  destruct (floor_inv (7 ^ odd n * odd n)) as [B1 B2]; [apply Z.mul_pos_pos; [apply Z.pow_pos_nonneg; lia|exact P]|].
  rewrite plus_IZR, mult_IZR. lra.
Qed.
Lemma sign_pow n : (-1) ^ n = if Nat.even n then 1 else -1.
Proof.
  induction n as [|n IH]; [reflexivity|]. rewrite <- tech_pow_Rmult, IH, Nat.even_succ, <- Nat.negb_even. destruct (Nat.even n); cbn; lra.
Qed.
Lemma total_near n : Rabs (IZR big * sum_f_R0 (tg_alt PI_2_3_7_tg) n - IZR (total n)) <= 3 * (INR n + 1).
Proof.
  induction n as [|n IH].
  - cbn [sum_f_R0 total]. unfold tg_alt. pose proof (term_near 0). cbn [pow INR]. apply Rabs_le. lra.
  - cbn [sum_f_R0]. change (total (S n)) with (total n + (if Nat.even (S n) then term (S n) else - term (S n)))%Z.
    rewrite plus_IZR, S_INR. unfold tg_alt at 2. rewrite sign_pow. pose proof (term_near (S n)) as [A B].
    apply Rabs_le_inv in IH. apply Rabs_le. destruct (Nat.even (S n)); [|rewrite opp_IZR]; lra.
Qed.
Lemma pi_bounds : 3141592653589792 / 10^15 <= PI <= 3141592653589794 / 10^15.
Proof.
  destruct (PI_2_3_7_ineq 7) as [L U].
  pose proof (total_near 15) as A. pose proof (total_near 14) as B.
  change (S (2 * 7)) with 15%nat in L. change (2 * 7)%nat with 14%nat in U.
  replace (total 15) with (ltac:(let v := eval vm_compute in (total 15) in exact v)) in A by (vm_compute; reflexivity).
  replace (total 14) with (ltac:(let v := eval vm_compute in (total 14) in exact v)) in B by (vm_compute; reflexivity).
  rewrite INR_IZR_INZ in A, B. cbn [Z.of_nat Pos.of_succ_nat Pos.succ] in A, B.
  apply Rabs_le_inv in A. apply Rabs_le_inv in B. unfold Alt_PI in *. 
  set (x := sum_f_R0 _ 15) in *. set (y := sum_f_R0 _ 14) in *. clearbody x y. unfold big in A, B. change (10 ^ 20)%Z with 100000000000000000000%Z in A, B.
  split; lra.
Qed.

(** ** Sine, cosine and tangent *)
Lemma sin_small x : Rabs (sin x) <= Rabs x.
Proof.
  assert (K : forall y, 0 < y -> Rabs (sin y) <= y).
  { intros y Hy. apply Rabs_le. pose proof (sin_lt_x y Hy). split; [|lra]. destruct (Rle_or_lt y 1) as [H1|H1]; [|pose proof (SIN_bound y); lra].
    assert (0 <= sin y) by (apply sin_ge_0; pose proof pi_bounds; lra). lra. }
  destruct (Rtotal_order x 0) as [H|[H|H]].
  - rewrite (Rabs_left x) by exact H. rewrite <- (Ropp_involutive x) at 1. rewrite sin_neg, Rabs_Ropp. apply K. lra.
  - subst x. rewrite sin_0. lra.
  - rewrite (Rabs_pos_eq x) by lra. apply K, H.
Qed.
Lemma half_bound a b c : Rabs a <= 1 -> Rabs b <= Rabs (c / 2) -> Rabs (2 * a * b) <= Rabs c.
Proof.
  intros H1 H2. rewrite !Rabs_mult, (Rabs_pos_eq 2) by lra. unfold Rdiv in H2. rewrite Rabs_mult, (Rabs_pos_eq (/ 2)) in H2 by lra.
  pose proof (Rabs_pos a). pose proof (Rabs_pos b). nra.
Qed.
Lemma sin_lip a b : Rabs (sin a - sin b) <= Rabs (a - b).
Proof. rewrite form4. apply half_bound; [apply Rabs_le; pose proof (COS_bound ((a + b) / 2)); lra|apply sin_small]. Qed.
Lemma cos_lip a b : Rabs (cos a - cos b) <= Rabs (a - b).
Proof. rewrite form2. replace (-2 * sin ((a - b) / 2) * sin ((a + b) / 2)) with (2 * - sin ((a + b) / 2) * sin ((a - b) / 2)) by ring.
  apply half_bound; [apply Rabs_le; pose proof (SIN_bound ((a + b) / 2)); lra|apply sin_small]. Qed.
Lemma cos_half a : Rabs a <= 1 -> / 2 <= cos a.
Proof.
  intros H. pose proof pi_bounds. assert (Hc : cos (Rabs a) = cos a). { unfold Rabs. destruct (Rcase_abs a); [apply cos_neg|reflexivity]. }
  rewrite <- Hc. replace (/ 2) with (cos (PI / 3)) by (rewrite cos_PI3; field). pose proof (Rabs_pos a). apply cos_decr_1; lra.
Qed.
Lemma tan_lip a b : Rabs a <= 1 -> Rabs b <= 1 -> Rabs (tan a - tan b) <= 4 * Rabs (a - b).
Proof.
  intros Ha Hb. apply cos_half in Ha, Hb. unfold tan. replace (sin a / cos a - sin b / cos b) with (sin (a - b) * / (cos a * cos b)) by (rewrite sin_minus; field; lra).
  rewrite Rabs_mult. pose proof (sin_small (a - b)). assert (Hp : / 4 <= cos a * cos b) by nra.
  rewrite (Rabs_pos_eq (/ _)) by (apply Rlt_le, Rinv_0_lt_compat; lra).
  assert (/ (cos a * cos b) <= 4). { replace 4 with (/ / 4) by field. apply Rinv_le; lra. }
  pose proof (Rabs_pos (sin (a - b))). pose proof (Rabs_pos (a - b)). assert (0 < / (cos a * cos b)) by (apply Rinv_0_lt_compat; lra). nra.
Qed.
Lemma sqrt_lip a b : 1 <= a -> 1 <= b -> Rabs (sqrt a - sqrt b) <= Rabs (a - b).
Proof.
  intros Ha Hb. assert (A : 1 <= sqrt a) by (rewrite <- sqrt_1; apply sqrt_le_1_alt, Ha). assert (B : 1 <= sqrt b) by (rewrite <- sqrt_1; apply sqrt_le_1_alt, Hb).
  replace (a - b) with ((sqrt a - sqrt b) * (sqrt a + sqrt b)).
  - rewrite Rabs_mult, (Rabs_pos_eq (sqrt a + sqrt b)) by lra. pose proof (Rabs_pos (sqrt a - sqrt b)). nra.
  - replace ((sqrt a - sqrt b) * (sqrt a + sqrt b)) with (sqrt a * sqrt a - sqrt b * sqrt b) by ring. rewrite !sqrt_sqrt by lra. reflexivity.
Qed.
Lemma ap_sqrt b e x r : (0 <= b <= 400)%Z -> 1 <= r -> 1 <= val x -> ap b e x r -> ap b (e + 2 ^ (b + 47)) (SFsqrt 53 1024 x) (sqrt r).
Proof.
  intros Hb Hr Hx ((V & Fi & B) & H & K). destruct (sqrt_round x V Fi) as (K1 & K2 & K3); [lra|].
  assert (S : forall y, 1 <= y -> Rabs y <= pow b -> Rabs (sqrt y) <= pow b).
  { intros y Hy Hyb. rewrite Rabs_pos_eq by apply sqrt_pos. rewrite Rabs_pos_eq in Hyb by lra. apply Rle_trans with (2 := Hyb).
    rewrite <- (sqrt_sqrt y) at 2 by lra. assert (1 <= sqrt y) by (rewrite <- sqrt_1; apply sqrt_le_1_alt, Hy). nra. }
  split; [split; [exact K1|split; [exact K2|rewrite K3; apply rnd_up; [lia|apply S; assumption]]]|]. split; [|apply S; assumption].
  rewrite K3, plus_IZR, Rmult_plus_distr_r. replace (rnd (sqrt (val x)) - sqrt r) with ((rnd (sqrt (val x)) - sqrt (val x)) + (sqrt (val x) - sqrt r)) by ring.
  pose proof (Rabs_triang (rnd (sqrt (val x)) - sqrt (val x)) (sqrt (val x) - sqrt r)). pose proof (rnd_err b (sqrt (val x)) ltac:(lia) (S _ Hx B)). pose proof (sqrt_lip _ _ Hx Hr). lra.
Qed.
Lemma pi_ap : ap 2 (2 ^ 52) pi64 PI.
Proof.
  pose proof pi_bounds. assert (Hv : val pi64 = 7074237752028440 / 2251799813685248) by (unfold pi64, SF2R, F2R; cbn; lra).
  split; [split; [reflexivity|split; [exact I|]]|split].
  - rewrite Hv. apply Rabs_le. change (pow 2) with 4. lra.
  - rewrite Hv. rewrite pow_Z by lia. rewrite <- bpow_plus. change (pow (52 + -100)) with (/ 281474976710656). apply Rabs_le. lra.
  - apply Rabs_le. change (pow 2) with 4. lra.
Qed.
Lemma u60 : / 2 ^ 40 = IZR (2 ^ 60) * u100.
Proof. rewrite pow_Z by lia. rewrite <- bpow_plus. cbn. lra. Qed.
Lemma small60 e : (e <= 2 ^ 90)%Z -> IZR e * u100 <= / 1000.
Proof. intros H. apply Rle_trans with (IZR (2 ^ 90) * u100); [apply Rmult_le_compat_r; [apply Rlt_le, u_pos|apply IZR_le, H]|]. rewrite pow_Z by lia. rewrite <- bpow_plus. cbn. lra. Qed.

(** the diagonal of the view box *)
Lemma rnd_rel z : Rabs (rnd z - z) <= pow (-53) * Rabs z + pow (-1000).
Proof.
  destruct (error_N_FLT radix2 (-1074) 53 ltac:(lia) (fun x => negb (Z.even x)) z) as (eps & eta & H1 & H2 & _ & H4).
  assert (Hr : rnd z = z * (1 + eps) + eta) by exact H4. rewrite Hr. replace (z * (1 + eps) + eta - z) with (z * eps + eta) by ring.
  pose proof (Rabs_triang (z * eps) eta) as T. rewrite Rabs_mult in T.
  assert (E1 : / 2 * bpow radix2 (- (53) + 1) = pow (-53)) by (change (pow (- (53) + 1)) with (pow (-53 + 1)); rewrite pow_S; lra). rewrite E1 in H1.
  assert (E2 : / 2 * bpow radix2 (-1074) <= pow (-1000)) by (pose proof (bpow_le radix2 (-1074) (-1000) ltac:(lia)); pose proof (bpow_gt_0 radix2 (-1074)); lra).
  pose proof (Rabs_pos z). pose proof (Rabs_pos eps). assert (Rabs z * Rabs eps <= Rabs z * pow (-53)) by (apply Rmult_le_compat_l; lra). lra.
Qed.
Definition root64 : sf := SFsqrt 53 1024 (sf_lit 2 1).
Lemma root64_val : val root64 = 6369051672525773 / 4503599627370496 /\ finite64 root64.
Proof. assert (E : root64 = S754_finite false 6369051672525773 (-52)) by (vm_compute; reflexivity). rewrite E. split; [unfold SF2R, F2R; cbn; lra|split; [reflexivity|exact I]]. Qed.
Lemma root2_bounds : 1.414213562373095 <= sqrt 2 <= 1.414213562373096.
Proof. split; apply Rsqr_incr_0_var; try lra; try apply sqrt_pos; unfold Rsqr; rewrite sqrt_sqrt by lra; lra. Qed.
Lemma sum_near w h : Rabs w <= pow 17 -> Rabs h <= pow 17 ->
  Rabs (rnd (rnd (w * w) + rnd (h * h)) - (w * w + h * h)) <= pow (-51) * (w * w + h * h) + pow (-997).
Proof.
  intros Hw Hh. pose proof (rnd_rel (w * w)) as A. pose proof (rnd_rel (h * h)) as B. pose proof (rnd_rel (rnd (w * w) + rnd (h * h))) as Cc.
  assert (W0 : 0 <= w * w) by nra. assert (H0 : 0 <= h * h) by nra. rewrite (Rabs_pos_eq (w * w)) in A by exact W0. rewrite (Rabs_pos_eq (h * h)) in B by exact H0.
  pose proof (rnd_pos _ W0) as W1. pose proof (rnd_pos _ H0) as H1. rewrite (Rabs_pos_eq (rnd (w * w) + rnd (h * h))) in Cc by lra.
  set (a := rnd (w * w)) in *. set (b := rnd (h * h)) in *. set (s := rnd (a + b)) in *.
  assert (P51 : pow (-51) = 4 * pow (-53)) by (change (-51)%Z with (-53 + 2)%Z; rewrite bpow_plus; change (pow 2) with 4; ring).
  assert (P997 : pow (-997) = 8 * pow (-1000)) by (change (-997)%Z with (-1000 + 3)%Z; rewrite bpow_plus; change (pow 3) with 8; ring).
  assert (L : pow (-53) <= / 8) by (apply Rle_trans with (pow (-3)); [apply bpow_le; lia|change (pow (-3)) with (/ 8); lra]).
  pose proof (bpow_gt_0 radix2 (-53)). pose proof (bpow_gt_0 radix2 (-1000)). rewrite P51, P997.
  set (e := pow (-53)) in *. set (n := pow (-1000)) in *. clearbody a b s e n. apply Rabs_le_inv in A, B, Cc. apply Rabs_le.
  assert (e * (a + b) <= e * ((w * w + h * h) * 2 + 2 * n)) by (apply Rmult_le_compat_l; nra). nra.
Qed.
Lemma sqrt_near a b : 0 <= a -> 0 <= b <= pow 36 -> Rabs (a - b) <= pow (-51) * b + pow (-997) -> Rabs (sqrt a - sqrt b) <= pow (-32).
Proof.
  intros Ha [Hb Hb'] H. pose proof (sqrt_pos a) as Sa. pose proof (sqrt_pos b) as Sb. pose proof (sqrt_sqrt a Ha) as Qa. pose proof (sqrt_sqrt b Hb) as Qb.
  assert (P : forall k, pow (2 * k) = pow k * pow k) by (intros k; rewrite <- bpow_plus; f_equal; lia).
  assert (Sm : forall x k, 0 <= x -> x <= pow (2 * k) -> sqrt x <= pow k).
  { intros x k Hx Hk. rewrite P in Hk. pose proof (bpow_gt_0 radix2 k). apply Rsqr_incr_0_var; [|lra]. unfold Rsqr. rewrite sqrt_sqrt; lra. }
  destruct (Rle_or_lt b (pow (-80))) as [Hs|Hl].
  - assert (B1 : sqrt b <= pow (-40)) by (apply Sm; [exact Hb|exact Hs]).
    assert (A1 : sqrt a <= pow (-39)).
    { apply Sm; [exact Ha|]. apply Rabs_le_inv in H. assert (pow (-51) * b <= b). { rewrite <- (Rmult_1_l b) at 2. apply Rmult_le_compat_r; [exact Hb|]. change 1 with (pow 0). apply bpow_le. lia. }
      assert (pow (-997) <= pow (-80)) by (apply bpow_le; lia). change (2 * -39)%Z with (-80 + 2)%Z. rewrite bpow_plus. change (pow 2) with 4. lra. }
    assert (pow (-39) <= pow (-32)) by (apply bpow_le; lia). assert (pow (-40) <= pow (-32)) by (apply bpow_le; lia). apply Rabs_le. lra.
  - assert (B1 : pow (-40) <= sqrt b). { apply Rsqr_incr_0_var; [|exact Sb]. unfold Rsqr. rewrite Qb, <- P. apply Rlt_le, Hl. }
    pose proof (bpow_gt_0 radix2 (-40)) as P4. assert (B2 : sqrt b <= pow 18) by (apply Sm; assumption).
    assert (K : Rabs (sqrt a - sqrt b) * sqrt b <= (pow (-33) + pow (-33)) * sqrt b).
    { apply Rle_trans with (Rabs (a - b)).
      - replace (a - b) with ((sqrt a - sqrt b) * (sqrt a + sqrt b)) by (transitivity (sqrt a * sqrt a - sqrt b * sqrt b); [ring|rewrite Qa, Qb; reflexivity]). rewrite Rabs_mult, (Rabs_pos_eq (sqrt a + sqrt b)) by lra.
        apply Rmult_le_compat_l; [apply Rabs_pos|lra].
      - apply Rle_trans with (1 := H). rewrite Rmult_plus_distr_r. apply Rplus_le_compat.
        + rewrite <- Qb at 1. rewrite <- Rmult_assoc. apply Rmult_le_compat_r; [exact Sb|]. change (-33)%Z with (-51 + 18)%Z. rewrite bpow_plus. apply Rmult_le_compat_l; [apply bpow_ge_0|exact B2].
        + apply Rle_trans with (pow (-33) * pow (-40)); [rewrite <- bpow_plus; apply bpow_le; lia|]. apply Rmult_le_compat_l; [apply bpow_ge_0|exact B1]. }
    apply Rmult_le_reg_r in K; [|lra]. apply Rle_trans with (1 := K). change (-32)%Z with (-33 + 1)%Z. rewrite pow_S. lra.
Qed.
Lemma diag_near w h : finite64 w -> finite64 h -> Rabs (val w) <= pow 17 -> Rabs (val h) <= pow 17 ->
  let g := SFdiv 53 1024 (SFsqrt 53 1024 (SFadd 53 1024 (SFmul 53 1024 w w) (SFmul 53 1024 h h))) root64 in
  let g' := sqrt (val w * val w + val h * val h) / sqrt 2 in
  ap 18 (6 * 2 ^ 66) g g' /\ 0 <= val g /\ 0 <= g' /\ (g' = 0 -> val g = 0).
Proof.
  intros [Vw Fw] [Vh Fh] Hw Hh g g'. destruct root64_val as [Er [Vr Fr]]. pose proof root2_bounds as Hr2.
  destruct (bd_mul 17 17 w w ltac:(lia)) as [A1 A2]; [repeat split; assumption|repeat split; assumption|].
  destruct (bd_mul 17 17 h h ltac:(lia)) as [B1 B2]; [repeat split; assumption|repeat split; assumption|].
  destruct (bd_add (17 + 17) _ _ ltac:(lia) A1 B1) as [C1 C2]. rewrite A2, B2 in C2. pose proof (sum_near _ _ Hw Hh) as Hs.
  set (a := rnd (rnd (val w * val w) + rnd (val h * val h))) in *. set (b := val w * val w + val h * val h) in *.
  assert (Ha : 0 <= a) by (apply rnd_pos; pose proof (rnd_pos (val w * val w)); pose proof (rnd_pos (val h * val h)); nra).
  assert (Hb : 0 <= b <= pow 36).
  { assert (Sq : forall x, Rabs x <= pow 17 -> 0 <= x * x <= pow 34). { intros x Hx. split; [nra|]. change 34%Z with (17 + 17)%Z. rewrite bpow_plus. rewrite <- (Rabs_pos_eq (x * x)) by nra. rewrite Rabs_mult. apply Rmult_le_compat; try apply Rabs_pos; exact Hx. }
    pose proof (Sq _ Hw). pose proof (Sq _ Hh). unfold b. change 36%Z with (34 + 2)%Z. rewrite bpow_plus. change (pow 2) with 4. lra. }
  assert (D0 : bd (2 * 18) (SFadd 53 1024 (SFmul 53 1024 w w) (SFmul 53 1024 h h))) by (revert C1; apply bd_le; lia).
  destruct (bd_sqrt 18 _ ltac:(lia) D0 ltac:(rewrite C2; exact Ha)) as [D1 D2]. rewrite C2 in D2. pose proof (sqrt_near a b Ha Hb Hs) as Hq.
  assert (Hq2 : Rabs (sqrt a) <= pow 19).
  { rewrite Rabs_pos_eq by apply sqrt_pos. assert (sqrt b <= pow 18). { apply Rsqr_incr_0_var; [|apply bpow_ge_0]. unfold Rsqr. rewrite sqrt_sqrt by apply Hb. rewrite <- bpow_plus. apply Hb. }
    apply Rabs_le_inv in Hq. assert (pow (-32) <= pow 18) by (apply bpow_le; lia). change 19%Z with (18 + 1)%Z. rewrite pow_S. lra. }
  assert (Lr : lo 0 root64) by (unfold lo; rewrite Er, Rabs_pos_eq by lra; change (pow 0) with 1; lra).
  destruct (bd_div 18 0 _ root64 ltac:(lia) D1 Vr Fr Lr) as [G1 G2]. rewrite D2, Er in G2. set (K := 6369051672525773 / 4503599627370496) in *.
  assert (HK : 1.41421356237309 <= K <= 1.4142135623731) by (unfold K; lra).
  assert (Hdk : Rabs (/ K - / sqrt 2) <= pow (-52)).
  { replace (/ K - / sqrt 2) with ((sqrt 2 - K) * / (K * sqrt 2)) by (field; lra). rewrite Rabs_mult.
    assert (K2 : Rabs (sqrt 2 - K) <= pow (-52)). 
    { assert (Sx : (sqrt 2 - K) * (sqrt 2 + K) = 2 - K * K) by (transitivity (sqrt 2 * sqrt 2 - K * K); [ring|rewrite sqrt_sqrt by lra; reflexivity]).
      assert (Sy : Rabs (2 - K * K) <= 2 * pow (-52)) by (apply Rabs_le; unfold K; change (pow (-52)) with (/ 4503599627370496); lra).
      rewrite <- Sx, Rabs_mult, (Rabs_pos_eq (sqrt 2 + K)) in Sy by lra. pose proof (Rabs_pos (sqrt 2 - K)). nra. }
    assert (1 <= K * sqrt 2) by nra. rewrite (Rabs_pos_eq (/ _)) by (apply Rlt_le, Rinv_0_lt_compat; lra).
    assert (/ (K * sqrt 2) <= 1) by (rewrite <- Rinv_1; apply Rinv_le; lra). assert (0 < / (K * sqrt 2)) by (apply Rinv_0_lt_compat; lra). pose proof (Rabs_pos (sqrt 2 - K)). nra. }
  assert (IK : / sqrt 2 <= 1 /\ 0 < / sqrt 2 /\ / K <= 1 /\ 0 < / K).
  { assert (Iv : forall x, 1 <= x -> / x <= 1 /\ 0 < / x) by (intros x Hx; split; [rewrite <- Rinv_1; apply Rinv_le; lra|apply Rinv_0_lt_compat; lra]). destruct (Iv (sqrt 2) ltac:(lra)), (Iv K ltac:(lra)). auto. }
  pose proof (sqrt_pos b) as Sb. assert (Sb2 : sqrt b <= pow 18). { apply Rsqr_incr_0_var; [|apply bpow_ge_0]. unfold Rsqr. rewrite sqrt_sqrt by apply Hb. rewrite <- bpow_plus. apply Hb. }
  assert (G0 : 0 <= g') by (unfold g', Rdiv; apply Rmult_le_pos; lra).
  assert (Sp : 0 <= rnd (sqrt a) / K) by (unfold Rdiv; apply Rmult_le_pos; [apply rnd_pos, sqrt_pos|lra]).
  split; [|split; [|split; [exact G0|]]].
  - split; [exact G1|]. split.
    + change (val g) with (val (SFdiv 53 1024 (SFsqrt 53 1024 (SFadd 53 1024 (SFmul 53 1024 w w) (SFmul 53 1024 h h))) root64)). rewrite G2. pose proof (rnd_err 19 (sqrt a) ltac:(lia) Hq2) as R1. rewrite pow_Z in R1 by lia. rewrite <- bpow_plus in R1. change (19 + 47 + -100)%Z with (-34)%Z in R1.
      assert (Hz : Rabs (rnd (sqrt a) / K) <= pow 19).
      { rewrite Rabs_pos_eq by exact Sp. apply Rle_trans with (rnd (sqrt a) * 1); [apply Rmult_le_compat_l; [apply rnd_pos, sqrt_pos|lra]|]. rewrite Rmult_1_r. apply Rle_trans with (Rabs (rnd (sqrt a))); [apply Rle_abs|].
        apply rnd_up; [lia|exact Hq2]. }
      pose proof (rnd_err 19 _ ltac:(lia) Hz) as R2. rewrite pow_Z in R2 by lia. rewrite <- bpow_plus in R2. change (19 + 47 + -100)%Z with (-34)%Z in R2.
      rewrite mult_IZR, pow_Z by lia. rewrite Rmult_assoc, <- bpow_plus. change (66 + -100)%Z with (-34)%Z.
      assert (M1 : Rabs (rnd (sqrt a) / K - sqrt b / K) <= 3 / 4 * (pow (-34) + pow (-32))).
      { replace (rnd (sqrt a) / K - sqrt b / K) with ((rnd (sqrt a) - sqrt b) * / K) by (unfold Rdiv; ring). rewrite Rabs_mult, (Rabs_pos_eq (/ K)) by lra.
        replace (rnd (sqrt a) - sqrt b) with ((rnd (sqrt a) - sqrt a) + (sqrt a - sqrt b)) by ring. pose proof (Rabs_triang (rnd (sqrt a) - sqrt a) (sqrt a - sqrt b)) as T. pose proof (Rabs_pos (rnd (sqrt a) - sqrt a + (sqrt a - sqrt b))).
        assert (IK3 : / K <= 3 / 4) by (replace (3 / 4) with (/ (4 / 3)) by field; apply Rinv_le; lra). rewrite Rmult_comm. apply Rmult_le_compat; lra. }
      assert (M2 : Rabs (sqrt b / K - g') <= pow (-34)).
      { unfold g'. replace (sqrt b / K - sqrt b / sqrt 2) with (sqrt b * (/ K - / sqrt 2)) by (unfold Rdiv; ring). rewrite Rabs_mult, (Rabs_pos_eq (sqrt b)) by exact Sb. change (-34)%Z with (18 + -52)%Z. rewrite bpow_plus. apply Rmult_le_compat; [exact Sb|apply Rabs_pos|exact Sb2|exact Hdk]. }
      assert (P2 : pow (-32) = 4 * pow (-34)) by (change (-32)%Z with (-34 + 2)%Z; rewrite bpow_plus; change (pow 2) with 4; ring).
      rewrite P2 in M1. pose proof (bpow_gt_0 radix2 (-34)).
      apply Rabs_le_inv in R2, M1, M2. apply Rabs_le. lra.
    + rewrite Rabs_pos_eq by exact G0. unfold g', Rdiv. apply Rle_trans with (sqrt b * 1); [apply Rmult_le_compat_l; lra|lra].
  - change (val g) with (val (SFdiv 53 1024 (SFsqrt 53 1024 (SFadd 53 1024 (SFmul 53 1024 w w) (SFmul 53 1024 h h))) root64)). rewrite G2. apply rnd_pos, Sp.
  - intros Hg. change (val g) with (val (SFdiv 53 1024 (SFsqrt 53 1024 (SFadd 53 1024 (SFmul 53 1024 w w) (SFmul 53 1024 h h))) root64)). rewrite G2.
    assert (Sb0 : sqrt b = 0) by (unfold g', Rdiv in Hg; destruct (Rmult_integral _ _ Hg); lra). apply sqrt_eq_0 in Sb0; [|apply Hb].
    assert (W0 : val w * val w = 0) by (unfold b in Sb0; nra). assert (H0 : val h * val h = 0) by (unfold b in Sb0; nra).
    assert (R0 : rnd 0 = 0) by (apply round_0; typeclasses eauto).
    unfold a. rewrite W0, H0, R0, Rplus_0_r, R0, sqrt_0, R0. unfold Rdiv. rewrite Rmult_0_l. exact R0.
Qed.
Lemma ellipseAt_path {E : Env} (cx cy rx ry : F E) (c c' : pcur E) p lx ly : pc_path c = [] -> ellipseAt cx cy rx ry c = (c', Ret tt) ->
  addArc [rx; ry; fnum E 0; fnum E 1; fnum E 0; fadd E cx rx; cy] cx cy (fadd E cx rx) cy [OpMoveTo (toFixedP (fadd E cx rx) cy)] = Ret (p, (lx, ly)) -> pc_path c' = p ++ [OpClose].
Proof.
  intros Hp H1 H2. unfold ellipseAt, bind, modify, gets, onPath, lift, modify in H1. cbn [set_place pc_placeX pc_placeY pc_path set_points set_path] in H1. rewrite Hp in H1. unfold pStart in H1. cbn [app] in H1.
  rewrite H2 in H1. injection H1 as <-. reflexivity.
Qed.
Section Round.
Context (O : Oracles) (HF : fair_trig O).
Notation E := (F64 O).
Lemma ap_sin e x r : ap 3 e x r -> ap 1 (e + 2 ^ 60) (o_sin O x) (sin r).
Proof using HF.
  intros ((V & Fi & B) & H & K). change (pow 3) with 8 in B. destruct (fair_sin O HF x (conj V Fi) B) as [[V1 F1] H1].
  pose proof (SIN_bound (val x)). pose proof (SIN_bound r). split; [split; [exact V1|split; [exact F1|]]|split].
  - change (pow 1) with 2. apply Rabs_le_inv in H1. apply Rabs_le. lra.
  - rewrite u60 in H1. rewrite plus_IZR, Rmult_plus_distr_r. replace (val (o_sin O x) - sin r) with ((val (o_sin O x) - sin (val x)) + (sin (val x) - sin r)) by ring.
    pose proof (Rabs_triang (val (o_sin O x) - sin (val x)) (sin (val x) - sin r)). pose proof (sin_lip (val x) r). lra.
  - change (pow 1) with 2. apply Rabs_le. lra.
Qed.
Lemma ap_cos e x r : ap 3 e x r -> ap 1 (e + 2 ^ 60) (o_cos O x) (cos r).
Proof using HF.
  intros ((V & Fi & B) & H & K). change (pow 3) with 8 in B. destruct (fair_cos O HF x (conj V Fi) B) as [[V1 F1] H1].
  pose proof (COS_bound (val x)). pose proof (COS_bound r). split; [split; [exact V1|split; [exact F1|]]|split].
  - change (pow 1) with 2. apply Rabs_le_inv in H1. apply Rabs_le. lra.
  - rewrite u60 in H1. rewrite plus_IZR, Rmult_plus_distr_r. replace (val (o_cos O x) - cos r) with ((val (o_cos O x) - cos (val x)) + (cos (val x) - cos r)) by ring.
    pose proof (Rabs_triang (val (o_cos O x) - cos (val x)) (cos (val x) - cos r)). pose proof (cos_lip (val x) r). lra.
  - change (pow 1) with 2. apply Rabs_le. lra.
Qed.
Lemma tan_two a : Rabs a <= 1 -> Rabs (tan a) <= 2.
Proof using.
  intros H. apply cos_half in H. unfold tan, Rdiv. rewrite Rabs_mult, (Rabs_pos_eq (/ _)) by (apply Rlt_le, Rinv_0_lt_compat; lra).
  assert (/ cos a <= 2) by (replace 2 with (/ / 2) by field; apply Rinv_le; lra). assert (0 < / cos a) by (apply Rinv_0_lt_compat; lra).
  assert (Rabs (sin a) <= 1) by (apply Rabs_le; pose proof (SIN_bound a); lra). pose proof (Rabs_pos (sin a)). nra.
Qed.
Lemma ap_tan e x r : ap 0 e x r -> ap 2 (4 * e + 2 ^ 60) (o_tan O x) (tan r).
Proof using HF.
  intros ((V & Fi & B) & H & K). change (pow 0) with 1 in B, K. destruct (fair_tan O HF x (conj V Fi) B) as [[V1 F1] H1].
  pose proof (tan_two _ B) as T1. pose proof (tan_two _ K) as T2. split; [split; [exact V1|split; [exact F1|]]|split].
  - change (pow 2) with 4. apply Rabs_le_inv in H1, T1. apply Rabs_le. lra.
  - rewrite u60 in H1. rewrite plus_IZR, mult_IZR, Rmult_plus_distr_r. replace (val (o_tan O x) - tan r) with ((val (o_tan O x) - tan (val x)) + (tan (val x) - tan r)) by ring.
    pose proof (Rabs_triang (val (o_tan O x) - tan (val x)) (tan (val x) - tan r)). pose proof (tan_lip (val x) r B K). lra.
  - change (pow 2) with 4. lra.
Qed.
Ltac solve_pow := cbn; lra.
(** the step of the angle *)
Definition turn64 : sf := SFsub 53 1024 (S754_zero false) two_pi64.
Definition step64 : sf := SFdiv 53 1024 turn64 (sf_of_Z 17).
Notation step_R := (- (2 * PI) / 17).
Lemma turn_ap : ap 3 (2 ^ 60) turn64 (- (2 * PI)).
Proof using.
  pose proof pi_ap as ((V & Fi & B) & H & K). 
  assert (Et : val two_pi64 = 2 * val pi64) by (unfold pi64, two_pi64, SF2R, F2R; cbn; lra).
  assert (Ev : turn64 = SFopp two_pi64) by (vm_compute; reflexivity). rewrite Ev. pose proof two_pi64_val. pose proof pi_bounds.
  apply ap_opp. split; [split; [reflexivity|split; [exact I|]]|split].
  - change (pow 3) with 8. apply Rabs_le. lra.
  - rewrite Et. replace (2 * val pi64 - 2 * PI) with (2 * (val pi64 - PI)) by ring. rewrite Rabs_mult, (Rabs_pos_eq 2) by lra.
    apply Rle_trans with (2 * (IZR (2 ^ 52) * u100)); [lra|]. rewrite <- Rmult_assoc, <- mult_IZR. apply Rmult_le_compat_r; [apply Rlt_le, u_pos|]. apply IZR_le. lia.
  - change (pow 3) with 8. apply Rabs_le. lra.
Qed.
Lemma step_ap : ap 0 (2 ^ 60 + 2 ^ 47) step64 step_R.
Proof using.
  destruct (of_Z_val 17 ltac:(lia)) as [F17 V17]. 
  pose proof (ap_over 3 0 (2 ^ 60) (2 ^ 60) turn64 _ (sf_of_Z 17) 17 ltac:(lia) (conj (of_Z_valid 17) F17) V17 ltac:(lra) ltac:(change (pow 3) with 8; change (pow 0) with 1; lra) ltac:(rewrite <- mult_IZR; apply IZR_le; zc) turn_ap) as H.
  revert H. apply ap_le; lia.
Qed.
Definition handle64 : sf :=
  let t := o_tan O (SFdiv 53 1024 step64 (fnum E 2)) in
  SFdiv 53 1024 (SFmul 53 1024 (o_sin O step64) (SFsub 53 1024 (SFsqrt 53 1024 (SFadd 53 1024 (fnum E 4) (SFmul 53 1024 (SFmul 53 1024 (fnum E 3) t) t))) (fnum E 1))) (fnum E 3).
Lemma handle_ap : ap 1 (2 ^ 73) handle64 (handle step_R).
Proof using HF.
  unfold handle64, handle. destruct (num_val O 2) as [N1 N2]; [lia|].
  pose proof (ap_half 0 _ _ _ _ ltac:(lia) N1 N2 step_ap) as H1. apply (ap_le _ 0 _ (2 ^ 62)) in H1; [|lia|zc].
  pose proof (ap_tan _ _ _ H1) as Ht. set (t := o_tan O _) in *. set (r := tan _) in *. apply (ap_le _ 2 _ (17 * 2 ^ 60)) in Ht; [|lia|zc].
  assert (A3 : ap 2 0 (fnum E 3) 3) by (apply ap_num; [lia|solve_pow]).
  assert (A4 : ap 6 0 (fnum E 4) 4) by (apply ap_num; [lia|solve_pow]).
  assert (A1 : ap 7 0 (fnum E 1) 1) by (apply ap_num; [lia|solve_pow]).
  pose proof (ap_mul 4 2 _ _ _ _ _ _ ltac:(lia) ltac:(lia) ltac:(lia) (ap_mul 2 2 _ _ _ _ _ _ ltac:(lia) ltac:(lia) ltac:(lia) A3 Ht) Ht) as H2.
  pose proof (ap_add 6 _ _ _ _ _ _ ltac:(lia) A4 H2) as H3. rewrite Rmult_assoc in H3. apply (ap_le _ 7 _ (2 ^ 70)) in H3; [|lia|zc].
  assert (Hr : 4 <= 4 + 3 * (r * r)) by nra.
  assert (Hx : 1 <= val (SFadd 53 1024 (fnum E 4) (SFmul 53 1024 (SFmul 53 1024 (fnum E 3) t) t))).
  { destruct H3 as (_ & H3 & _). apply Rabs_le_inv in H3. pose proof (small60 (2 ^ 70) ltac:(lia)). lra. }
  assert (Hr1 : 1 <= 4 + 3 * (r * r)) by lra. pose proof (ap_sqrt 7 _ _ _ ltac:(lia) Hr1 Hx H3) as H4. pose proof (ap_sub 7 _ _ _ _ _ _ ltac:(lia) H4 A1) as H5.
  assert (Hs : ap 3 (2 ^ 61) step64 step_R) by (pose proof step_ap as Q; revert Q; apply ap_le; lia). apply ap_sin in Hs.
  pose proof (ap_mul 1 8 _ _ _ _ _ _ ltac:(lia) ltac:(lia) ltac:(lia) Hs H5) as H6. destruct (num_val O 3) as [M1 M2]; [lia|].
  apply (ap_le _ 9 _ (2 ^ 73)) in H6; [|lia|zc].
  pose proof (ap_over 9 8 (2 ^ 73) (2 ^ 72) _ _ (fnum E 3) 3 ltac:(lia) M1 M2 ltac:(lra) ltac:(change (pow 9) with 512; change (pow 8) with 256; lra) ltac:(rewrite <- mult_IZR; apply IZR_le; zc) H6) as H7.
  assert (H8 : ap 1 (2 ^ 72 + 2 ^ (8 + 47)) handle64 (handle step_R)).
  { apply (ap_close 8 _ 0); [lia|exact H7|zc|]. unfold handle. fold r. change (pow 0) with 1.
    assert (Hr2 : Rabs r <= 2). { apply tan_two. destruct H1 as (_ & _ & H1). exact H1. } apply Rabs_le_inv in Hr2.
    assert (Hq : sqrt (4 + 3 * (r * r)) <= 4). { assert (r * r <= 4) by nra. apply Rle_trans with (sqrt (4 * 4)); [apply sqrt_le_1_alt; lra|rewrite sqrt_square; lra]. }
    assert (Hq1 : 1 <= sqrt (4 + 3 * (r * r))) by (rewrite <- sqrt_1 at 1; apply sqrt_le_1_alt; lra). pose proof (SIN_bound step_R). set (q := sqrt _) in *. set (a := sin _) in *.
    assert (Hz : Rabs (a * (q - 1)) <= 1 * 3) by (rewrite Rabs_mult; apply Rmult_le_compat; try apply Rabs_pos; apply Rabs_le; lra).
    apply Rabs_le_inv in Hz. apply Rabs_le. lra. }
  revert H8. unfold handle64, handle. apply ap_le; [lia|zc].
Qed.

(** ** The points of the ellipse *)
Context (cx cy rx ry : sf) (cx' cy' rx' ry' : R).
Context (Hcx : ap 18 (2 ^ 82) cx cx') (Hcy : ap 18 (2 ^ 82) cy cy') (Hrx : ap 17 (2 ^ 80) rx rx') (Hry : ap 17 (2 ^ 80) ry ry').
Notation fz := (S754_zero false).
Notation f1 := (fnum E 1).
Lemma one_ap : ap 0 0 f1 (cos 0). Proof using. rewrite cos_0. apply ap_num; [lia|cbn; lra]. Qed.
Lemma nil_ap : ap 0 0 fz (sin 0). Proof using O. rewrite sin_0. apply (ap_zero O). lia. Qed.
Lemma wave a a' w w' : ap 17 (2 ^ 80) a a' -> ap 1 (2 ^ 67) w w' -> ap 18 (2 ^ 85) (SFmul 53 1024 (SFmul 53 1024 a w) f1) (a' * w' * cos 0) /\ ap 18 (2 ^ 85) (SFmul 53 1024 (SFmul 53 1024 a w) fz) (a' * w' * sin 0).
Proof using.
  intros H1 H2. pose proof (ap_mul 17 1 _ _ _ _ _ _ ltac:(lia) ltac:(lia) ltac:(lia) H1 H2) as H3.
  split; [wk (ap_mul 18 0 _ _ _ _ _ _ ltac:(lia) ltac:(lia) ltac:(lia) H3 one_ap)|wk (ap_mul 18 0 _ _ _ _ _ _ ltac:(lia) ltac:(lia) ltac:(lia) H3 nil_ap)].
Qed.
Lemma waves eta t : ap 3 (2 ^ 66) eta t -> ap 1 (2 ^ 67) (o_sin O eta) (sin t) /\ ap 1 (2 ^ 67) (o_cos O eta) (cos t).
Proof using HF. intros H. split; [wk (ap_sin _ _ _ H)|wk (ap_cos _ _ _ H)]. Qed.
Lemma point_ap eta t : ap 3 (2 ^ 66) eta t -> ap 20 (2 ^ 87) (fst (ellipsePointAt (E := E) rx ry fz f1 eta cx cy)) (fst (ell_at cx' cy' rx' ry' 0 t))
  /\ ap 20 (2 ^ 87) (snd (ellipsePointAt (E := E) rx ry fz f1 eta cx cy)) (snd (ell_at cx' cy' rx' ry' 0 t)).
Proof using HF Hcx Hcy Hrx Hry.
  intros H. destruct (waves _ _ H) as [Hs Hc]. destruct (wave _ _ _ _ Hrx Hc) as [A1 A2]. destruct (wave _ _ _ _ Hry Hs) as [B1 B2].
  apply (ap_le _ 19 _ (2 ^ 85)) in B1, B2; try zc.
  split; [wk (ap_sub 19 _ _ _ _ _ _ ltac:(lia) (ap_add 18 _ _ _ _ _ _ ltac:(lia) Hcx A1) B2)|wk (ap_add 19 _ _ _ _ _ _ ltac:(lia) (ap_add 18 _ _ _ _ _ _ ltac:(lia) Hcy A2) B1)].
Qed.
Lemma prime_ap eta t : ap 3 (2 ^ 66) eta t -> ap 19 (2 ^ 86) (fst (ellipsePrime (E := E) rx ry fz f1 eta)) (fst (ell_dir rx' ry' 0 t))
  /\ ap 19 (2 ^ 86) (snd (ellipsePrime (E := E) rx ry fz f1 eta)) (snd (ell_dir rx' ry' 0 t)).
Proof using HF Hrx Hry.
  intros H. destruct (waves _ _ H) as [Hs Hc]. destruct (wave _ _ _ _ Hry Hc) as [A1 A2].
  pose proof (ap_opp _ _ _ _ (ap_mul 17 1 _ _ _ _ _ _ ltac:(lia) ltac:(lia) ltac:(lia) Hrx Hs)) as N.
  pose proof (ap_mul 18 0 _ _ _ _ _ _ ltac:(lia) ltac:(lia) ltac:(lia) N one_ap) as N1. pose proof (ap_mul 18 0 _ _ _ _ _ _ ltac:(lia) ltac:(lia) ltac:(lia) N nil_ap) as N2.
  unfold ell_dir. cbn [fst snd]. rewrite <- !Ropp_mult_distr_l in *.
  split; [wk (ap_sub 18 _ _ _ _ _ _ ltac:(lia) N1 A2)|wk (ap_add 18 _ _ _ _ _ _ ltac:(lia) N2 A1)].
Qed.
Lemma grid_ap x y x' y' : ap 25 (2 ^ 93) x x' -> ap 25 (2 ^ 93) y y' -> Rabs x' <= pow 24 -> Rabs y' <= pow 24 -> pt_within 1 (toFixedP (E := E) x y) (grid_R (x', y')).
Proof using.
  assert (K : forall x x', ap 25 (2 ^ 93) x x' -> Rabs x' <= pow 24 -> (Z.abs (sf_to_i32 O (SFmul 53 1024 x (fnum E 64)) - wrap32 (Ztrunc (x' * 64))) <= 1)%Z).
  { intros a a' H Hb. assert (H64 : ap 6 0 (fnum E 64) 64) by (apply ap_num; [lia|cbn; lra]).
    pose proof (ap_mul 25 6 _ _ _ _ _ _ ltac:(lia) ltac:(lia) ltac:(lia) H H64) as H1. apply (ap_le _ 31 _ (2 ^ 99 + 2 ^ 79)) in H1; [|lia|zc].
    apply (ap_trunc O _ _ _ _ H1); [apply (err_small _ 0); lia|]. rewrite Rabs_mult, (Rabs_pos_eq 64) by lra. change (pow 24) with 16777216 in Hb. lra. }
  intros H1 H2 B1 B2. split; cbn [fst snd grid_R toFixedP]; apply K; assumption.
Qed.
Notation at_R i := (0 + INR i * step_R).
Lemma ap_tight b e x r : ap b e x r -> (e <= 2 ^ 90)%Z -> Rabs r <= 7 -> ap 3 e x r.
Proof using.
  intros ((V & Fi & _) & H & _) He Hr. pose proof (small60 e He). change (pow 3) with 8. split; [split; [exact V|split; [exact Fi|]]|split; [exact H|change (pow 3) with 8; lra]].
  apply Rabs_le_inv in H, Hr. apply Rabs_le. change (pow 3) with 8. lra.
Qed.
Lemma eta_ap i : (i <= 17)%nat -> ap 3 (2 ^ 66) (SFadd 53 1024 fz (SFmul 53 1024 step64 (sf_of_Z (Z.of_nat i)))) (at_R i).
Proof using O.
  intros Hi. assert (Hz : ap 5 0 (sf_of_Z (Z.of_nat i)) (IZR (Z.of_nat i))) by (apply (ap_ofZ O 5); [lia|change (2 ^ 5)%Z with 32%Z; lia]).
  pose proof (ap_mul 0 5 _ _ _ _ _ _ ltac:(lia) ltac:(lia) ltac:(lia) step_ap Hz) as H1.
  assert (H0 : ap 5 0 fz 0) by (apply (ap_zero O); lia). pose proof (ap_add 5 _ _ _ _ _ _ ltac:(lia) H0 H1) as H2.
  rewrite INR_IZR_INZ, (Rmult_comm (IZR _)). apply (ap_tight 6); [revert H2; apply ap_le; [lia|zc]|zc|].
  pose proof pi_bounds. assert (0 <= IZR (Z.of_nat i) <= 17) by (split; apply IZR_le; lia). apply Rabs_le. nra.
Qed.
Lemma ctrl_ap x x' v v' : ap 20 (2 ^ 87) x x' -> ap 19 (2 ^ 86) v v' ->
  ap 21 (2 ^ 93) (SFadd 53 1024 x (SFmul 53 1024 handle64 v)) (x' + handle step_R * v') /\ ap 21 (2 ^ 93) (SFsub 53 1024 x (SFmul 53 1024 handle64 v)) (x' - handle step_R * v').
Proof using HF.
  intros Hx Hv. pose proof (ap_mul 1 19 _ _ _ _ _ _ ltac:(lia) ltac:(lia) ltac:(lia) handle_ap Hv) as Hm.
  split; [wk (ap_add 20 _ _ _ _ _ _ ltac:(lia) Hx Hm)|wk (ap_sub 20 _ _ _ _ _ _ ltac:(lia) Hx Hm)].
Qed.
Lemma grid_near x y x' y' : ap 21 (2 ^ 93) x x' -> ap 21 (2 ^ 93) y y' -> pt_within 1 (toFixedP (E := E) x y) (grid_R (x', y')).
Proof using.
  intros H1 H2. apply grid_ap; [revert H1; apply ap_le; lia|revert H2; apply ap_le; lia| |]; [apply Rle_trans with (1 := proj2 (proj2 H1))|apply Rle_trans with (1 := proj2 (proj2 H2))]; apply bpow_le; lia.
Qed.
Lemma segs_near (ex ey : F E) : ap 20 (2 ^ 87) ex (fst (ell_at cx' cy' rx' ry' 0 (at_R 17))) -> ap 20 (2 ^ 87) ey (snd (ell_at cx' cy' rx' ry' 0 (at_R 17))) ->
  forall n i (lx ly vx vy : F E) p q, (i + n = 17)%nat ->
  ap 20 (2 ^ 87) lx (fst (ell_at cx' cy' rx' ry' 0 (at_R i))) -> ap 20 (2 ^ 87) ly (snd (ell_at cx' cy' rx' ry' 0 (at_R i))) ->
  ap 19 (2 ^ 86) vx (fst (ell_dir rx' ry' 0 (at_R i))) -> ap 19 (2 ^ 86) vy (snd (ell_dir rx' ry' 0 (at_R i))) -> Forall2 (op_within 1) p q ->
  Forall2 (op_within 1) (fst (ellSegs (E := E) n (Z.of_nat i + 1) 17 rx ry ex ey cx cy fz f1 fz step64 handle64 lx ly vx vy p))
    (q ++ map (fun j => piece cx' cy' rx' ry' 0 (at_R j) step_R) (seq i n)).
Proof using HF Hcx Hcy Hrx Hry.
  intros Hex Hey. induction n as [|n IH]; intros i lx ly vx vy p q Hi Hlx Hly Hvx Hvy Hp; cbn [ellSegs seq map]; [rewrite app_nil_r; exact Hp|].
  assert (He : ap 3 (2 ^ 66) (SFadd 53 1024 fz (SFmul 53 1024 step64 (sf_of_Z (Z.of_nat (S i))))) (at_R (S i))) by (apply eta_ap; lia).
  replace (Z.of_nat i + 1)%Z with (Z.of_nat (S i)) by lia.
  change (fadd E fz (fmul E step64 (f_of_Z E (Z.of_nat (S i))))) with (SFadd 53 1024 fz (SFmul 53 1024 step64 (sf_of_Z (Z.of_nat (S i))))).
  set (eta := SFadd 53 1024 fz _) in *. clearbody eta.
  pose proof (point_ap _ _ He) as [P1 P2]. pose proof (prime_ap _ _ He) as [D1 D2].
  assert (Q : exists px py : F E, (if (Z.of_nat (S i) =? 17)%Z then (ex, ey) else ellipsePointAt (E := E) rx ry fz f1 eta cx cy) = (px, py)
    /\ ap 20 (2 ^ 87) px (fst (ell_at cx' cy' rx' ry' 0 (at_R (S i)))) /\ ap 20 (2 ^ 87) py (snd (ell_at cx' cy' rx' ry' 0 (at_R (S i))))).
  { destruct (Z.eqb_spec (Z.of_nat (S i)) 17) as [E1|E1].
    - assert (S i = 17)%nat by lia. exists ex, ey. rewrite H. auto.
    - destruct (ellipsePointAt _ _ _ _ _ _ _) as [px py]. exists px, py. auto. }
  destruct Q as (px & py & -> & Q1 & Q2). destruct (ellipsePrime (E := E) rx ry fz f1 eta) as [dx dy]. cbn [fst snd] in D1, D2.
  assert (Et : at_R i + step_R = at_R (S i)) by (rewrite S_INR; ring).
  replace (q ++ piece cx' cy' rx' ry' 0 (at_R i) step_R :: map (fun j => piece cx' cy' rx' ry' 0 (at_R j) step_R) (seq (S i) n))
    with ((q ++ [piece cx' cy' rx' ry' 0 (at_R i) step_R]) ++ map (fun j => piece cx' cy' rx' ry' 0 (at_R j) step_R) (seq (S i) n)) by (rewrite <- app_assoc; reflexivity).
  apply IH; try assumption; [lia|]. unfold pCube. apply Forall2_app; [exact Hp|]. constructor; [|constructor]. unfold piece. rewrite Et.
  constructor; [apply grid_near; apply ctrl_ap; assumption|apply grid_near; apply ctrl_ap; assumption|].
  rewrite (surjective_pairing (ell_at cx' cy' rx' ry' 0 (at_R (S i)))). apply grid_near; [revert Q1|revert Q2]; apply ap_le; lia.
Qed.

(** ** The outline *)
Context (Lx : / 2 ^ 16 <= rx') (Ly : / 2 ^ 16 <= ry').
Lemma radius_lo r r' : ap 17 (2 ^ 80) r r' -> / 2 ^ 16 <= r' -> pow (-17) <= val r.
Proof using.
  intros (_ & H & _) Hr. rewrite pow_Z in H by lia. rewrite <- bpow_plus in H. change (pow (80 + -100)) with (/ 1048576) in H. change (pow (-17)) with (/ 131072). apply Rabs_le_inv in H. lra.
Qed.
Lemma sub_self x : finite64 x -> SFsub 53 1024 x x = fz.
Proof using.
  intros [V Fi]. destruct x as [s|s| |s m e]; try contradiction; [destruct s; reflexivity|]. 
  unfold SFsub. rewrite Z.min_id. rewrite Z.sub_diag. reflexivity.
Qed.
Lemma div_zero r : finite64 r -> 0 < val r -> SFdiv 53 1024 fz r = fz.
Proof using.
  intros [V Fi] Hr. destruct r as [s|s| |s m e]; try contradiction; [cbn in Hr; lra|]. destruct s; [|reflexivity]. exfalso.
  assert (val (S754_finite true m e) < 0) by (apply F2R_lt_0; reflexivity). lra.
Qed.
Lemma start_ap : ap 19 (2 ^ 83) (SFadd 53 1024 cx rx) (cx' + rx') /\ finite64 (SFsub 53 1024 (SFadd 53 1024 cx rx) cx) /\ 0 < val (SFsub 53 1024 (SFadd 53 1024 cx rx) cx).
Proof using Hcx Hrx Lx.
  assert (Hr : ap 18 (2 ^ 80) rx rx') by (revert Hrx; apply ap_le; lia). pose proof (ap_add 18 _ _ _ _ _ _ ltac:(lia) Hcx Hr) as H1. apply (ap_le _ 19 _ (2 ^ 83)) in H1; [|lia|zc].
  split; [exact H1|]. pose proof (radius_lo _ _ Hrx Lx) as HL. change (pow (-17)) with (/ 131072) in HL.
  destruct (bd_add 18 cx rx ltac:(lia) (proj1 Hcx) (proj1 Hr)) as [B1 E1]. assert (B2 : bd 19 cx) by (pose proof (proj1 Hcx) as B; revert B; apply bd_le; lia).
  destruct (bd_sub 19 _ cx ltac:(lia) B1 B2) as [B3 E3]. split; [exact (bd_fin _ _ B3)|]. rewrite E3, E1.
  assert (Hs : Rabs (val cx + val rx) <= pow 19).
  { change (pow 19) with (pow (18 + 1)). rewrite pow_S. pose proof (Rabs_triang (val cx) (val rx)). pose proof (proj2 (proj2 (proj1 Hcx))). pose proof (proj2 (proj2 (proj1 Hr))). lra. }
  pose proof (rnd_err 19 _ ltac:(lia) Hs) as H2. rewrite pow_Z in H2 by lia. rewrite <- bpow_plus in H2. change (pow (19 + 47 + -100)) with (/ 17179869184) in H2. apply Rabs_le_inv in H2.
  assert (Hp : pow (-18) <= rnd (val cx + val rx) - val cx) by (change (pow (-18)) with (/ 262144); lra).
  apply Rlt_le_trans with (pow (-18)); [apply bpow_gt_0|]. rewrite <- (rnd_id (pow (-18))); [apply rnd_mono, Hp|apply pow_format; lia].
Qed.
Lemma inv_pos r r' : ap 17 (2 ^ 80) r r' -> / 2 ^ 16 <= r' -> finite64 (SFdiv 53 1024 f1 r) /\ 0 < val (SFdiv 53 1024 f1 r).
Proof using.
  intros H Hl. pose proof (radius_lo _ _ H Hl) as HL. pose proof (bpow_gt_0 radix2 (-17)) as P0. destruct H as ((V & Fi & B) & _).
  destruct (num_val O 1) as [[V1 F1] H1]; [lia|].
  assert (B1 : bd 0 f1) by (split; [exact V1|split; [exact F1|rewrite H1, Rabs_pos_eq by lra; cbn; lra]]).
  destruct (bd_div 0 (-17) f1 r ltac:(lia) B1 V Fi) as [K1 K2]; [unfold lo; rewrite Rabs_pos_eq by lra; exact HL|].
  split; [exact (bd_fin _ _ K1)|]. rewrite K2, H1. rewrite Rabs_pos_eq in B by lra. 
  apply Rlt_le_trans with (pow (-17)); [exact P0|]. rewrite <- (rnd_id (pow (-17))) by (apply pow_format; lia). apply rnd_mono.
  change (-17)%Z with (- (17))%Z. rewrite bpow_opp. unfold Rdiv. rewrite Rmult_1_l. apply Rinv_le; [lra|exact B].
Qed.
Lemma addArc_near p q : Forall2 (op_within 1) p q ->
  exists p' e, addArc (E := E) [rx; ry; fz; f1; fz; SFadd 53 1024 cx rx; cy] cx cy (SFadd 53 1024 cx rx) cy p = Ret (p', e)
    /\ Forall2 (op_within 1) p' (q ++ pieces cx' cy' rx' ry' 0 0 (- (2 * PI)) 17).
Proof using HF Hcx Hcy Hrx Hry Lx Ly.
  intros Hp. unfold addArc. cbn [idx nth_error obind]. cbv zeta. destruct (start_ap) as (A & Fs & Ps). destruct (fair_zero O HF) as [T1 T2].
  pose proof (radius_lo _ _ Hry Ly) as HL. pose proof (bpow_gt_0 radix2 (-17)) as P0. destruct (inv_pos _ _ Hrx Lx) as [I1 I2].
  assert (Er : fdiv E (fmul E fz (fpi E)) (fnum E 180) = fz) by (rewrite pi64_eq; vm_compute; reflexivity). rewrite Er.
  assert (Ea : fsub E (fatan2 E (fsub E cy cy) (fsub E (SFadd 53 1024 cx rx) cx)) fz = fz).
  { change (SFsub 53 1024 (o_atan2 O (SFsub 53 1024 cy cy) (SFsub 53 1024 (SFadd 53 1024 cx rx) cx)) fz = fz). rewrite sub_self by exact (bd_fin _ _ (proj1 Hcy)).
    rewrite (fair_atan2 O HF _ Fs Ps). reflexivity. }
  rewrite Ea. 
  assert (Ee : fatan2 E (fdiv E (fsin E fz) ry) (fdiv E (fcos E fz) rx) = fz).
  { change (o_atan2 O (SFdiv 53 1024 (o_sin O fz) ry) (SFdiv 53 1024 (o_cos O fz) rx) = fz). rewrite T1, T2. 
    rewrite div_zero; [|exact (bd_fin _ _ (proj1 Hry))|lra]. apply (fair_atan2 O HF); assumption. }
  rewrite Ee.
  assert (Ed : adjustEta (E := E) (fsub E fz fz) (fltb E (fpi E) (fabs E (fsub E fz fz))) (negb (feqb E f1 (fnum E 0))) (negb (feqb E fz (fnum E 0))) = turn64).
  { unfold adjustEta. rewrite two_pi64_eq, pi64_eq. vm_compute. reflexivity. }
  rewrite Ed. 
  assert (Es : (f_to_int E (fdiv E (fabs E turn64) (piOver8 (E := E))) + 1 = 17)%Z).
  { change (piOver8 (E := E)) with (SFdiv 53 1024 (fpi E) (fnum E 8)). rewrite pi64_eq. vm_compute. reflexivity. }
  rewrite Es. change (fdiv E turn64 (f_of_Z E 17)) with step64.
  match goal with |- context [ellSegs _ _ _ _ _ _ _ _ _ _ _ _ _ ?h] => change h with handle64 end.
  change (fsin E fz) with (o_sin O fz). change (fcos E fz) with (o_cos O fz). rewrite T1, T2.
  assert (A0 : forall t, cos t = 1 -> sin t = 0 -> ell_at cx' cy' rx' ry' 0 t = (cx' + rx', cy')).
  { intros t H1 H2. unfold ell_at. rewrite H1, H2, cos_0, sin_0. f_equal; ring. }
  assert (Z0 : at_R 0 = 0) by (cbn [INR]; ring). assert (Z17 : at_R 17 = - (2 * PI)) by (rewrite INR_IZR_INZ; cbn; field).
  assert (S0 : ell_at cx' cy' rx' ry' 0 (at_R 0) = (cx' + rx', cy')) by (apply A0; rewrite Z0; [apply cos_0|apply sin_0]).
  assert (S17 : ell_at cx' cy' rx' ry' 0 (at_R 17) = (cx' + rx', cy')) by (apply A0; rewrite Z17; [rewrite cos_neg; apply cos_2PI|rewrite sin_neg, sin_2PI; ring]).
  assert (Ax : ap 20 (2 ^ 87) (SFadd 53 1024 cx rx) (cx' + rx')) by (revert A; apply ap_le; lia). assert (Ay : ap 20 (2 ^ 87) cy cy') by (revert Hcy; apply ap_le; lia).
  assert (H3 : ap 3 (2 ^ 66) fz (at_R 0)) by (rewrite Z0; apply (ap_le 3 3 0); [lia|lia|apply (ap_zero O); lia]).
  pose proof (prime_ap fz (at_R 0) H3) as [D1 D2]. change (sf_lit 1 1) with f1.
  destruct (ellipsePrime (E := E) rx ry fz f1 fz) as [dx dy]. cbn [fst snd] in D1, D2.
  destruct (ellSegs (E := E) (Z.to_nat 17) 1 17 rx ry (SFadd 53 1024 cx rx) cy cx cy fz f1 fz step64 handle64 (SFadd 53 1024 cx rx) cy dx dy p) as [p' e] eqn:Eg.
  exists p', e. split; [reflexivity|].
  pose proof (segs_near (SFadd 53 1024 cx rx) cy) as HS. rewrite S17 in HS. specialize (HS Ax Ay 17%nat 0%nat (SFadd 53 1024 cx rx) cy dx dy p q eq_refl). rewrite S0 in HS. specialize (HS Ax Ay D1 D2 Hp).
  change (Z.of_nat 0 + 1)%Z with 1%Z in HS. change 17%nat with (Z.to_nat 17) in HS at 1. rewrite Eg in HS. cbn [fst] in HS. unfold pieces. replace (INR 17) with 17 by (rewrite INR_IZR_INZ; reflexivity). exact HS.
Qed.
Theorem ellipseAt_near (c : pcur E) : pc_path c = [] ->
  exists c', ellipseAt (E := E) cx cy rx ry c = (c', Ret tt) /\ Forall2 (op_within 1) (pc_path c') (whole_ellipse cx' cy' rx' ry') /\ frame c c' /\ pc_log c' = pc_log c.
Proof using HF Hcx Hcy Hrx Hry Lx Ly.
  intros Hp. destruct (ellipseAt_closed (E := E) cx cy rx ry c Hp) as (c' & H1 & _ & H3 & H4). exists c'. split; [exact H1|]. split; [|split; assumption].
  destruct start_ap as (A & _). 
  assert (Hm : Forall2 (op_within 1) [OpMoveTo (toFixedP (E := E) (SFadd 53 1024 cx rx) cy)] [OpMoveTo (grid_R (cx' + rx', cy'))]).
  { constructor; [|constructor]. constructor. apply grid_near; [revert A|revert Hcy]; apply ap_le; lia. }
  destruct (addArc_near _ _ Hm) as (p' & [ex ey] & E1 & E2).
  rewrite (ellipseAt_path (E := E) cx cy rx ry c c' p' ex ey Hp H1 E1). unfold whole_ellipse. change (?a :: ?b ++ ?d) with (([a] ++ b) ++ d). apply Forall2_app; [exact E2|]. constructor; constructor.
Qed.
End Round.

(** * ProofsArc64: arcs of modest measures are always drawn in binary64 *)
From Coq Require Import ZArith Lia Reals Lra Psatz Floats.SpecFloat.
From Flocq Require Import Core.Core IEEE754.BinarySingleNaN.
From Flocq Require Import Relative.
From Verif Require Import F64 SpecDoc SpecTree SpecLift SpecEnd ProofsFlocq ProofsAngle ProofsArc ProofsArc2 ProofsF64 ProofsLift3 ProofsSize3 SpecArc64.
Local Open Scope R_scope.
Local Existing Instance ProofsFlocq.Hprec.
Local Existing Instance ProofsFlocq.Hmax.
Notation pow := (bpow radix2).
Notation okx b := (-1074 <= b <= 1000)%Z.

Lemma pow_format b : okx b -> generic_format radix2 fexp64 (pow b).
Proof. intros H. apply generic_format_bpow. unfold fexp64, SpecFloat.fexp, SpecFloat.emin. lia. Qed.
Lemma rnd_up b r : okx b -> Rabs r <= pow b -> Rabs (rnd r) <= pow b.
Proof. intros Hb H. apply abs_round_le_generic; [apply (fexp_correct 53 1024), ProofsFlocq.Hprec|typeclasses eauto|apply pow_format, Hb|exact H]. Qed.
Lemma rnd_lo b r : okx b -> pow b <= Rabs r -> pow b <= Rabs (rnd r).
Proof. intros Hb H. apply abs_round_ge_generic; [apply (fexp_correct 53 1024), ProofsFlocq.Hprec|typeclasses eauto|apply pow_format, Hb|exact H]. Qed.
Lemma no_over b r : okx b -> Rabs r <= pow b -> Rabs (rnd r) < pow 1024.
Proof. intros Hb H. apply Rle_lt_trans with (pow b); [apply rnd_up; assumption|]. apply bpow_lt. lia. Qed.

Definition bd (b : Z) (x : sf) : Prop := valid x /\ finite x /\ Rabs (val x) <= pow b.
Definition lo (b : Z) (x : sf) : Prop := pow b <= Rabs (val x).
Lemma bd_le a b x : (a <= b)%Z -> bd a x -> bd b x.
Proof. intros H (V & Fi & K). split; [exact V|]. split; [exact Fi|]. apply Rle_trans with (1 := K), bpow_le, H. Qed.
Lemma lo_le a b x : (a <= b)%Z -> lo b x -> lo a x.
Proof. intros H K. apply Rle_trans with (2 := K), bpow_le, H. Qed.
Lemma lo_nz b x : lo b x -> val x <> 0.
Proof. intros H K. unfold lo in H. rewrite K, Rabs_R0 in H. pose proof (bpow_gt_0 radix2 b). lra. Qed.
Lemma pow_S a : pow (a + 1) = 2 * pow a.
Proof. rewrite bpow_plus. cbn. lra. Qed.

Lemma bd_add a x y : okx (a + 1) -> bd a x -> bd a y ->
  bd (a + 1) (SFadd 53 1024 x y) /\ val (SFadd 53 1024 x y) = rnd (val x + val y).
Proof.
  intros Ha (Vx & Fx & Hx) (Vy & Fy & Hy). assert (H : Rabs (val x + val y) <= pow (a + 1)). { rewrite pow_S. pose proof (Rabs_triang (val x) (val y)). lra. }
  destruct (add_round x y Vx Vy Fx Fy (no_over _ _ Ha H)) as [K1 K2]. split; [|exact K2]. split; [apply add_valid; assumption|]. split; [exact K1|]. rewrite K2. apply rnd_up; assumption.
Qed.
Lemma bd_opp a x : bd a x -> bd a (SFopp x).
Proof. intros (V & Fi & H). split; [apply opp_valid, V|]. split; [apply opp_finite, Fi|]. rewrite opp_val, Rabs_Ropp. exact H. Qed.
Lemma bd_sub a x y : okx (a + 1) -> bd a x -> bd a y ->
  bd (a + 1) (SFsub 53 1024 x y) /\ val (SFsub 53 1024 x y) = rnd (val x - val y).
Proof. intros Ha Hx Hy. rewrite sub_add. destruct (bd_add a x (SFopp y) Ha Hx (bd_opp _ _ Hy)) as [K1 K2]. split; [exact K1|]. rewrite K2, opp_val. reflexivity. Qed.
Lemma bd_mul a b x y : okx (a + b) -> bd a x -> bd b y ->
  bd (a + b) (SFmul 53 1024 x y) /\ val (SFmul 53 1024 x y) = rnd (val x * val y).
Proof.
  intros Ha (Vx & Fx & Hx) (Vy & Fy & Hy). assert (H : Rabs (val x * val y) <= pow (a + b)).
  { rewrite bpow_plus, Rabs_mult. apply Rmult_le_compat; try apply Rabs_pos; assumption. }
  destruct (mul_round x y Vx Vy Fx Fy (no_over _ _ Ha H)) as [K1 K2]. split; [|exact K2]. split; [apply mul_valid; assumption|]. split; [exact K1|]. rewrite K2. apply rnd_up; assumption.
Qed.
Lemma bd_div a b x y : okx (a - b) -> bd a x -> valid y -> finite y -> lo b y ->
  bd (a - b) (SFdiv 53 1024 x y) /\ val (SFdiv 53 1024 x y) = rnd (val x / val y).
Proof.
  intros Ha (Vx & Fx & Hx) Vy Fy Hy. assert (H : Rabs (val x / val y) <= pow (a - b)).
  { unfold Z.sub, Rdiv. rewrite bpow_plus, Rabs_mult, bpow_opp. apply Rmult_le_compat; try apply Rabs_pos; [exact Hx|].
    rewrite Rabs_inv. apply Rinv_le; [apply bpow_gt_0|exact Hy]. }
  destruct (div_round x y Vx Vy Fx Fy (lo_nz _ _ Hy) (no_over _ _ Ha H)) as [K1 K2]. split; [|exact K2]. split; [apply div_valid; assumption|]. split; [exact K1|]. rewrite K2. apply rnd_up; assumption.
Qed.
Lemma sqrt_equiv (x : bf) : SFsqrt 53 1024 (B2SF x) = B2SF (Bsqrt mode_NE x).
Proof.
  destruct x as [s|s| |s m e H]; try reflexivity. { destruct s; reflexivity. } destruct s; [reflexivity|]. cbn. rewrite B2SF_SF2B.
  destruct (SFsqrt_core_binary _ _ _ _) as [[mz ez] lz]. apply bra_equiv.
Qed.
Lemma sqrt_round x : valid x -> finite x -> 0 <= val x ->
  valid (SFsqrt 53 1024 x) /\ finite (SFsqrt 53 1024 x) /\ val (SFsqrt 53 1024 x) = rnd (sqrt (val x)).
Proof.
  intros [a ->]%of_valid Ha%finite_b Hp. rewrite sqrt_equiv. rewrite !SF2R_B2SF in *. destruct (Bsqrt_correct 53 1024 ProofsFlocq.Hprec ProofsFlocq.Hmax mode_NE a) as (H1 & H2 & _).
  split; [apply valid_b|]. split; [|exact H1]. apply finite_b. rewrite H2. destruct a as [s|s| |s m e H]; try reflexivity; try discriminate Ha. destruct s; [|reflexivity].
  exfalso. cbn in Hp. pose proof (F2R_lt_0 radix2 (Float radix2 (Z.neg m) e) eq_refl). lra.
Qed.
Lemma sqrt_pow a : sqrt (pow (2 * a)) = pow a.
Proof. replace (2 * a)%Z with (a + a)%Z by lia. rewrite bpow_plus. apply sqrt_square, bpow_ge_0. Qed.
Lemma bd_sqrt a x : okx a -> bd (2 * a) x -> 0 <= val x ->
  bd a (SFsqrt 53 1024 x) /\ val (SFsqrt 53 1024 x) = rnd (sqrt (val x)).
Proof.
  intros Ha (V & Fi & H) Hp. destruct (sqrt_round x V Fi Hp) as (K1 & K2 & K3). split; [|exact K3]. split; [exact K1|]. split; [exact K2|]. rewrite K3. apply rnd_up; [exact Ha|].
  rewrite Rabs_pos_eq by apply sqrt_pos. rewrite <- sqrt_pow. apply sqrt_le_1_alt. apply Rle_trans with (2 := H), Rle_abs.
Qed.
(** lower bounds *)
Lemma lo_mul a b x y : okx (a + b) -> lo a x -> lo b y -> val (SFmul 53 1024 x y) = rnd (val x * val y) -> lo (a + b) (SFmul 53 1024 x y).
Proof.
  intros Ha Hx Hy E. unfold lo. rewrite E. apply rnd_lo; [exact Ha|]. rewrite bpow_plus, Rabs_mult. apply Rmult_le_compat; try apply bpow_ge_0; assumption.
Qed.
Lemma lo_div a b x y : okx (a - b) -> lo a x -> val y <> 0 -> Rabs (val y) <= pow b -> val (SFdiv 53 1024 x y) = rnd (val x / val y) -> lo (a - b) (SFdiv 53 1024 x y).
Proof.
  intros Ha Hx H0 Hy E. unfold lo. rewrite E. apply rnd_lo; [exact Ha|]. unfold Z.sub, Rdiv. rewrite bpow_plus, Rabs_mult, bpow_opp. apply Rmult_le_compat; try apply bpow_ge_0.
  - apply Rlt_le, Rinv_0_lt_compat, bpow_gt_0.
  - exact Hx.
  - rewrite Rabs_inv. apply Rinv_le; [apply Rabs_pos_lt, H0|exact Hy].
Qed.
Lemma lo_sqrt a x : okx a -> lo (2 * a) x -> 0 <= val x -> val (SFsqrt 53 1024 x) = rnd (sqrt (val x)) -> lo a (SFsqrt 53 1024 x).
Proof.
  intros Ha H Hp E. unfold lo in *. rewrite E. apply rnd_lo; [exact Ha|]. rewrite Rabs_pos_eq by apply sqrt_pos. rewrite <- sqrt_pow. apply sqrt_le_1_alt. rewrite Rabs_pos_eq in H by exact Hp. exact H.
Qed.
Lemma ltb_false x y : valid x -> valid y -> finite x -> finite y -> SFltb x y = false -> val y <= val x.
Proof.
  intros [a ->]%of_valid [b ->]%of_valid Ha%finite_b Hb%finite_b. rewrite !SF2R_B2SF.
  pose proof (Bltb_correct 53 1024 a b Ha Hb) as H. unfold Bltb in H. rewrite H. destruct (Rlt_bool_spec (B2R a) (B2R b)); [discriminate|auto].
Qed.
Lemma rnd_pos r : 0 <= r -> 0 <= rnd r.
Proof. intros H. replace 0 with (rnd 0) by (apply round_0; typeclasses eauto). apply rnd_le, H. Qed.

(** ** rotating a vector does not make it vanish *)
Lemma err64 z N : pow (-50) <= N -> Rabs z <= N -> Rabs (rnd z - z) <= / 1024 * N.
Proof.
  intros HN Hz. destruct (error_N_FLT radix2 (-1074) 53 eq_refl (fun x => negb (Z.even x)) z) as (ep & et & H1 & H2 & _ & H4).
  change (round radix2 (FLT_exp (-1074) 53) ZnearestE z) with (rnd z) in H4. rewrite H4.
  assert (E1 : / 2 * pow (-53 + 1) <= / 4096). { assert (pow (-53 + 1) <= pow (-12)) by (apply bpow_le; lia). assert (pow (-12) = / 4096) by (cbn; lra). lra. }
  assert (E2 : / 2 * pow (-1074) <= / 4096 * pow (-50)).
  { assert (pow (-1074) <= pow (-62)) by (apply bpow_le; lia). assert (pow (-62) = / 4096 * pow (-50)) by (change (-62)%Z with (-12 + -50)%Z; rewrite bpow_plus; f_equal; cbn; lra). pose proof (bpow_gt_0 radix2 (-1074)). lra. }
  replace (z * (1 + ep) + et - z) with (z * ep + et) by ring. eapply Rle_trans; [apply Rabs_triang|]. rewrite Rabs_mult.
  assert (Rabs z * Rabs ep <= N * / 4096). { apply Rmult_le_compat; try apply Rabs_pos; [exact Hz|exact (Rle_trans _ _ _ H1 E1)]. }
  pose proof (bpow_gt_0 radix2 (-50)). lra.
Qed.
Lemma big_or X Y N : 0 < N -> N * N / 2 <= X * X + Y * Y -> N / 2 <= Rabs X \/ N / 2 <= Rabs Y.
Proof.
  intros HN H. destruct (Rle_lt_dec (N / 2) (Rabs X)) as [|H1]; [auto|]. destruct (Rle_lt_dec (N / 2) (Rabs Y)) as [|H2]; [auto|]. exfalso.
  pose proof (Rabs_pos X). pose proof (Rabs_pos Y). assert (X * X = Rabs X * Rabs X) by (rewrite <- Rabs_mult; symmetry; apply Rabs_pos_eq; nra).
  assert (Y * Y = Rabs Y * Rabs Y) by (rewrite <- Rabs_mult; symmetry; apply Rabs_pos_eq; nra). nra.
Qed.
Lemma turned nx ny c s : Rabs c <= 1 -> Rabs s <= 1 -> / 2 <= s * s + c * c -> (pow (-50) <= Rabs nx \/ pow (-50) <= Rabs ny) ->
  pow (-52) <= Rabs (rnd (rnd (nx * c) + rnd (ny * s))) \/ pow (-52) <= Rabs (rnd (rnd (- nx * s) + rnd (ny * c))).
Proof.
  intros Hc Hs Hcs Hn. set (N := Rmax (Rabs nx) (Rabs ny)). assert (Nx : Rabs nx <= N) by apply Rmax_l. assert (Ny : Rabs ny <= N) by apply Rmax_r.
  assert (HN : pow (-50) <= N) by (destruct Hn; lra). pose proof (bpow_gt_0 radix2 (-50)) as P50. assert (P : pow (-52) = pow (-50) / 4) by (change (-52)%Z with (-50 + -2)%Z; rewrite bpow_plus; unfold Rdiv; f_equal; cbn; lra).
  assert (Hm : forall u v, Rabs u <= N -> Rabs v <= 1 -> Rabs (u * v) <= N). { intros u v Hu Hv. rewrite Rabs_mult. pose proof (Rabs_pos u). pose proof (Rabs_pos v). nra. }
  assert (Hq : N * N / 2 <= (nx * c + ny * s) * (nx * c + ny * s) + (- nx * s + ny * c) * (- nx * s + ny * c)).
  { replace ((nx * c + ny * s) * (nx * c + ny * s) + (- nx * s + ny * c) * (- nx * s + ny * c)) with ((nx * nx + ny * ny) * (s * s + c * c)) by ring.
    assert (N * N <= nx * nx + ny * ny).
    { unfold N, Rmax. destruct (Rle_dec (Rabs nx) (Rabs ny)); rewrite <- Rabs_mult, Rabs_pos_eq by nra; nra. }
    nra. }
  assert (Hr : forall X a b, Rabs (a + b - X) <= 2 * (/ 1024 * N) -> N / 2 <= Rabs X -> pow (-52) <= Rabs (rnd (a + b))).
  { intros X a b H1 H2. apply rnd_lo; [lia|]. rewrite P. pose proof (Rabs_triang (a + b) (X - (a + b))) as T. replace (a + b + (X - (a + b))) with X in T by ring.
    rewrite (Rabs_minus_sym (a + b) X) in H1. lra. }
  assert (Hs2 : forall u v, Rabs u <= N -> Rabs v <= N -> Rabs (rnd u + rnd v - (u + v)) <= 2 * (/ 1024 * N)).
  { intros u v Hu Hv. pose proof (err64 u N HN Hu). pose proof (err64 v N HN Hv). replace (rnd u + rnd v - (u + v)) with ((rnd u - u) + (rnd v - v)) by ring.
    eapply Rle_trans; [apply Rabs_triang|]. lra. }
  destruct (big_or (nx * c + ny * s) (- nx * s + ny * c) N ltac:(lra) Hq) as [H|H]; [left|right]; eapply Hr; [|exact H| |exact H]; apply Hs2; apply Hm; try assumption; try (rewrite Rabs_Ropp; assumption).
Qed.

(** ** one arc *)
Lemma bd_Z z b : (Z.abs z < 2 ^ 53)%Z -> Rabs (IZR z) <= pow b -> bd b (sf_of_Z z).
Proof. intros Hz H. destruct (of_Z_val z Hz) as [K1 K2]. split; [apply of_Z_valid|]. split; [exact K1|]. rewrite K2. exact H. Qed.
Lemma val_Z z : (Z.abs z < 2 ^ 53)%Z -> val (sf_of_Z z) = IZR z. Proof. intros H. apply of_Z_val, H. Qed.
Lemma bd_two : bd 1 (sf_of_Z 2). Proof. apply bd_Z; [reflexivity|]. rewrite Rabs_pos_eq by lra. cbn. lra. Qed.
Lemma lo_two : lo 1 (sf_of_Z 2). Proof. unfold lo. rewrite val_Z by reflexivity. rewrite Rabs_pos_eq by lra. cbn. lra. Qed.
Lemma bd_zero b : bd b (sf_of_Z 0). Proof. apply bd_Z; [reflexivity|]. rewrite Rabs_R0. apply bpow_ge_0. Qed.

Section Arc.
Context (O : Oracles) (HO : trig_laws O).
Notation E := (F64 O).
Lemma fin64 x : finite64 x <-> valid x /\ finite x. Proof. reflexivity. Qed.
Lemma bd_fin b x : bd b x -> finite64 x. Proof. intros (V & Fi & _). split; assumption. Qed.
Lemma bd_sin b x : bd b x -> bd 0 (o_sin O x).
Proof. intros H%bd_fin. destruct (sin_finite O HO x H) as [[V Fi] K]. split; [exact V|]. split; [exact Fi|]. exact K. Qed.
Lemma bd_cos b x : bd b x -> bd 0 (o_cos O x).
Proof. intros H%bd_fin. destruct (cos_finite O HO x H) as [[V Fi] K]. split; [exact V|]. split; [exact Fi|]. exact K. Qed.
Lemma bd_nan b x : bd b x -> x <> S754_nan. Proof. intros (_ & Fi & _) ->. exact Fi. Qed.
Lemma bd_atan2 a b y x : bd a y -> bd b x -> bd 2 (o_atan2 O y x) .
Proof.
  intros Hy%bd_nan Hx%bd_nan. destruct (angle_facts O (atan2_range O HO) y x) as [K|(V & Fi & H)]; [destruct (atan2_number O HO y x Hy Hx K)|].
  split; [exact V|]. split; [exact Fi|]. pose proof pi64_val. change (pow 2) with 4. apply Rabs_le. lra.
Qed.

Lemma center64 ra rb rotX sx sy ex ey b1 b2 k : (k <= 800)%Z ->
  bd k rotX -> bd 50 sx -> bd 50 sy -> bd 50 ex -> bd 50 ey -> apart (sx, sy) (ex, ey) -> bd 50 ra -> lo (-50) ra -> bd 50 rb -> lo (-50) rb ->
  exists cx cy ra' rb', findEllipseCenter (E := E) ra rb rotX sx sy ex ey b1 b2 = ((cx, cy), (ra', rb'))
    /\ bd 865 cx /\ bd 865 cy /\ bd 252 ra' /\ lo (-253) ra' /\ bd 252 rb' /\ lo (-253) rb'.
Proof.
  intros Hk Hrot Hsx Hsy Hex Hey Hap Hra Lra Hrb Lrb. unfold findEllipseCenter.
  change (fcos E rotX) with (o_cos O rotX). change (fsin E rotX) with (o_sin O rotX). change (fsub E) with (SFsub 53 1024). change (fadd E) with (SFadd 53 1024).
  change (fmul E) with (SFmul 53 1024). change (fdiv E) with (SFdiv 53 1024). change (fneg E) with SFopp. change (fsqrt E) with (SFsqrt 53 1024). change (fltb E) with SFltb. change (feqb E) with SFeqb.
  change (fnum E 2) with (sf_of_Z 2). change (fnum E 0) with (sf_of_Z 0). cbv zeta.
  pose proof (bd_cos _ _ Hrot) as Hc. pose proof (bd_sin _ _ Hrot) as Hs. pose proof (sin_cos O HO rotX (bd_fin _ _ Hrot)) as Hsc.
  set (c := o_cos O rotX) in *. set (s := o_sin O rotX) in *. clearbody c s.
  destruct (bd_sub 50 ex sx ltac:(lia) Hex Hsx) as [Hnx Enx]. destruct (bd_sub 50 ey sy ltac:(lia) Hey Hsy) as [Hny Eny].
  set (nx := SFsub 53 1024 ex sx) in *. set (ny := SFsub 53 1024 ey sy) in *. clearbody nx ny.
  assert (Hn : pow (-50) <= Rabs (val nx) \/ pow (-50) <= Rabs (val ny)).
  { rewrite Enx, Eny. assert (P : / 2 ^ 50 = pow (-50)) by (change (-50)%Z with (- (50))%Z; rewrite bpow_opp; f_equal; cbn; lra). unfold apart in Hap. cbn [fst snd] in Hap. rewrite P in Hap.
    destruct Hap as [H|H]; [left|right]; apply rnd_lo; (lia || exact H). }
  destruct (bd_mul 51 0 nx c ltac:(lia) Hnx Hc) as [A1 A1e]. destruct (bd_mul 51 0 ny s ltac:(lia) Hny Hs) as [A2 A2e].
  destruct (bd_mul 51 0 (SFopp nx) s ltac:(lia) (bd_opp _ _ Hnx) Hs) as [A3 A3e]. destruct (bd_mul 51 0 ny c ltac:(lia) Hny Hc) as [A4 A4e].
  destruct (bd_add 51 _ _ ltac:(lia) A1 A2) as [A5 A5e]. destruct (bd_add 51 _ _ ltac:(lia) A3 A4) as [A6 A6e].
  assert (HL : lo (-52) (SFadd 53 1024 (SFmul 53 1024 nx c) (SFmul 53 1024 ny s)) \/ lo (-52) (SFadd 53 1024 (SFmul 53 1024 (SFopp nx) s) (SFmul 53 1024 ny c))).
  { unfold lo. rewrite A5e, A6e, A1e, A2e, A3e, A4e, opp_val. apply turned; [apply Hc|apply Hs|exact Hsc|exact Hn]. }
  clear A1 A1e A2 A2e A3 A3e A4 A4e A5e A6e. set (tx := SFadd 53 1024 (SFmul 53 1024 nx c) _) in *. set (ty := SFadd 53 1024 (SFmul 53 1024 (SFopp nx) s) _) in *. clearbody tx ty.
  pose proof Hra as (Vra & Fra & Bra). pose proof Hrb as (Vrb & Frb & Brb).
  destruct (bd_div 50 (-50) rb ra ltac:(lia) Hrb Vra Fra Lra) as [R1 R1e]. pose proof (lo_div (-50) 50 rb ra ltac:(lia) Lrb (lo_nz _ _ Lra) Bra R1e) as R1l.
  destruct (bd_mul 52 (50 - -50) tx (SFdiv 53 1024 rb ra) ltac:(lia) A5 R1) as [X1 X1e].
  pose proof bd_two as (V2 & F2 & B2). pose proof lo_two as L2.
  destruct (bd_div (52 + (50 - -50)) 1 _ _ ltac:(lia) X1 V2 F2 L2) as [MX MXe]. destruct (bd_div 52 1 _ _ ltac:(lia) A6 V2 F2 L2) as [MY MYe].
  assert (ML : lo (-153) (SFdiv 53 1024 (SFmul 53 1024 tx (SFdiv 53 1024 rb ra)) (sf_of_Z 2)) \/ lo (-153) (SFdiv 53 1024 ty (sf_of_Z 2))).
  { destruct HL as [H|H]; [left|right].
    - pose proof (lo_mul (-52) (-50 - 50) _ _ ltac:(lia) H R1l X1e) as K. exact (lo_div (-52 + (-50 - 50)) 1 _ _ ltac:(lia) K (lo_nz _ _ L2) B2 MXe).
    - pose proof (lo_div (-52) 1 _ _ ltac:(lia) H (lo_nz _ _ L2) B2 MYe) as K. revert K. apply lo_le. lia. }
  clear X1 X1e MXe MYe HL. set (midX := SFdiv 53 1024 (SFmul _ _ tx _) _) in *. set (midY := SFdiv 53 1024 ty _) in *. clearbody midX midY.
  apply (bd_le _ 151) in MX; [|lia]. apply (bd_le _ 151) in MY; [|lia].
  destruct (bd_mul 151 151 _ _ ltac:(lia) MX MX) as [QX QXe]. destruct (bd_mul 151 151 _ _ ltac:(lia) MY MY) as [QY QYe].
  destruct (bd_add 302 _ _ ltac:(lia) QX QY) as [QM QMe].
  assert (PX : 0 <= val (SFmul 53 1024 midX midX)) by (rewrite QXe; apply rnd_pos; nra).
  assert (PY : 0 <= val (SFmul 53 1024 midY midY)) by (rewrite QYe; apply rnd_pos; nra).
  assert (PM : 0 <= val (SFadd 53 1024 (SFmul 53 1024 midX midX) (SFmul 53 1024 midY midY))) by (rewrite QMe; apply rnd_pos; lra).
  assert (LM : lo (2 * -153) (SFadd 53 1024 (SFmul 53 1024 midX midX) (SFmul 53 1024 midY midY))).
  { unfold lo. rewrite QMe. apply rnd_lo; [lia|]. rewrite Rabs_pos_eq by lra. destruct ML as [H|H].
    - pose proof (lo_mul (-153) (-153) _ _ ltac:(lia) H H QXe) as K. unfold lo in K. rewrite Rabs_pos_eq in K by lra. change (2 * -153)%Z with (-153 + -153)%Z. lra.
    - pose proof (lo_mul (-153) (-153) _ _ ltac:(lia) H H QYe) as K. unfold lo in K. rewrite Rabs_pos_eq in K by lra. change (2 * -153)%Z with (-153 + -153)%Z. lra. }
  clear QX QXe QY QYe PX PY QMe ML. set (ml := SFadd 53 1024 (SFmul 53 1024 midX midX) _) in *. clearbody ml.
  apply (bd_le _ (2 * 152)) in QM; [|lia]. destruct (bd_sqrt 152 ml ltac:(lia) QM PM) as [SM SMe]. pose proof (lo_sqrt (-153) ml ltac:(lia) LM PM SMe) as LS. clear SMe.
  destruct (bd_mul 50 50 _ _ ltac:(lia) Hrb Hrb) as [RR RRe].
  match goal with |- context [let '(_, _) := if SFltb ?a ?b then ?t else ?e in _] =>
    assert (HT : exists ra' rb' hr, (if SFltb a b then t else e) = (ra', rb', hr) /\ bd 252 ra' /\ lo (-253) ra' /\ bd 252 rb' /\ lo (-153) rb' /\ bd 306 hr) end.
  { destruct (SFltb (SFmul 53 1024 rb rb) ml) eqn:Hl.
    - destruct (bd_mul 50 152 ra _ ltac:(lia) Hra SM) as [G1 G1e]. pose proof (lo_mul (-50) (-153) ra _ ltac:(lia) Lra LS G1e) as G1l.
      destruct (bd_div (50 + 152) (-50) _ rb ltac:(lia) G1 Vrb Frb Lrb) as [G2 G2e]. pose proof (lo_div (-50 + -153) 50 _ rb ltac:(lia) G1l (lo_nz _ _ Lrb) Brb G2e) as G2l.
      eexists _, _, _. split; [reflexivity|]. destruct (SFeqb ra rb); repeat split; try apply SM; try apply bd_zero; try apply G2; try exact LS; try exact G2l; try (revert LS; apply lo_le; lia);
        try (apply (bd_le 152); [lia|exact SM]); apply Rle_trans with (1 := proj2 (proj2 SM)), bpow_le; lia.
    - apply ltb_false in Hl; [|apply RR|apply QM|apply RR|apply QM].
      destruct (bd_sub 304 _ _ ltac:(lia) (bd_le (50 + 50) 304 _ ltac:(lia) RR) QM) as [D1 D1e]. apply (bd_le _ (2 * 153)) in D1; [|lia].
      assert (D0 : 0 <= val (SFsub 53 1024 (SFmul 53 1024 rb rb) ml)) by (rewrite D1e; apply rnd_pos; lra).
      destruct (bd_sqrt 153 _ ltac:(lia) D1 D0) as [D2 _]. destruct SM as (VS & FS & _). destruct (bd_div 153 (-153) _ _ ltac:(lia) D2 VS FS LS) as [D3 _].
      eexists _, _, _. split; [reflexivity|]. split; [apply (bd_le 50); [lia|exact Hra]|]. split; [revert Lra; apply lo_le; lia|]. split; [apply (bd_le 50); [lia|exact Hrb]|]. split; [revert Lrb; apply lo_le; lia|]. exact D3. }
  destruct HT as (ra' & rb' & hr & -> & Ha & La & Hb & Lb & Hh). clear RR RRe SM LS QM PM LM.
  destruct (bd_mul 151 306 _ _ ltac:(lia) MX Hh) as [U1 _]. destruct (bd_mul 151 306 _ _ ltac:(lia) MY Hh) as [U2 _].
  apply (bd_le _ (151 + 306)) in MX; [|lia]. apply (bd_le _ (151 + 306)) in MY; [|lia].
  match goal with |- context [let '(_, _) := if ?b then ?t else ?e in _] =>
    assert (HT : exists cx cy, (if b then t else e) = (cx, cy) /\ bd 458 cx /\ bd 458 cy) end.
  { destruct (_ || _); eexists _, _; (split; [reflexivity|]); split; ((apply (bd_add 457); [lia|assumption|assumption]) || (apply (bd_sub 457); [lia|assumption|assumption])). }
  destruct HT as (cx & cy & -> & Hcx & Hcy). destruct Hb as (Vb & Fb & Bb).
  destruct (bd_div 252 (-153) ra' rb' ltac:(lia) Ha Vb Fb Lb) as [W1 _]. destruct (bd_mul 458 405 cx _ ltac:(lia) Hcx W1) as [W2 _].
  set (x := SFmul 53 1024 cx _) in *. clearbody x. apply (bd_le _ 863) in Hcy; [|lia].
  destruct (bd_mul 863 0 x c ltac:(lia) W2 Hc) as [Y1 _]. destruct (bd_mul 863 0 cy s ltac:(lia) Hcy Hs) as [Y2 _].
  destruct (bd_mul 863 0 x s ltac:(lia) W2 Hs) as [Y3 _]. destruct (bd_mul 863 0 cy c ltac:(lia) Hcy Hc) as [Y4 _].
  destruct (bd_sub 863 _ _ ltac:(lia) Y1 Y2) as [Z1 _]. destruct (bd_add 863 _ _ ltac:(lia) Y3 Y4) as [Z2 _].
  apply (bd_le _ 864) in Hsx; [|lia]. apply (bd_le _ 864) in Hsy; [|lia].
  eexists _, _, _, _. split; [reflexivity|]. split; [apply (bd_add 864); [lia|exact Z1|exact Hsx]|]. split; [apply (bd_add 864); [lia|exact Z2|exact Hsy]|].
  split; [exact Ha|]. split; [exact La|]. split; [exact (conj Vb (conj Fb Bb))|]. revert Lb. apply lo_le. lia.
Qed.

Lemma pieces_pos x : bd 3 x -> exists n, ProofsSize3.pieces (E := E) x = S n.
Proof.
  intros (V & Fi & H). unfold ProofsSize3.pieces. rewrite eighth_eq. change (fdiv E) with (SFdiv 53 1024). change (fabs E) with SFabs. change (f_to_int E) with (sf_to_int64 O).
  assert (Va : valid (SFabs x)) by (destruct x; exact V). assert (Fa : finite (SFabs x)) by (destruct x; exact Fi).
  assert (Hab : val (SFabs x) = Rabs (val x)). { destruct x as [s|s| |s m e]; cbn; try (rewrite Rabs_R0; reflexivity). rewrite <- F2R_Zabs. destruct s; reflexivity. }
  assert (Le : lo (-2) eighth64). { unfold lo. pose proof eighth_val. rewrite Rabs_pos_eq by lra. change (pow (-2)) with (/ 4). lra. }
  assert (Ba : bd 3 (SFabs x)). { split; [exact Va|]. split; [exact Fa|]. rewrite Hab, Rabs_pos_eq by apply Rabs_pos. exact H. }
  destruct (bd_div 3 (-2) (SFabs x) eighth64 ltac:(lia) Ba ltac:(reflexivity) I Le) as [(K1 & K2 & K3) K4]. change (pow (3 - -2)) with 32 in K3.
  assert (K5 : 0 <= val (SFdiv 53 1024 (SFabs x) eighth64)).
  { rewrite K4. apply rnd_pos. rewrite Hab. pose proof eighth_val. apply Rmult_le_pos; [apply Rabs_pos|]. apply Rlt_le, Rinv_0_lt_compat. lra. }
  rewrite Rabs_pos_eq in K3 by exact K5. set (q := val (SFdiv 53 1024 (SFabs x) eighth64)) in *.
  assert (Hq : (0 <= Ztrunc q <= 32)%Z). { split; [rewrite <- (Ztrunc_IZR 0)|rewrite <- (Ztrunc_IZR 32)]; apply Ztrunc_le; assumption. }
  rewrite (to_int_val O _ (Ztrunc q) K2 eq_refl) by lia. exists (Z.to_nat (Ztrunc q)). lia.
Qed.
Lemma modest_bd x : modest x -> bd 50 x.
Proof. intros [[V Fi] H]. split; [exact V|]. split; [exact Fi|]. replace (pow 50) with (2 ^ 50) by (cbn; lra). exact H. Qed.
Lemma modest_lo x : modest_radius x -> lo (-50) x.
Proof. intros [_ H]. unfold lo. change (-50)%Z with (- (50))%Z. rewrite bpow_opp. replace (pow 50) with (2 ^ 50) by (cbn; lra). exact H. Qed.
Lemma bd_sm x : sm x -> x <> S754_nan -> bd 3 x.
Proof. intros [->|(V & Fi & H)] Hn; [destruct (Hn eq_refl)|]. split; [exact V|]. split; [exact Fi|]. change (pow 3) with 8. apply Rabs_le. lra. Qed.
Lemma adjust_number x b1 b2 b3 : bd 3 x -> adjustEta (E := E) x b1 b2 b3 <> S754_nan.
Proof.
  intros Hx. unfold adjustEta. rewrite two_pi64_eq. change (fadd E) with (SFadd 53 1024). change (fsub E) with (SFsub 53 1024).
  assert (Ht : bd 4 two_pi64). { split; [reflexivity|]. split; [exact I|]. pose proof two_pi64_val. rewrite Rabs_pos_eq by lra. change (pow 4) with 16. lra. }
  set (d := if xorb b1 b2 then _ else _). assert (Hd : bd 5 d).
  { unfold d. apply (bd_le _ 4) in Hx; [|lia]. destruct (xorb b1 b2); [|apply (bd_le 4); [lia|exact Hx]]. destruct (fltb E x _); [apply (bd_add 4)|apply (bd_sub 4)]; (lia || assumption). }
  clearbody d. apply (bd_le _ 5) in Ht; [|lia].
  destruct (_ && _); [apply (bd_nan 6), (bd_add 5); (lia || assumption)|]. destruct (_ && _); [apply (bd_nan 6), (bd_sub 5); (lia || assumption)|]. apply (bd_nan 5), Hd.
Qed.
Lemma rot_bd rot : bd 50 rot -> bd 52 (fdiv E (fmul E rot (fpi E)) (fnum E 180)).
Proof.
  intros H. rewrite pi64_eq. change (bd 52 (SFdiv 53 1024 (SFmul 53 1024 rot pi64) (sf_of_Z 180))).
  assert (Hp : bd 2 pi64). { split; [reflexivity|]. split; [exact I|]. pose proof pi64_val. rewrite Rabs_pos_eq by lra. change (pow 2) with 4. lra. }
  destruct (bd_mul 50 2 _ _ ltac:(lia) H Hp) as [K _]. destruct (of_Z_val 180 eq_refl) as [Z1 Z2].
  apply (bd_div 52 0); [lia|exact K|apply of_Z_valid|exact Z1|]. unfold lo. rewrite Z2, Rabs_pos_eq by lra. cbn. lra.
Qed.
Lemma eta64 a b y x : bd 900 y -> bd 900 x -> bd 52 a -> bd 252 b -> lo (-253) b -> forall c, bd 252 c -> lo (-253) c ->
  let t := fsub E (fatan2 E y x) a in bd 2 (fatan2 E (fdiv E (fsin E t) b) (fdiv E (fcos E t) c)).
Proof.
  intros Hy Hx Ha Hb Lb c Hc Lc. cbv zeta. change (fatan2 E) with (o_atan2 O). change (fsub E) with (SFsub 53 1024). change (fdiv E) with (SFdiv 53 1024). change (fsin E) with (o_sin O). change (fcos E) with (o_cos O).
  pose proof (bd_atan2 _ _ _ _ Hy Hx) as H. apply (bd_le _ 52) in H; [|lia]. destruct (bd_sub 52 _ _ ltac:(lia) H Ha) as [K _].
  destruct Hb as (Vb & Fb & _), Hc as (Vc & Fc & _). destruct (bd_div 0 (-253) _ b ltac:(lia) (bd_sin _ _ K) Vb Fb Lb) as [K1 _]. destruct (bd_div 0 (-253) _ c ltac:(lia) (bd_cos _ _ K) Vc Fc Lc) as [K2 _].
  exact (bd_atan2 _ _ _ _ K1 K2).
Qed.
Notation point := (SpecPath.point E).
Lemma arc_call64 (off s : point) (a : arc_args E) (q : point) p : modest_arc off s a q ->
  exists o, arc_call off s a q p = Ret (p ++ o, q) /\ ends_at E q o.
Proof.
  destruct a as [[[[rx ry] rot] fa] fs]. intros ([Ho1 Ho2] & [Hs1 Hs2] & [Hq1 Hq2] & Hap & Hrot & Hrx & Hry). unfold arc_call.
  pose proof (modest_lo _ Hrx) as Lx. pose proof (modest_lo _ Hry) as Ly. destruct Hrx as [Hrx _], Hry as [Hry _].
  apply modest_bd in Ho1, Ho2, Hs1, Hs2, Hq1, Hq2, Hrot, Hrx, Hry. pose proof (rot_bd _ Hrot) as Hr. 
  destruct (center64 rx ry _ (fst s) (snd s) (fst q) (snd q) (feqb E fs (fnum E 0)) (feqb E fa (fnum E 0)) 52 ltac:(lia) Hr Hs1 Hs2 Hq1 Hq2) as (cx & cy & ra & rb & -> & Hcx & Hcy & Hra & Lra & Hrb & Lrb); try assumption.
  unfold addArc. cbn [idx nth_error obind]. cbv zeta. destruct (ellipsePrime _ _ _ _ _) as [u v].
  match goal with |- context [ellSegs (Z.to_nat ?sg) 1 ?sg ?ra ?rb ?ex ?ey ?kx ?ky ?sT ?cT ?eta ?de ?al ?lx ?ly ?dx ?dy ?pp] =>
    assert (Hn : exists n, Z.to_nat sg = S n);
    [|destruct (ellSegs_arc (Z.to_nat sg) 1 sg ra rb ex ey kx ky sT cT eta de al lx ly dx dy pp) as (cs & H1 & H2);
      [destruct (Z_lt_le_dec sg 0) as [H|H]; [left; destruct sg; [reflexivity|lia|reflexivity]|right; rewrite Z2Nat.id; lia]|];
      rewrite H1; destruct Hn as [n Hn]; rewrite Hn in *; exists cs; split; [destruct q; reflexivity|destruct q; exact H2]] end.
  match goal with |- exists n, Z.to_nat (f_to_int E (fdiv E (fabs E (adjustEta (fsub E ?e2 ?e1) ?b1 ?b2 ?b3)) _) + 1) = S n =>
    assert (B1 : bd 2 e1); [|assert (B2 : bd 2 e2); [|destruct (bd_sub 2 e2 e1 ltac:(lia) B2 B1) as [B3 _]; apply (pieces_pos (adjustEta (E := E) (fsub E e2 e1) b1 b2 b3))]] end.
  - apply eta64; try assumption; change (fsub E) with (SFsub 53 1024); change (fadd E) with (SFadd 53 1024).
    + apply (bd_le (866 + 1)); [lia|]. apply bd_sub; [lia|apply (bd_le (50 + 1)); [lia|apply bd_add; [lia|assumption|assumption]]|]. apply (bd_add 865); [lia|assumption|apply (bd_le 50); [lia|assumption]].
    + apply (bd_le (866 + 1)); [lia|]. apply bd_sub; [lia|apply (bd_le (50 + 1)); [lia|apply bd_add; [lia|assumption|assumption]]|]. apply (bd_add 865); [lia|assumption|apply (bd_le 50); [lia|assumption]].
  - apply eta64; try assumption; change (fsub E) with (SFsub 53 1024); change (fadd E) with (SFadd 53 1024).
    + apply (bd_le (866 + 1)); [lia|]. apply bd_sub; [lia|apply (bd_le 50); [lia|assumption]|]. apply (bd_add 865); [lia|assumption|apply (bd_le 50); [lia|assumption]].
    + apply (bd_le (866 + 1)); [lia|]. apply bd_sub; [lia|apply (bd_le 50); [lia|assumption]|]. apply (bd_add 865); [lia|assumption|apply (bd_le 50); [lia|assumption]].
  - apply bd_sm; [|apply adjust_number, B3]. apply sm_adjust. right. destruct B3 as (V & Fi & H). split; [exact V|]. split; [exact Fi|]. change (pow (2 + 1)) with 8 in H.
    apply Rabs_le_inv in H. exact H.
Qed.
(** what one arc does: as in [arc_gen], and nothing only if its measures are not modest *)
Definition arc64 (off s : point) (a : arc_args E) (q : point) (o : list op) (e : point) : Prop :=
  (ends_at E q o /\ e = q) \/ (~ modest_arc off s a q /\ o = [] /\ e = (fadd E (fst s) (fst off), fadd E (snd s) (snd off))).
Lemma arc_call_64 off s a q p : exists o e, arc_call off s a q p = Ret (p ++ o, e) /\ arc64 off s a q o e.
Proof.
  destruct (arc_call_gen off s a q p) as (o & e & H1 & H2). exists o, e. split; [exact H1|]. destruct H2 as [H2|[-> ->]]; [left; exact H2|]. right. split; [|auto].
  intros Hm. destruct (arc_call64 off s a q p Hm) as (o & K1 & cs & b & c & -> & _). rewrite H1 in K1. injection K1 as K1 _. apply app_inv_head in K1. destruct cs; discriminate.
Qed.
Theorem arcs_drawn64 lead body (ks : list (step E)) (c : pcur E) :
  seps lead = true -> spells_steps E body ks -> steps_close E false ks = true ->
  exists c' o s, compilePath (lead ++ body) c = (c', Ret tt)
    /\ drawn E (arc64 (pc_curX c, pc_curY c)) (pc_curX c, pc_curY c) (pen0 E) ks o s
    /\ pc_path c' = o /\ (pc_placeX c', pc_placeY c') = at_ s /\ pc_log c' = pc_log c.
Proof. exact (compilePath_steps (F64_add_comm O) (arc64 (pc_curX c, pc_curY c)) lead body ks c (arc_call_64 (pc_curX c, pc_curY c))). Qed.
(** in documents *)
Theorem arc_figure64 mode m vb off attrs p lead body ks : alone E mode m vb off "path" attrs p -> attr_once "d" attrs (lead ++ body) ->
  seps lead = true -> spells_steps E body ks -> steps_close E false ks = true ->
  exists s, drawn E (arc64 off) off (pen0 E) ks p s.
Proof.
  intros Ha Hd H1 H2 H3. revert Ha Hd. apply steps_figure. intros c <-.
  destruct (arcs_drawn64 lead body ks c H1 H2 H3) as (c' & o & s & A & B & C & _). eauto 8.
Qed.
End Arc.

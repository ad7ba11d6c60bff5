(** * ProofsClose: how far binary64 is from exact arithmetic in the renderers *)
From Coq Require Import ZArith Lia Reals Lra Psatz Floats.SpecFloat.
From Flocq Require Import Core.Core IEEE754.BinarySingleNaN.
From Verif Require Import F64 ProofsFlocq ProofsSize3 ProofsArc64 ProofsDec ProofsRect ProofsDraw2 ProofsTarget ProofsScale SpecClose.
Local Open Scope R_scope.
Local Existing Instance ProofsFlocq.Hprec.
Local Existing Instance ProofsFlocq.Hmax.
Local Notation pow := (bpow radix2).

(** ** Absolute errors, in units of 2^-100 *)
Notation u100 := (bpow radix2 (-100)).
Lemma u_pos : 0 < u100. Proof. apply bpow_gt_0. Qed.
Lemma pow_Z b : (0 <= b)%Z -> IZR (2 ^ b) = pow b.
Proof. intros H. change 2%Z with (radix_val radix2). apply IZR_Zpower, H. Qed.
Lemma rnd_err b z : (0 <= b <= 900)%Z -> Rabs z <= pow b -> Rabs (rnd z - z) <= IZR (2 ^ (b + 47)) * u100.
Proof.
  intros Hb H. rewrite pow_Z by lia. rewrite <- bpow_plus. replace (b + 47 + -100)%Z with (-1 + (b + 1 - 53))%Z by lia. rewrite bpow_plus.
  eapply Rle_trans; [apply error_le_half_ulp; typeclasses eauto|]. change (pow (-1)) with (/ 2). apply Rmult_le_compat_l; [lra|].
  apply Rle_trans with (ulp radix2 fexp64 (pow b)).
  - apply ulp_le; [typeclasses eauto|typeclasses eauto|]. rewrite (Rabs_pos_eq (pow b)) by apply bpow_ge_0. exact H.
  - rewrite ulp_bpow. apply bpow_le. unfold SpecFloat.fexp, SpecFloat.emin. lia.
Qed.
Definition ap (b e : Z) (x : sf) (r : R) : Prop := bd b x /\ Rabs (val x - r) <= IZR e * u100 /\ Rabs r <= pow b.
Lemma ap_exact b x : finite64 x -> Rabs (val x) <= pow b -> ap b 0 x (val x).
Proof. intros [V Fi] H. split; [repeat split; assumption|]. split; [|exact H]. replace (val x - val x) with 0 by ring. rewrite Rabs_R0. lra. Qed.
Lemma ap_le b b' e e' x r : (b <= b')%Z -> (e <= e')%Z -> ap b e x r -> ap b' e' x r.
Proof.
  intros Hb He (H1 & H2 & H3). split; [exact (bd_le _ _ _ Hb H1)|]. split; [|apply Rle_trans with (1 := H3), bpow_le, Hb].
  apply Rle_trans with (1 := H2). apply Rmult_le_compat_r; [apply Rlt_le, u_pos|]. apply IZR_le, He.
Qed.
Lemma ap_mul b1 b2 e1 e2 x y r1 r2 : (0 <= b1)%Z -> (0 <= b2)%Z -> (b1 + b2 <= 900)%Z -> ap b1 e1 x r1 -> ap b2 e2 y r2 ->
  ap (b1 + b2) (2 ^ b1 * e2 + 2 ^ b2 * e1 + 2 ^ (b1 + b2 + 47)) (SFmul 53 1024 x y) (r1 * r2).
Proof.
  intros P1 P2 P3 (B1 & E1 & R1) (B2 & E2 & R2). destruct (bd_mul b1 b2 x y) as [K1 K2]; [lia|exact B1|exact B2|]. split; [exact K1|]. split.
  - rewrite K2. assert (Hz : Rabs (val x * val y) <= pow (b1 + b2)). { rewrite bpow_plus, Rabs_mult. apply Rmult_le_compat; try apply Rabs_pos; [apply B1|apply B2]. }
    pose proof (rnd_err (b1 + b2) _ ltac:(lia) Hz) as H0.
    replace (rnd (val x * val y) - r1 * r2) with ((rnd (val x * val y) - val x * val y) + (val x * (val y - r2) + r2 * (val x - r1))) by ring.
    eapply Rle_trans; [apply Rabs_triang|]. rewrite !plus_IZR, !mult_IZR, (pow_Z b1), (pow_Z b2) by lia.
    assert (H1 : Rabs (val x * (val y - r2)) <= pow b1 * (IZR e2 * u100)). { rewrite Rabs_mult. apply Rmult_le_compat; try apply Rabs_pos; [apply B1|exact E2]. }
    assert (H2 : Rabs (r2 * (val x - r1)) <= pow b2 * (IZR e1 * u100)). { rewrite Rabs_mult. apply Rmult_le_compat; try apply Rabs_pos; assumption. }
    pose proof (Rabs_triang (val x * (val y - r2)) (r2 * (val x - r1))) as H3. lra.
  - rewrite bpow_plus, Rabs_mult. apply Rmult_le_compat; try apply Rabs_pos; assumption.
Qed.
Lemma ap_add b e1 e2 x y r1 r2 : (0 <= b <= 800)%Z -> ap b e1 x r1 -> ap b e2 y r2 ->
  ap (b + 1) (e1 + e2 + 2 ^ (b + 48)) (SFadd 53 1024 x y) (r1 + r2).
Proof.
  intros Hb (B1 & E1 & R1) (B2 & E2 & R2). destruct (bd_add b x y) as [K1 K2]; [lia|exact B1|exact B2|]. split; [exact K1|].
  assert (Hs : forall a c, Rabs a <= pow b -> Rabs c <= pow b -> Rabs (a + c) <= pow (b + 1)). { intros a c Ha Hc. rewrite pow_S. pose proof (Rabs_triang a c). lra. }
  split; [|apply Hs; assumption].
  rewrite K2. pose proof (rnd_err (b + 1) _ ltac:(lia) (Hs _ _ (proj2 (proj2 B1)) (proj2 (proj2 B2)))) as H0. replace (b + 1 + 47)%Z with (b + 48)%Z in H0 by lia.
  rewrite !plus_IZR. replace (rnd (val x + val y) - (r1 + r2)) with ((rnd (val x + val y) - (val x + val y)) + ((val x - r1) + (val y - r2))) by ring.
  pose proof (Rabs_triang (rnd (val x + val y) - (val x + val y)) ((val x - r1) + (val y - r2))) as H1. pose proof (Rabs_triang (val x - r1) (val y - r2)) as H2. lra.
Qed.
Lemma ap_opp b e x r : ap b e x r -> ap b e (SFopp x) (- r).
Proof.
  intros (B & H & K). split; [apply bd_opp, B|]. rewrite opp_val, Rabs_Ropp. split; [|exact K]. replace (- val x - - r) with (- (val x - r)) by ring. rewrite Rabs_Ropp. exact H.
Qed.
Lemma ap_sub b e1 e2 x y r1 r2 : (0 <= b <= 800)%Z -> ap b e1 x r1 -> ap b e2 y r2 ->
  ap (b + 1) (e1 + e2 + 2 ^ (b + 48)) (SFsub 53 1024 x y) (r1 - r2).
Proof. intros Hb H1 H2. rewrite sub_add. replace (r1 - r2) with (r1 + - r2) by ring. apply ap_add; [exact Hb|exact H1|apply ap_opp, H2]. Qed.
(** a quotient of exact numbers *)
Lemma ap_ratio b x y : (0 <= b <= 900)%Z -> finite64 x -> finite64 y -> val y <> 0 -> Rabs (val x / val y) <= pow b ->
  ap b (2 ^ (b + 47)) (SFdiv 53 1024 x y) (val x / val y).
Proof.
  intros Hb [Vx Fx] [Vy Fy] Hy H. destruct (div_round x y Vx Vy Fx Fy Hy (no_over b _ ltac:(lia) H)) as [K1 K2].
  split; [split; [apply div_valid; assumption|split; [exact K1|rewrite K2; apply rnd_up; [lia|exact H]]]|]. split; [|exact H]. rewrite K2. apply rnd_err; assumption.
Qed.
(** half *)
Lemma ap_half b e x r two : (0 <= b <= 900)%Z -> finite64 two -> val two = 2 -> ap b e x r -> ap b (e + 2 ^ (b + 47)) (SFdiv 53 1024 x two) (r / 2).
Proof.
  intros Hb [V2 F2] H2 (B & H & K). assert (Hx : Rabs (val x / val two) <= pow b).
  { rewrite H2. unfold Rdiv. rewrite Rabs_mult, (Rabs_pos_eq (/ 2)) by lra. pose proof (proj2 (proj2 B)). pose proof (Rabs_pos (val x)). lra. }
  destruct B as (Vx & Fx & Bx). destruct (div_round x two Vx V2 Fx F2 ltac:(lra) (no_over b _ ltac:(lia) Hx)) as [K1 K2].
  split; [split; [apply div_valid; assumption|split; [exact K1|rewrite K2; apply rnd_up; [lia|exact Hx]]]|]. split.
  - rewrite K2, plus_IZR. pose proof (rnd_err b _ Hb Hx) as H0. rewrite H2 in *.
    replace (rnd (val x / 2) - r / 2) with ((rnd (val x / 2) - val x / 2) + (val x - r) / 2) by field.
    pose proof (Rabs_triang (rnd (val x / 2) - val x / 2) ((val x - r) / 2)) as H1.
    assert (Rabs ((val x - r) / 2) <= IZR e * u100); [|lra]. unfold Rdiv. rewrite Rabs_mult, (Rabs_pos_eq (/ 2)) by lra. pose proof (Rabs_pos (val x - r)). lra.
  - unfold Rdiv. rewrite Rabs_mult, (Rabs_pos_eq (/ 2)) by lra. pose proof (Rabs_pos r). lra.
Qed.

(** ** Truncation *)
Lemma trunc_step x y : Rabs (x - y) <= 1 -> (Z.abs (Ztrunc x - Ztrunc y) <= 1)%Z.
Proof.
  assert (Hm : forall x y, x <= y -> y <= x + 1 -> (Ztrunc x <= Ztrunc y <= Ztrunc x + 1)%Z).
  { clear. intros x y H1 H2. split; [apply Ztrunc_le, H1|]. apply Z.le_trans with (Ztrunc (x + 1)); [apply Ztrunc_le, H2|]. clear.
    destruct (Rle_or_lt 0 x) as [H|H].
    - rewrite (Ztrunc_floor x) by lra. rewrite (Ztrunc_floor (x + 1)) by lra. replace (x + 1) with (x + IZR 1) by reflexivity.
      apply Z.lt_succ_r, lt_IZR. rewrite succ_IZR, plus_IZR. pose proof (Zfloor_lb (x + IZR 1)). pose proof (Zfloor_ub x). lra.
    - rewrite (Ztrunc_ceil x) by lra. destruct (Rle_or_lt 0 (x + 1)) as [H3|H3].
      + rewrite (Ztrunc_floor (x + 1)) by lra. assert (Zfloor (x + 1) <= 0)%Z. { apply Z.lt_succ_r, lt_IZR. rewrite succ_IZR. pose proof (Zfloor_lb (x + 1)). lra. }
        assert (-1 <= Zceil x)%Z. { apply le_IZR. pose proof (Zceil_ub x). lra. } lia.
      + rewrite (Ztrunc_ceil (x + 1)) by lra. apply Z.lt_succ_r, lt_IZR. rewrite succ_IZR, plus_IZR. pose proof (Zceil_lb (x + 1)). pose proof (Zceil_ub x). lra. }
  intros H. apply Rabs_le_inv in H. destruct (Rle_or_lt x y) as [K|K].
  - destruct (Hm x y) as [H1 H2]; try lra. lia.
  - destruct (Hm y x) as [H1 H2]; try lra. lia.
Qed.
Lemma ap_trunc O b e x r : ap b e x r -> IZR e * u100 < 1 -> Rabs r <= 2147483647 ->
  (Z.abs (sf_to_i32 O x - wrap32 (Ztrunc r)) <= 1)%Z /\ (Z.abs (sf_to_i32 O x) <= 2 ^ 31)%Z /\ (Z.abs (wrap32 (Ztrunc r)) <= 2 ^ 31)%Z.
Proof.
  intros ((V & Fi & B) & H & K) He Hr. assert (Hd : Rabs (val x - r) <= 1) by lra.
  pose proof (trunc_step _ _ Hd) as Ht.
  assert (Hz : int32 (Ztrunc r)) by (apply trunc_int32; lra).
  assert (Hx : int32 (Ztrunc (val x))).
  { apply trunc_int32. pose proof (Rabs_triang (val x - r) r) as H1. replace (val x - r + r) with (val x) in H1 by ring. lra. }
  rewrite (to_i32_val O x _ Fi eq_refl Hx), (wrap32_id _ Hz). unfold int32 in *. lia.
Qed.

(** ** Matrices, points and widths *)
Section Matrices.
Context (O : Oracles) (Q : ROracles).
Notation E := (F64 O).
Notation X := (RealEnv Q).
Notation exm := (ex_matrix O Q).
Ltac zc := (apply Z.leb_le; vm_compute; reflexivity).
Ltac wk t := refine (ap_le _ _ _ _ _ _ _ _ t); [zc|zc].
Lemma upto_ap n x : upto O n x -> ap (Z.of_nat n) 0 x (val x).
Proof using. intros [H1 H2]. apply ap_exact; [exact H1|]. rewrite bpow_powerRZ. rewrite <- pow_powerRZ. exact H2. Qed.
Lemma fin_bd b x : bd b x -> finite64 x. Proof using. intros (V & Fi & _). split; assumption. Qed.
Lemma ap_zero b : (0 <= b <= 900)%Z -> ap b 0 (fnum E 0) 0.
Proof using.
  intros Hb. change (fnum E 0) with (S754_zero false). change 0 with (val (S754_zero false)). apply ap_exact; [split; [reflexivity|exact I]|]. cbn. rewrite Rabs_R0. apply bpow_ge_0.
Qed.
Lemma num_val z : (0 < z < 2 ^ 53)%Z -> finite64 (fnum E z) /\ val (fnum E z) = IZR z.
Proof using.
  intros Hz. unfold fnum. cbn [flit F64]. unfold sf_lit. replace (z <? 0)%Z with false by (symmetry; apply Z.ltb_ge; lia).
  destruct (rat_round false (Z.abs_N z) 1) as [H1 H2].
  { unfold ratR. rewrite N2Z.inj_abs_N, Z.abs_eq by lia. apply no_over with (b := 53%Z); [lia|]. rewrite Rmult_1_l. unfold Rdiv. rewrite Rinv_1, Rmult_1_r.
    rewrite abs_IZR, <- pow_Z by lia. apply IZR_le. lia. }
  split; [split; [apply rat_valid|exact H1]|]. rewrite H2. unfold ratR. rewrite N2Z.inj_abs_N, Z.abs_eq by lia. rewrite Rmult_1_l. unfold Rdiv. rewrite Rinv_1, Rmult_1_r.
  apply rnd_id. replace (IZR z) with (IZR z * pow 0) by (cbn; ring). apply dyadic_format; lia.
Qed.
Lemma ap_num b z : (0 < z < 2 ^ 53)%Z -> IZR z <= pow b -> ap b 0 (fnum E z) (IZR z).
Proof using. intros Hz Hb. destruct (num_val z Hz) as [H1 H2]. rewrite <- H2. apply ap_exact; [exact H1|]. rewrite H2, Rabs_pos_eq; [exact Hb|]. apply IZR_le. lia. Qed.
Lemma ap_ofZ b z : (0 <= b < 53)%Z -> (Z.abs z <= 2 ^ b)%Z -> ap b 0 (f_of_Z E z) (IZR z).
Proof using.
  intros Hb Hz. assert (H53 : (2 ^ b < 2 ^ 53)%Z) by (apply Z.pow_lt_mono_r; lia). destruct (of_Z_val z) as [H1 H2]; [lia|]. cbn [f_of_Z F64]. rewrite <- H2.
  apply ap_exact; [split; [apply of_Z_valid|exact H1]|]. rewrite H2, abs_IZR, <- pow_Z by lia. apply IZR_le, Hz.
Qed.

(** a product of a transform and the matrix of a target *)
Record near_target (T : matrix E) (T' : matrix X) : Prop := {
  nt_A : ap 10 (2 ^ 58) (mA T) (mA T'); nt_B : ap 10 (2 ^ 58) (mB T) (mB T'); nt_C : ap 10 (2 ^ 58) (mC T) (mC T'); nt_D : ap 10 (2 ^ 58) (mD T) (mD T');
  nt_E : ap 29 (7 * 2 ^ 75) (mE T) (mE T'); nt_F : ap 29 (7 * 2 ^ 75) (mF T) (mF T') }.
Record near_matrix (T : matrix E) (T' : matrix X) : Prop := {
  nm_A : ap 21 (2 ^ 70) (mA T) (mA T'); nm_B : ap 21 (2 ^ 70) (mB T) (mB T'); nm_C : ap 21 (2 ^ 70) (mC T) (mC T'); nm_D : ap 21 (2 ^ 70) (mD T) (mD T');
  nm_E : ap 41 (2 ^ 90) (mE T) (mE T'); nm_F : ap 41 (2 ^ 90) (mF T) (mF T') }.
Lemma mult_near t T T' : sized_matrix O t -> near_target T T' -> near_matrix (mMult t T) (mMult (exm t) T').
Proof using.
  intros (HA & HB & HC & HD & HE & HF) [TA TB TC TD TE TF]. apply upto_ap in HA, HB, HC, HD, HE, HF. cbn [Z.of_nat Pos.of_succ_nat Pos.succ] in *.
  assert (lin : forall a c p q a' c' p' q', ap 10 0 a a' -> ap 10 0 c c' -> ap 10 (2 ^ 58) p p' -> ap 10 (2 ^ 58) q q' -> ap 21 (2 ^ 70) (fadd E (fmul E a p) (fmul E c q)) (a' * p' + c' * q')).
  { intros a c p q a' c' p' q' Ha Hc Hp Hq. wk (ap_add 20 _ _ _ _ _ _ ltac:(lia) (ap_mul 10 10 _ _ _ _ _ _ ltac:(lia) ltac:(lia) ltac:(lia) Ha Hp) (ap_mul 10 10 _ _ _ _ _ _ ltac:(lia) ltac:(lia) ltac:(lia) Hc Hq)). }
  assert (tra : forall a c e p q r a' c' e' p' q' r', ap 10 0 a a' -> ap 10 0 c c' -> ap 17 0 e e' -> ap 29 (7 * 2 ^ 75) p p' -> ap 29 (7 * 2 ^ 75) q q' -> ap 10 (2 ^ 58) r r' ->
    ap 41 (2 ^ 90) (fadd E (fadd E (fmul E a p) (fmul E c q)) (fmul E e r)) (a' * p' + c' * q' + e' * r')).
  { intros a c e p q r a' c' e' p' q' r' Ha Hc He Hp Hq Hr.
    pose proof (ap_add 39 _ _ _ _ _ _ ltac:(lia) (ap_mul 10 29 _ _ _ _ _ _ ltac:(lia) ltac:(lia) ltac:(lia) Ha Hp) (ap_mul 10 29 _ _ _ _ _ _ ltac:(lia) ltac:(lia) ltac:(lia) Hc Hq)) as H1.
    pose proof (ap_mul 17 10 _ _ _ _ _ _ ltac:(lia) ltac:(lia) ltac:(lia) He Hr) as H2. apply (ap_le _ 40 _ (2 ^ 77)) in H2; [|zc|zc].
    wk (ap_add 40 _ _ _ _ _ _ ltac:(lia) H1 H2). }
  constructor; [apply lin|apply lin|apply lin|apply lin|apply tra|apply tra]; assumption.
Qed.
Lemma coord_near x y a c e a' c' e' : (Z.abs x <= 2 ^ 23)%Z -> (Z.abs y <= 2 ^ 23)%Z -> ap 21 (2 ^ 70) a a' -> ap 21 (2 ^ 70) c c' -> ap 41 (2 ^ 90) e e' ->
  ap 48 (2 ^ 99) (fadd E (fadd E (fmul E (f_of_Z E x) a) (fmul E (f_of_Z E y) c)) (fmul E e (fnum E 64))) (IZR x * a' + IZR y * c' + e' * 64).
Proof using.
  intros Hx Hy Ha Hc He. apply (ap_ofZ 23) in Hx, Hy; [|lia|lia].
  pose proof (ap_add 44 _ _ _ _ _ _ ltac:(lia) (ap_mul 23 21 _ _ _ _ _ _ ltac:(lia) ltac:(lia) ltac:(lia) Hx Ha) (ap_mul 23 21 _ _ _ _ _ _ ltac:(lia) ltac:(lia) ltac:(lia) Hy Hc)) as H1.
  assert (H64 : ap 6 0 (fnum E 64) 64) by (apply ap_num; [lia|cbn; lra]).
  pose proof (ap_mul 41 6 _ _ _ _ _ _ ltac:(lia) ltac:(lia) ltac:(lia) He H64) as H2. apply (ap_le _ 47 _ (2 ^ 96)) in H1; [|zc|zc].
  wk (ap_add 47 _ _ _ _ _ _ ltac:(lia) H1 H2).
Qed.
Lemma scale_near M M' : near_matrix M M' -> ap 22 (3 * 2 ^ 70) (lineWidthScale M) (lineWidthScale M').
Proof using.
  intros [HA _ _ HD _ _]. unfold lineWidthScale. rewrite fnum_real. destruct (num_val 2) as [H1 H2]; [lia|].
  wk (ap_half 22 _ _ _ _ ltac:(lia) H1 H2 (ap_add 21 _ _ _ _ _ _ ltac:(lia) HA HD)).
Qed.
Lemma width_near w M M' : upto O 17 w -> near_matrix M M' -> ap 39 (2 ^ 89) (fmul E w (lineWidthScale M)) (val w * lineWidthScale M').
Proof using. intros Hw%upto_ap HM%scale_near. wk (ap_mul 17 22 _ _ _ _ _ _ ltac:(lia) ltac:(lia) ltac:(lia) Hw HM). Qed.
Lemma pen_near w M M' : upto O 17 w -> near_matrix M M' -> ap 45 (2 ^ 95) (fmul E (fmul E w (fnum E 64)) (lineWidthScale M)) (val w * 64 * lineWidthScale M').
Proof using.
  intros Hw%upto_ap HM%scale_near. assert (H64 : ap 6 0 (fnum E 64) 64) by (apply ap_num; [lia|cbn; lra]).
  wk (ap_mul 23 22 _ _ _ _ _ _ ltac:(lia) ltac:(lia) ltac:(lia) (ap_mul 17 6 _ _ _ _ _ _ ltac:(lia) ltac:(lia) ltac:(lia) Hw H64) HM).
Qed.
Lemma err_small e k : (e < 2 ^ (100 + k))%Z -> (-100 <= k)%Z -> IZR e * u100 < pow k.
Proof using.
  intros H Hk. replace (pow k) with (pow (100 + k) * u100) by (rewrite <- bpow_plus; f_equal; lia). apply Rmult_lt_compat_r; [apply u_pos|]. rewrite <- pow_Z by lia. apply IZR_lt, H.
Qed.
End Matrices.

Section Renderers.
Context (O : Oracles) (Q : ROracles).
Notation E := (F64 O).
Notation X := (RealEnv Q).
Notation exm := (ex_matrix O Q).
Notation near_target := (near_target O Q). Notation near_matrix := (near_matrix O Q).
Ltac zc := (apply Z.leb_le; vm_compute; reflexivity).
Ltac wk t := refine (ap_le _ _ _ _ _ _ _ _ t); [zc|zc].

Definition in32 (z : Z) : Prop := (Z.abs z <= 2 ^ 31)%Z.
Lemma point_near M M' p : near_matrix M M' -> (Z.abs (fst p) <= 2 ^ 23 /\ Z.abs (snd p) <= 2 ^ 23)%Z ->
  Rabs (fst (maps M' (IZR (fst p) / 64, IZR (snd p) / 64))) <= 33554431 -> Rabs (snd (maps M' (IZR (fst p) / 64, IZR (snd p) / 64))) <= 33554431 ->
  close_pt (tFixed M p) (tFixed M' p) /\ in32 (fst (tFixed M p)) /\ in32 (snd (tFixed M p)) /\ in32 (fst (tFixed M' p)) /\ in32 (snd (tFixed M' p)).
Proof using.
  intros [HA HB HC HD HE HF] [Hx Hy] H1 H2. unfold maps in H1, H2. cbn [fst snd] in H1, H2. unfold close_pt, tFixed. rewrite fnum_real. cbn [fst snd].
  destruct (ap_trunc O _ _ _ _ (coord_near O (fst p) (snd p) _ _ _ _ _ _ Hx Hy HA HC HE)) as (K1 & K2 & K3).
  { apply (err_small _ 0); lia. }
  { replace (IZR (fst p) * mA M' + IZR (snd p) * mC M' + mE M' * 64) with (64 * (mA M' * (IZR (fst p) / 64) + mC M' * (IZR (snd p) / 64) + mE M')) by field.
    rewrite Rabs_mult, (Rabs_pos_eq 64) by lra. lra. }
  destruct (ap_trunc O _ _ _ _ (coord_near O (fst p) (snd p) _ _ _ _ _ _ Hx Hy HB HD HF)) as (L1 & L2 & L3).
  { apply (err_small _ 0); lia. }
  { replace (IZR (fst p) * mB M' + IZR (snd p) * mD M' + mF M' * 64) with (64 * (mB M' * (IZR (fst p) / 64) + mD M' * (IZR (snd p) / 64) + mF M')) by field.
    rewrite Rabs_mult, (Rabs_pos_eq 64) by lra. lra. }
  unfold in32. repeat split; assumption.
Qed.
Lemma float_px z : in32 z -> val (fdiv E (f_of_Z E z) (fnum E 64)) = IZR z / 64.
Proof using.
  intros Hz. unfold in32 in Hz. destruct (num_val O 64) as [[V6 F6] H6]; [lia|]. destruct (of_Z_val z) as [Fz Hv]; [lia|].
  assert (Hq : val (f_of_Z E z) / val (fnum E 64) = IZR z * pow (-6)). { cbn [f_of_Z F64]. rewrite Hv, H6. cbn. unfold Rdiv. reflexivity. }
  destruct (div_round (f_of_Z E z) (fnum E 64) (of_Z_valid z) V6 Fz F6) as [K1 K2]; [lra| |].
  { rewrite Hq. apply (no_over 40); [lia|]. rewrite Rabs_mult, abs_IZR, (Rabs_pos_eq (pow (-6))) by apply bpow_ge_0. apply Rle_trans with (IZR (2 ^ 31) * pow (-6)).
    - apply Rmult_le_compat_r; [apply bpow_ge_0|]. apply IZR_le, Hz.
    - rewrite pow_Z by lia. rewrite <- bpow_plus. apply bpow_le. lia. }
  etransitivity; [exact K2|]. rewrite Hq, rnd_id by (apply dyadic_format; lia). reflexivity.
Qed.
Lemma px_close a b : close_pt a b -> in32 (fst a) -> in32 (snd a) -> close_px O Q (toFloat (E := E) a) (toFloat (E := X) b).
Proof using.
  intros [H1 H2] Ha Hb. unfold close_px, toFloat. cbn [fst snd]. rewrite !float_px by assumption. rewrite fnum_real. cbn [fdiv f_of_Z RealEnv].
  assert (H : forall x y, (Z.abs (x - y) <= 1)%Z -> Rabs (IZR x / 64 - IZR y / 64) <= / 64).
  { intros x y H. replace (IZR x / 64 - IZR y / 64) with (IZR (x - y) * / 64) by (rewrite minus_IZR; field). rewrite Rabs_mult, (Rabs_pos_eq (/ 64)), abs_IZR by lra. apply IZR_le in H. lra. }
  split; apply H; assumption.
Qed.

(** ** The options *)
Lemma last_target_ex (opts : list (renderOption E)) : last_target (ex_options O Q opts) = match last_target opts with Some (x, y, w, h) => Some (val x, val y, val w, val h) | None => None end.
Proof using.
  unfold last_target, ex_options. assert (H : forall (l : list (renderOption E)) (a : option (sf * sf * sf * sf)) (a' : option (R * R * R * R)),
    a' = match a with Some (x, y, w, h) => Some (val x, val y, val w, val h) | None => None end ->
    fold_left (fun (x : option (F X * F X * F X * F X)) o => match o with Target x y w h => Some (x, y, w, h) | Opacity _ => x end) (map (ex_option O Q) l) a'
    = match fold_left (fun (x : option (F E * F E * F E * F E)) o => match o with Target x y w h => Some (x, y, w, h) | Opacity _ => x end) l a with Some (x, y, w, h) => Some (val x, val y, val w, val h) | None => None end).
  { induction l as [|o l IH]; intros a a' Ha; [exact Ha|]. cbn [map fold_left]. apply IH. destruct o; [exact Ha|reflexivity]. }
  apply H. reflexivity.
Qed.
Lemma last_opacity_ex (opts : list (renderOption E)) : last_opacity (ex_options O Q opts) = option_map val (last_opacity opts).
Proof using.
  unfold last_opacity, ex_options. assert (H : forall (l : list (renderOption E)) (a : option sf) (a' : option R), a' = option_map val a ->
    fold_left (fun (x : option (F X)) o => match o with Opacity v => Some v | Target _ _ _ _ => x end) (map (ex_option O Q) l) a'
    = option_map val (fold_left (fun (x : option (F E)) o => match o with Opacity v => Some v | Target _ _ _ _ => x end) l a)).
  { induction l as [|o l IH]; intros a a' Ha; [exact Ha|]. cbn [map fold_left]. apply IH. destruct o; [reflexivity|exact Ha]. }
  apply H. reflexivity.
Qed.
Lemma target_near (s : svg E) opts : sized_target O (sv_viewBox s) opts -> near_target (ro_target (options s opts)) (ro_target (options (ex_svg O Q s) (ex_options O Q opts))).
Proof using.
  intros (HX & HY & HW & HH & NW & NH & _ & x & y & w & h & Ht & Hx & Hy & Hw & Hh & Sw & Sh).
  rewrite (target_eq (ex_svg O Q s) (ex_options O Q opts) (val x) (val y) (val w) (val h)) by (rewrite last_target_ex, Ht; reflexivity).
  destruct (options_last s opts) as [_ ->]. rewrite Ht. cbn [sv_viewBox ex_svg]. set (vb := sv_viewBox s) in *.
  apply upto_ap in HX, HY, Hx, Hy. cbn [Z.of_nat Pos.of_succ_nat Pos.succ] in *.
  assert (P10 : 2 ^ 10 = pow 10) by (cbn; lra). rewrite P10 in Sw, Sh.
  pose proof (ap_ratio 10 w (bW vb) ltac:(lia) Hw HW NW Sw) as HSW. pose proof (ap_ratio 10 h (bH vb) ltac:(lia) Hh HH NH Sh) as HSH.
  assert (One : ap 0 0 (fnum E 1) 1) by (apply ap_num; [lia|cbn; lra]). pose proof (ap_zero O 0 ltac:(lia)) as Zero. pose proof (ap_zero O 18 ltac:(lia)) as Zero18.
  assert (ne : forall p q s p' q' s', ap 17 0 p p' -> ap 17 0 q q' -> ap 10 (2 ^ (10 + 47)) s s' -> ap 29 (7 * 2 ^ 75) (fmul E (fadd E (fnum E 0) (fsub E p q)) s) ((p' - q') * s')).
  { intros p q s0 p' q' s0' Hp Hq Hs. replace ((p' - q') * s0') with ((0 + (p' - q')) * s0') by ring.
    wk (ap_mul 19 10 _ _ _ _ _ _ ltac:(lia) ltac:(lia) ltac:(lia) (ap_add 18 _ _ _ _ _ _ ltac:(lia) Zero18 (ap_sub 17 _ _ _ _ _ _ ltac:(lia) Hp Hq)) Hs). }
  assert (n1 : forall s s', ap 10 (2 ^ (10 + 47)) s s' -> ap 10 (2 ^ 58) (fmul E (fnum E 1) s) s').
  { intros s0 s0' Hs. replace s0' with (1 * s0') by ring. wk (ap_mul 0 10 _ _ _ _ _ _ ltac:(lia) ltac:(lia) ltac:(lia) One Hs). }
  assert (n0 : forall s s', ap 10 (2 ^ (10 + 47)) s s' -> ap 10 (2 ^ 58) (fmul E (fnum E 0) s) 0).
  { intros s0 s0' Hs. replace 0 with (0 * s0') by ring. wk (ap_mul 0 10 _ _ _ _ _ _ ltac:(lia) ltac:(lia) ltac:(lia) Zero Hs). }
  unfold mScale, mTranslate, identity, target. cbn [mA mB mC mD mE mF]. constructor; cbn [mA mB mC mD mE mF].
  - apply n1, HSW.
  - eapply n0, HSH.
  - eapply n0, HSW.
  - apply n1, HSH.
  - apply ne; assumption.
  - apply ne; assumption.
Qed.

(** ** Opacities and colours *)
Definition fr (e : Z) (o : F E) (o' : F X) : Prop := finite64 o /\ 0 <= val o <= 1 /\ 0 <= o' <= 1 /\ ap 0 e o o'.
Lemma fr_part o : part O o -> fr 0 o (val o).
Proof using. intros [H1 H2]. split; [exact H1|]. split; [exact H2|]. split; [exact H2|]. apply ap_exact; [exact H1|]. cbn. rewrite Rabs_pos_eq; lra. Qed.
Lemma fr_one : fr 0 (fnum E 1) (fnum X 1).
Proof using. rewrite fnum_real. destruct (num_val O 1) as [H1 H2]; [lia|]. replace (IZR 1) with (val (fnum E 1)) by exact H2. apply fr_part. split; [exact H1|]. rewrite H2. lra. Qed.
Lemma rnd_one z : 0 <= z <= 1 -> 0 <= rnd z <= 1.
Proof using.
  intros [H0 H1]. split; [apply rnd_pos, H0|]. replace 1 with (rnd 1); [apply rnd_mono, H1|]. apply rnd_id. replace 1 with (IZR 1 * pow 0) by (cbn; ring). apply dyadic_format; lia.
Qed.
Lemma fr_mul e1 e2 a b a' b' : fr e1 a a' -> fr e2 b b' -> fr (e1 + e2 + 2 ^ 47) (fmul E a b) (fmul X a' b').
Proof using.
  intros (Fa & Ra & Ra' & Aa) (Fb & Rb & Rb' & Ab). pose proof (ap_mul 0 0 _ _ _ _ _ _ ltac:(lia) ltac:(lia) ltac:(lia) Aa Ab) as H.
  split; [exact (fin_bd _ _ (proj1 H))|]. split; [|split; [cbn; nra|]].
  - destruct (bd_mul 0 0 a b) as [_ K]; [lia|apply Aa|apply Ab|]. assert (0 <= val a * val b <= 1) as H1 by nra. apply rnd_one in H1. cbn [fmul F64]. unfold prec64, emax64. rewrite K. exact H1.
  - refine (ap_le _ _ _ _ _ _ _ _ H); lia.
Qed.
Lemma fr_close e o o' : (e <= 2 ^ 50)%Z -> fr e o o' -> close_opacity O Q o o'.
Proof using.
  intros He (_ & _ & _ & _ & H & _). unfold close_opacity. apply Rle_trans with (1 := H). apply Rle_trans with (IZR (2 ^ 50) * u100).
  - apply Rmult_le_compat_r; [apply Rlt_le, u_pos|]. apply IZR_le, He.
  - rewrite pow_Z by lia. rewrite <- bpow_plus. change (50 + -100)%Z with (- (50))%Z. rewrite bpow_opp. right. f_equal. cbn. lra.
Qed.
Lemma div_near a b : (0 <= a <= 65535)%Z -> (0 <= b <= 65535)%Z -> (Z.abs (a - b) <= 1)%Z -> (Z.abs (uint8 (a mod 2 ^ 32 / 256) - uint8 (b mod 2 ^ 32 / 256)) <= 1)%Z.
Proof using.
  intros Ha Hb H. rewrite !(Z.mod_small _ (2 ^ 32)) by lia. unfold uint8. assert (0 <= a / 256 < 256)%Z by (split; [apply Z.div_pos|apply Z.div_lt_upper_bound]; lia).
  assert (0 <= b / 256 < 256)%Z by (split; [apply Z.div_pos|apply Z.div_lt_upper_bound]; lia). rewrite !Z.mod_small by assumption.
  pose proof (Z.div_mod a 256 ltac:(lia)). pose proof (Z.div_mod b 256 ltac:(lia)). pose proof (Z.mod_pos_bound a 256 ltac:(lia)). pose proof (Z.mod_pos_bound b 256 ltac:(lia)). lia.
Qed.
Lemma color_near e c o o' : (0 <= e <= 2 ^ 60)%Z -> byte_alpha c -> fr e o o' -> close_color (toColor (E := E) c o) (toColor (E := X) c o').
Proof using.
  intros He Hc (Fo & Ro & Ro' & Ao). unfold toColor, close_color. assert (Ha : exists r g b a, colorRGBA c = (r, g, b, a) /\ (0 <= a <= 65535)%Z).
  { destruct c as [r g b a|r g b a]; cbn in *; do 4 eexists; split; try reflexivity; lia. }
  destruct Ha as (r & g & b & a & -> & Ha). repeat split.
  assert (Hz : ap 16 0 (f_of_Z E a) (IZR a)) by (apply ap_ofZ; lia).
  pose proof (ap_mul 16 0 _ _ _ _ _ _ ltac:(lia) ltac:(lia) ltac:(lia) Hz Ao) as ((Vx & Fx & _) & He' & _).
  destruct (bd_mul 16 0 (f_of_Z E a) o) as [_ K]; [lia|apply Hz|apply Ao|]. set (x := SFmul 53 1024 (f_of_Z E a) o) in *.
  destruct (of_Z_val a) as [_ Hv]; [lia|]. cbn [f_of_Z F64] in K. rewrite Hv in K. assert (HaR : 0 <= IZR a <= 65535) by (split; apply IZR_le; lia).
  assert (Hx : 0 <= val x <= 65535).
  { rewrite K. split; [apply rnd_pos; nra|]. replace 65535 with (rnd 65535); [apply rnd_mono; nra|]. apply rnd_id. replace 65535 with (IZR 65535 * pow 0) by (cbn; ring). apply dyadic_format; lia. }
  assert (Hd : Rabs (val x - IZR a * o') <= 1).
  { apply Rle_trans with (1 := He'). apply Rle_trans with (IZR (2 ^ 80) * u100); [apply Rmult_le_compat_r; [apply Rlt_le, u_pos|]; apply IZR_le; lia|].
    rewrite pow_Z by lia. rewrite <- bpow_plus. apply (bpow_le radix2 _ 0). lia. }
  assert (tr : forall z, 0 <= z <= 65535 -> (0 <= Ztrunc z <= 65535)%Z).
  { intros z Hz0. rewrite Ztrunc_floor by lra. split; [apply Zfloor_lub; lra|]. apply Z.lt_succ_r, lt_IZR. rewrite succ_IZR. pose proof (Zfloor_lb z). lra. }
  pose proof (tr _ Hx) as T1. assert (T2 : (0 <= Ztrunc (IZR a * o') <= 65535)%Z) by (apply tr; nra).
  cbn [f_to_u32 RealEnv fmul f_of_Z]. change (f_to_u32 E (fmul E (f_of_Z E a) o)) with (sf_to_u32 O x). rewrite (to_u32_val O x _ Fx eq_refl), <- (Z.mod_small (Ztrunc (val x)) (2 ^ 32)) by lia.
  apply div_near; [exact T1|exact T2|apply trunc_step, Hd].
Qed.
Lemma opacity_near (s : svg E) opts : sized_target O (sv_viewBox s) opts -> fr 0 (ro_opacity (options s opts)) (ro_opacity (options (ex_svg O Q s) (ex_options O Q opts))).
Proof using.
  intros (_ & _ & _ & _ & _ & _ & Ho & _). destruct (options_last s opts) as [-> _]. destruct (options_last (ex_svg O Q s) (ex_options O Q opts)) as [-> _]. rewrite last_opacity_ex.
  destruct (last_opacity opts) as [o|]; cbn [option_map]; [apply fr_part, Ho|apply fr_one].
Qed.
Lemma color_ex p : getColor (option_map (ex_pattern O Q) p) = getColor p.
Proof using. destruct p as [[r g b a|[d st bo ma spr u]]|]; try reflexivity. cbn. assert (H : firstColor (map (ex_stop O Q) st) = firstColor st) by (induction st as [|x l IH]; [reflexivity|]; cbn; rewrite IH; reflexivity). now rewrite H. Qed.
Lemma paint_alpha p : sized_paint O (Some p) -> byte_alpha (getColor (Some p)).
Proof using.
  destruct p as [r g b a|[d st bo ma spr u]]; cbn; [auto|]. intros H. induction st as [|x l IH]; cbn; [lia|]. destruct (stColor x) as [c|] eqn:Ec; [destruct (H x (or_introl eq_refl)) as [_ K]; rewrite Ec in K; exact K|].
  apply IH. intros y Hy. apply H. now right.
Qed.
Lemma flat_near e p o o' : (0 <= e <= 2 ^ 60)%Z -> sized_paint O (Some p) -> fr e o o' -> close_color (toFlat p o) (toFlat (ex_pattern O Q p) o').
Proof using. intros He Hp Ho. unfold toFlat. rewrite (color_ex (Some p) : getColor (Some (ex_pattern O Q p)) = _). apply (color_near e); [exact He|apply paint_alpha, Hp|exact Ho]. Qed.

(** ** Outlines *)
Lemma F2_flat {A B C D} (R : C -> D -> Prop) (h : A -> B) (f : A -> list C) (g : B -> list D) l : (forall a, List.In a l -> Forall2 R (f a) (g (h a))) -> Forall2 R (flat_map f l) (flat_map g (map h l)).
Proof using. induction l as [|a l IH]; intros H; cbn; [constructor|]. apply Forall2_app; [apply H; now left|]. apply IH. intros b Hb. apply H. now right. Qed.
Lemma F2_same {A C D} (R : C -> D -> Prop) (f : A -> list C) (g : A -> list D) l : (forall a, List.In a l -> Forall2 R (f a) (g a)) -> Forall2 R (flat_map f l) (flat_map g l).
Proof using. intros H. rewrite <- (map_id l) at 2. apply (F2_flat R (fun a => a)). exact H. Qed.
Lemma points_near M M' sp o : near_matrix M M' -> sized_path O sp -> stays O Q M' sp -> List.In o (sp_path sp) ->
  forall p, List.In p (op_points o) -> close_pt (tFixed M p) (tFixed M' p) /\ close_px O Q (toFloat (tFixed M p)) (toFloat (tFixed M' p)).
Proof using.
  intros HM (_ & _ & _ & _ & _ & _ & Hp) [Hs _] Ho p Hi. destruct (Hs o p Ho Hi) as [S1 S2]. destruct (point_near M M' p HM (Hp o p Ho Hi) S1 S2) as (K & I1 & I2 & _ & _).
  split; [exact K|]. apply px_close; assumption.
Qed.
Ltac f2 := repeat first [apply Forall2_nil | apply Forall2_cons].
Lemma rx_op_near t M M' o : (forall p, List.In p (op_points o) -> close_pt (tFixed M p) (tFixed M' p)) -> Forall2 (rx_close O Q) (rxOp t M o) (rxOp t M' o).
Proof using. intros Hn. unfold rxOp. destruct o; cbn [mapOp op_points] in *; f2; try constructor; apply Hn; cbn; tauto. Qed.
Lemma d2_op_near M M' o : (forall p, List.In p (op_points o) -> close_px O Q (toFloat (tFixed M p)) (toFloat (tFixed M' p))) -> Forall2 (d2_close O Q) (d2Op M o) (d2Op M' o).
Proof using. intros Hn. unfold d2Op. destruct o; cbn [mapOp op_points] in *; f2; try constructor; apply Hn; cbn; tauto. Qed.
Lemma gg_op_near M M' o : (forall p, List.In p (op_points o) -> close_px O Q (toFloat (tFixed M p)) (toFloat (tFixed M' p))) -> Forall2 (gg_close O Q) (ggOp M o) (ggOp M' o).
Proof using. intros Hn. unfold ggOp. destruct o; cbn [mapOp op_points] in *; f2; try constructor; apply Hn; cbn; tauto. Qed.
Lemma width_close w M M' : upto O 17 w -> near_matrix M M' -> close_width O Q (fmul E w (lineWidthScale M)) (fmul X (val w) (lineWidthScale M')).
Proof using.
  intros Hw HM. destruct (width_near O Q w M M' Hw HM) as (_ & H & _). unfold close_width. cbn [fmul RealEnv]. apply Rle_trans with (1 := H).
  apply Rle_trans with (pow (-10)); [apply Rlt_le, err_small; lia|]. cbn. lra.
Qed.
Lemma pen_close w M M' : upto O 17 w -> near_matrix M M' -> Rabs (val w * widen M') <= 33554431 ->
  (Z.abs (f_to_i32 E (fmul E (fmul E w (fnum E 64)) (lineWidthScale M)) - f_to_i32 X (fmul X (fmul X (val w) (fnum X 64)) (lineWidthScale M'))) <= 1)%Z.
Proof using.
  intros Hw HM Hs. rewrite fnum_real. change (widen M') with (lineWidthScale M') in Hs.
  destruct (ap_trunc O _ _ _ _ (pen_near O Q w M M' Hw HM)) as (K1 & _ & _); [apply (err_small _ 0); lia| |exact K1].
  replace (val w * 64 * lineWidthScale M') with (64 * (val w * lineWidthScale M')) by ring. rewrite Rabs_mult, (Rabs_pos_eq 64) by lra. lra.
Qed.
Lemma rx_paint_near ext ext' b b' t p o o' : close_opacity O Q o o' -> rx_close O Q (RxSetColor t (rxPaintOf ext b p o)) (RxSetColor t (rxPaintOf ext' b' (ex_pattern O Q p) o')).
Proof using.
  intros Ho. destruct p as [r g b0 a|[d st bo ma spr u]]; cbn [ex_pattern rxPaintOf]; [constructor; exact Ho|]. destruct (ext b) as [[[x0 y0] x1] y1], (ext' b') as [[[x0' y0'] x1'] y1'].
  constructor; [|exact Ho]. unfold same_rx_gradient, toRasterxGradient, applyPathExtent, ex_gradient. cbn [gUnits gDirection gStops gBounds gMatrix gSpread].
  assert (H0 : val (fnum E 0) = fnum X 0) by (rewrite fnum_real; reflexivity).
  destruct u; destruct d as [[]|]; cbn [fst g_set_bounds gUnits gDirection gStops gBounds gMatrix gSpread option_map ex_direction rg_points rg_stops rg_matrix rg_spread rg_units rg_isRadial rg_bounds map];
    rewrite ?H0; repeat split; try reflexivity; discriminate.
Qed.
Theorem rx_close_drawing ext ext' (s : svg E) opts : sized_target O (sv_viewBox s) opts ->
  (forall sp, List.In sp (sv_paths s) -> sized_path O sp /\ stays O Q (placed O Q s opts sp) sp) ->
  Forall2 (rx_close O Q) (rxDrawSvg ext s opts) (rxDrawSvg ext' (ex_svg O Q s) (ex_options O Q opts)).
Proof using.
  intros Ht Hs. pose proof (opacity_near s opts Ht) as Hop. pose proof (target_near s opts Ht) as HT. unfold rxDrawSvg. cbn [ex_svg sv_paths]. apply F2_flat. intros sp Hsp. destruct (Hs sp Hsp) as [Hz Hst].
  unfold placed, drawn_by in Hst. pose proof (mult_near O Q (st_transform (sp_style sp)) _ _ (proj1 Hz) HT) as HM.
  unfold rxDrawTransformed. fold (ex_svg O Q s). cbn [ex_path sp_style sp_path ex_style st_transform st_filler st_liner] in *.
  set (M := mMult (st_transform (sp_style sp)) (ro_target (options s opts))) in *. set (M' := mMult (exm (st_transform (sp_style sp))) (ro_target (options (ex_svg O Q s) (ex_options O Q opts)))) in *.
  assert (Hg : forall t, Forall2 (rx_close O Q) (flat_map (rxOp t M) (sp_path sp)) (flat_map (rxOp t M') (sp_path sp))).
  { intros t. apply F2_same. intros o Ho. apply rx_op_near. intros p Hp. exact (proj1 (points_near M M' sp o HM Hz Hst Ho p Hp)). }
  destruct Hz as (_ & Hw & Hfo & Hlo & Hf & Hl & _). apply fr_part in Hfo, Hlo.
  apply Forall2_app.
  - destruct (st_filler (sp_style sp)) as [p|]; cbn [option_map]; [|constructor]. unfold rxFill. cbn [ex_path sp_style sp_path ex_style st_nonZero st_fillOpacity].
    apply Forall2_app; [|f2; [|constructor]; apply rx_paint_near; apply (fr_close (0 + 0 + 2 ^ 47)); [lia|]; apply fr_mul; assumption].
    apply Forall2_app; [f2; constructor|]. apply Forall2_app; [apply Hg|f2; constructor].
  - destruct (st_liner (sp_style sp)) as [p|]; cbn [option_map]; [|constructor]. unfold rxStrokeCalls. cbn [ex_path sp_style sp_path ex_style st_join st_lineWidth st_lineOpacity].
    apply Forall2_app; [|f2; [|constructor]; apply rx_paint_near; apply (fr_close (0 + 0 + 2 ^ 47)); [lia|]; apply fr_mul; assumption].
    apply Forall2_app; [f2; constructor; apply pen_close; [exact Hw|exact HM|exact (proj2 Hst)]|]. apply Forall2_app; [apply Hg|f2; constructor].
Qed.
Theorem d2_close_drawing (s : svg E) opts : sized_target O (sv_viewBox s) opts ->
  (forall sp, List.In sp (sv_paths s) -> sized_path O sp /\ stays O Q (placed O Q s opts sp) sp) ->
  Forall2 (d2_close O Q) (d2DrawSvg s opts) (d2DrawSvg (ex_svg O Q s) (ex_options O Q opts)).
Proof using.
  intros Ht Hs. pose proof (opacity_near s opts Ht) as Hop. pose proof (target_near s opts Ht) as HT. unfold d2DrawSvg. cbn [ex_svg sv_paths]. apply F2_flat. intros sp Hsp. destruct (Hs sp Hsp) as [Hz Hst].
  unfold placed, drawn_by in Hst. pose proof (mult_near O Q (st_transform (sp_style sp)) _ _ (proj1 Hz) HT) as HM.
  unfold d2DrawTransformed. fold (ex_svg O Q s). cbn [ex_path sp_style sp_path ex_style st_transform st_filler st_liner st_nonZero st_join st_lineWidth st_fillOpacity st_lineOpacity st_dash st_dashOffset] in *.
  set (M := mMult (st_transform (sp_style sp)) (ro_target (options s opts))) in *. set (M' := mMult (exm (st_transform (sp_style sp))) (ro_target (options (ex_svg O Q s) (ex_options O Q opts)))) in *.
  assert (Hg : Forall2 (d2_close O Q) (flat_map (d2Op M) (sp_path sp)) (flat_map (d2Op M') (sp_path sp))).
  { apply F2_same. intros o Ho. apply d2_op_near. intros p Hp. exact (proj2 (points_near M M' sp o HM Hz Hst Ho p Hp)). }
  destruct Hz as (_ & Hw & Hfo & Hlo & Hf & Hl & _). apply fr_part in Hfo, Hlo.
  apply Forall2_app; [|apply Forall2_app; [|apply Forall2_app; [exact Hg|]]].
  - destruct (st_filler (sp_style sp)) as [p|]; cbn [option_map]; f2; constructor. apply (flat_near (0 + 0 + 2 ^ 47)); [lia|exact Hf|]. apply fr_mul; assumption.
  - destruct (st_liner (sp_style sp)) as [p|]; cbn [option_map]; f2; constructor; [|apply width_close; assumption]. apply (flat_near (0 + 0 + 2 ^ 47)); [lia|exact Hl|]. apply fr_mul; assumption.
  - destruct (st_filler (sp_style sp)), (st_liner (sp_style sp)); cbn [option_map]; f2; constructor.
Qed.

(** ** gg *)
Lemma stops_near e o o' l : (0 <= e <= 2 ^ 59)%Z -> fr e o o' -> (forall st, List.In st l -> part O (stOpacity st) /\ match stColor st with Some c => byte_alpha c | None => True end) ->
  forall r, ggStops l o = Ret r -> exists r', ggStops (map (ex_stop O Q) l) o' = Ret r' /\ Forall2 (close_gg_stop O Q) r r'.
Proof using.
  intros He Ho. induction l as [|x l IH]; intros Hl r H; [injection H as <-; exists []; split; [reflexivity|constructor]|].
  cbn [ggStops map] in *. cbn [ex_stop stColor]. destruct (stColor x) as [c|] eqn:Ec; [|discriminate]. destruct (ggStops l o) as [rest| | |]; try discriminate. cbn [obind] in H. injection H as <-.
  destruct (IH ltac:(intros; apply Hl; now right) rest eq_refl) as (rest' & -> & Hr). cbn [obind]. eexists. split; [reflexivity|]. constructor; [|exact Hr].
  destruct (Hl x (or_introl eq_refl)) as [Hp Hc]. rewrite Ec in Hc. split; [reflexivity|]. cbn [snd ex_stop stOpacity]. apply (color_near (0 + e + 2 ^ 47)); [lia|exact Hc|]. apply fr_mul; [apply fr_part, Hp|exact Ho].
Qed.
Lemma gradient_near e o o' g r : (0 <= e <= 2 ^ 59)%Z -> fr e o o' -> sized_paint O (Some (PGrad g)) -> ggToGradient g o = Ret r ->
  exists r', ggToGradient (ex_gradient O Q g) o' = Ret r' /\ close_gg_gradient O Q r r'.
Proof using.
  intros He Ho Hg H. destruct g as [d st bo ma spr u]. cbn in Hg. unfold ggToGradient, ex_gradient in *. cbn [gDirection gStops option_map] in *. destruct d as [[x1 y1 x2 y2|cx cy fx fy rr frr]|]; cbn [option_map ex_direction].
  - destruct (ggStops st o) as [l| | |] eqn:El; try discriminate. cbn [obind] in H. injection H as <-. destruct (stops_near e o o' st He Ho Hg l El) as (l' & -> & Hl). cbn [obind]. eexists. split; [reflexivity|]. constructor. exact Hl.
  - destruct (ggStops st o) as [l| | |] eqn:El; try discriminate. cbn [obind] in H. injection H as <-. destruct (stops_near e o o' st He Ho Hg l El) as (l' & -> & Hl). cbn [obind]. eexists. split; [reflexivity|]. constructor. exact Hl.
  - destruct st; [|discriminate]. injection H as <-. eexists. split; [reflexivity|]. constructor.
Qed.
Definition mask_near (d : option (list (ggCall E))) (d' : option (list (ggCall X))) : Prop :=
  match d, d' with None, None => True | Some a, Some b => Forall2 (gg_close O Q) a b | _, _ => False end.
Lemma gg_path_near d d' sp M M' o o' r : mask_near d d' -> near_matrix M M' -> sized_path O sp -> stays O Q M' sp -> fr 0 o o' -> ggDrawPath d sp M o = Ret r ->
  exists r', ggDrawPath d' (ex_path O Q sp) M' o' = Ret r' /\ Forall2 (gg_close O Q) r r'.
Proof using.
  intros Hd HM Hz Hst Ho H.
  assert (Hg : Forall2 (gg_close O Q) (flat_map (ggOp M) (sp_path sp)) (flat_map (ggOp M') (sp_path sp))).
  { apply F2_same. intros q Hq. apply gg_op_near. intros p Hp. exact (proj2 (points_near M M' sp q HM Hz Hst Hq p Hp)). }
  destruct Hz as (_ & Hw & Hfo & Hlo & Hf & Hl & _). apply fr_part in Hfo, Hlo. pose proof (fr_mul _ _ _ _ _ _ Hfo Ho) as HF. pose proof (fr_mul _ _ _ _ _ _ Hlo Ho) as HL.
  unfold ggDrawPath in *. cbn [ex_path sp_style sp_path ex_style st_transform st_filler st_liner st_nonZero st_join st_lineWidth st_fillOpacity st_lineOpacity st_dash st_dashOffset].
  match type of H with obind ?a _ = _ => destruct a as [fs| | |] eqn:Efs; try discriminate end.
  assert (Hfs : exists fs', match option_map (ex_pattern O Q) (st_filler (sp_style sp)) with
      | Some (PGrad g) => gr <~ ggToGradient g (fmul X (val (st_fillOpacity (sp_style sp))) o') ;; Ret (Some (GgGrad gr))
      | Some (PPlain r g b a) => Ret (Some (GgSolid (toColor (CNRGBA r g b a) (fmul X (val (st_fillOpacity (sp_style sp))) o'))))
      | None => Ret None end = Ret fs'
    /\ match fs, fs' with None, None => True | Some f, Some f' => gg_close O Q (GgSetFillStyle f) (GgSetFillStyle f') | _, _ => False end).
  { destruct (st_filler (sp_style sp)) as [[r0 g b a|g]|]; cbn [option_map ex_pattern].
    - injection Efs as <-. eexists. split; [reflexivity|]. constructor. apply (color_near (0 + 0 + 2 ^ 47)); [lia|exact Hf|exact HF].
    - destruct (ggToGradient g _) as [gr| | |] eqn:Eg; try discriminate. cbn [obind] in Efs. injection Efs as <-.
      destruct (gradient_near (0 + 0 + 2 ^ 47) _ _ g gr ltac:(lia) HF Hf Eg) as (gr' & -> & Hgr). cbn [obind]. eexists. split; [reflexivity|]. constructor. exact Hgr.
    - injection Efs as <-. eexists. split; [reflexivity|]. exact I. }
  destruct Hfs as (fs' & -> & Hfs). cbn [obind] in *. injection H as <-. eexists. split; [reflexivity|].
  apply Forall2_app; [|apply Forall2_app; [|apply Forall2_app; [|apply Forall2_app; [exact Hg|apply Forall2_app]]]].
  - destruct d, d'; cbn in Hd; try contradiction; f2; constructor; assumption.
  - destruct fs, fs'; try contradiction; f2; [constructor|assumption].
  - destruct (st_liner (sp_style sp)) as [p|]; cbn [option_map]; f2; constructor; [|apply width_close; assumption]. apply (flat_near (0 + 0 + 2 ^ 47)); [lia|exact Hl|exact HL].
  - destruct (st_filler (sp_style sp)), (st_liner (sp_style sp)); cbn [option_map]; f2; constructor.
  - destruct (st_liner (sp_style sp)); cbn [option_map]; f2; constructor.
Qed.
Lemma omap_near {A B C D} (R : C -> D -> Prop) (h : A -> B) (f : A -> outcome (list C)) (g : B -> outcome (list D)) l r : omap f l = Ret r ->
  (forall a x, List.In a l -> f a = Ret x -> exists y, g (h a) = Ret y /\ Forall2 R x y) -> exists r', omap g (map h l) = Ret r' /\ Forall2 R r r'.
Proof using.
  revert r. induction l as [|a l IH]; intros r H Hf; [injection H as <-; exists []; split; [reflexivity|constructor]|].
  cbn in H. destruct (f a) as [x| | |] eqn:Ha; try discriminate. cbn in H. destruct (omap f l) as [y| | |] eqn:Hl; try discriminate. cbn in H. injection H as <-.
  destruct (Hf a x (or_introl eq_refl) Ha) as (x' & Hx & H1). destruct (IH y eq_refl) as (y' & Hy & H2); [intros; eapply Hf; [right|]; eassumption|].
  exists (x' ++ y'). cbn. rewrite Hx. cbn. rewrite Hy. cbn. split; [reflexivity|]. now apply Forall2_app.
Qed.
Lemma mget_ex id (l : smap (svgMask E)) : mget id (map (fun p => (fst p, ex_mask O Q (snd p))) l) = option_map (ex_mask O Q) (mget id l).
Proof using. induction l as [|[k m] l IH]; [reflexivity|]. cbn. destruct (String.eqb id k); [reflexivity|exact IH]. Qed.
Lemma gg_near (s : svg E) M M' : near_matrix M M' -> (forall id mk q, mget id (sv_masks s) = Some mk -> List.In q (mk_paths mk) -> sized_path O q /\ stays O Q M' q) ->
  forall fuel sp o o' r, sized_path O sp -> stays O Q M' sp -> fr 0 o o' -> ggDrawTransformed fuel s sp M o = Ret r ->
  exists r', ggDrawTransformed fuel (ex_svg O Q s) (ex_path O Q sp) M' o' = Ret r' /\ Forall2 (gg_close O Q) r r'.
Proof using.
  intros HM Hs fuel. induction fuel as [|f IH]; intros sp o o' r Hz Hst Ho H; [discriminate|]. cbn [ggDrawTransformed] in *. cbn [ex_svg sv_mheap sv_masks ex_path sp_style ex_style st_masks]. fold (ex_svg O Q s). fold (ex_style O Q (sp_style sp)). fold (ex_path O Q sp).
  destruct (rev (slice_read (sv_mheap s) (st_masks (sp_style sp)))) as [|id l]; [eapply gg_path_near; eauto; exact I|].
  rewrite mget_ex. destruct (mget id (sv_masks s)) as [mk|] eqn:Eg; cbn [option_map]; [|eapply gg_path_near; eauto; exact I].
  destruct (omap _ (mk_paths mk)) as [c| | |] eqn:Ec; try discriminate. cbn [obind] in H.
  destruct (omap_near (gg_close O Q) (ex_path O Q) _ (fun q => ggDrawTransformed f (ex_svg O Q s) q M' (fnum X 1)) _ _ Ec) as (c' & Hc & H2).
  { intros q x Hq Hx. destruct (Hs id mk q Eg Hq) as [H3 H4]. eapply IH; [exact H3|exact H4|exact fr_one|exact Hx]. }
  cbn [ex_mask mk_paths]. rewrite Hc. cbn [obind]. eapply gg_path_near; eauto; exact H2.
Qed.
Theorem gg_close_drawing fuel (s : svg E) opts calls : sized_target O (sv_viewBox s) opts ->
  (forall sp, List.In sp (sv_paths s) -> sized_path O sp /\ stays O Q (placed O Q s opts sp) sp
    /\ forall id mk q, mget id (sv_masks s) = Some mk -> List.In q (mk_paths mk) -> sized_path O q /\ stays O Q (placed O Q s opts sp) q) ->
  ggDrawSvg fuel s opts = Ret calls -> exists calls', ggDrawSvg fuel (ex_svg O Q s) (ex_options O Q opts) = Ret calls' /\ Forall2 (gg_close O Q) calls calls'.
Proof using.
  intros Ht Hs H. pose proof (opacity_near s opts Ht) as Hop. pose proof (target_near s opts Ht) as HT. unfold ggDrawSvg in *. cbn [ex_svg sv_paths]. fold (ex_svg O Q s). eapply omap_near; [exact H|].
  intros sp r Hsp Hr. destruct (Hs sp Hsp) as (Hz & Hst & Hm). eapply gg_near; [|exact Hm|exact Hz|exact Hst|exact Hop|exact Hr].
  exact (mult_near O Q (st_transform (sp_style sp)) _ _ (proj1 Hz) HT).
Qed.
End Renderers.

(** * ProofsCorner4: a rounded rectangle in binary64 *)
From Coq Require Import ZArith Lia Reals Lra Psatz Floats.SpecFloat.
From Flocq Require Import Core.Core IEEE754.BinarySingleNaN.
From Verif Require Import F64 RealEnv SpecArc SpecTrig SpecCurve SpecPlane SpecCorner ProofsArc64 ProofsScale ProofsAngle ProofsSize3 ProofsDec ProofsRect ProofsPlane ProofsCircle ProofsCurve ProofsCorner ProofsCorner2 ProofsCorner3 ProofsClose ProofsFlocq.
Local Open Scope R_scope.
Local Existing Instance ProofsFlocq.Hprec.
Local Existing Instance ProofsFlocq.Hmax.
Local Notation pow := (bpow radix2).

Lemma rnd_nought : rnd 0 = 0. Proof. apply round_0. typeclasses eauto. Qed.
Section Frame.
Context (O : Oracles) (HF : fair_trig O).
Notation E := (F64 O).
(** the smaller of a radius and half an extent *)
Lemma clamp_ap (rx w : sf) r W : ap 17 (2 ^ 67) rx r -> ap 17 (2 ^ 69) w W ->
  ap 17 (2 ^ 68 + 2 ^ 66) (if SFltb w (SFmul 53 1024 rx (fnum E 2)) then SFdiv 53 1024 w (fnum E 2) else rx) (Rmin r (W / 2)).
Proof using.
  intros Hr Hw. destruct (num_val O 2) as [N1 N2]; [lia|].
  assert (A2 : ap 1 0 (fnum E 2) 2) by (apply ap_num; [lia|cbn; lra]).
  assert (Hh : ap 17 (2 ^ 68 + 2 ^ 64) (SFdiv 53 1024 w (fnum E 2)) (W / 2)).
  { apply (ap_le 16 17 (2 ^ 68 + 2 ^ (16 + 47))); [lia|lia|]. apply (ap_over 17 16 (2 ^ 69) (2 ^ 68) w W (fnum E 2) 2); [lia|exact N1|exact N2|lra|cbn; lra| |exact Hw]. rewrite <- mult_IZR. apply IZR_le. lia. }
  destruct Hr as ((Vr & Fr & Br) & Er & Rb). destruct Hw as ((Vw & Fw & Bw) & Ew & Wb). destruct Hh as ((Vh & Fh & Bh) & Eh & Hb). pose proof u_pos as U.
  assert (Mb : Rabs (Rmin r (W / 2)) <= pow 17) by (unfold Rmin; destruct (Rle_dec r (W / 2)); assumption).
  destruct N1 as [V2 F2].
  assert (B2 : Rabs (val rx * val (fnum E 2)) <= pow 18) by (rewrite N2, Rabs_mult, (Rabs_pos_eq 2) by (clear; lra); replace (pow 18) with (pow 17 * 2) by (change (pow 17) with (IZR 131072); change (pow 18) with (IZR 262144); clear; lra); apply Rmult_le_compat_r; [clear; lra|exact Br]).
  destruct (mul_round rx (fnum E 2) Vr V2 Fr F2 (no_over 18 _ ltac:(lia) B2)) as [K1 K2]. pose proof (rnd_err 18 _ ltac:(lia) B2) as T. change (18 + 47)%Z with 65%Z in T.
  assert (Vt : valid (SFmul 53 1024 rx (fnum E 2))) by (apply mul_valid; assumption). rewrite <- K2 in T. rewrite N2 in T, K2.
  assert (Dbl : forall k, (0 <= k)%Z -> IZR (2 ^ (k + 1)) * u100 = 2 * (IZR (2 ^ k) * u100)) by (intros k Hk; rewrite Z.pow_add_r, mult_IZR by lia; change (IZR (2 ^ 1)) with 2; ring).
  assert (Q1 : IZR (2 ^ 68 + 2 ^ 66) * u100 = IZR (2 ^ 68) * u100 + IZR (2 ^ 66) * u100) by (rewrite plus_IZR; ring).
  assert (Q2 : IZR (2 ^ 68 + 2 ^ 64) * u100 = IZR (2 ^ 68) * u100 + IZR (2 ^ 64) * u100) by (rewrite plus_IZR; ring).
  pose proof (Dbl 68 ltac:(lia))%Z as Q3. pose proof (Dbl 67 ltac:(lia))%Z as Q4. pose proof (Dbl 66 ltac:(lia))%Z as Q5. pose proof (Dbl 65 ltac:(lia))%Z as Q6. pose proof (Dbl 64 ltac:(lia))%Z as Q7. clear Dbl.
  cbn [Z.add Pos.add Pos.succ] in Q3, Q4, Q5, Q6, Q7.
  assert (P64 : 0 < IZR (2 ^ 64) * u100) by (apply Rmult_lt_0_compat; [apply IZR_lt; lia|exact U]).
  rewrite Q3 in Ew. rewrite Q2 in Eh. apply Rabs_le_inv in Er, Ew, Eh, T.
  rewrite Q4, Q5, Q6, Q7 in *. remember (IZR (2 ^ 64) * u100) as e64 eqn:E64 in *. clear Q2 Q3 Q4 Q5 Q6 Q7.
  destruct (SFltb w (SFmul 53 1024 rx (fnum E 2))) eqn:Hl.
  - assert (Bq : Rabs (val w / val (fnum E 2)) <= pow 16) by (rewrite N2; unfold Rdiv; rewrite Rabs_mult, (Rabs_pos_eq (/ 2)) by lra; replace (pow 16) with (pow 17 * / 2) by (change (pow 17) with (IZR 131072); change (pow 16) with (IZR 65536); clear; lra); apply Rmult_le_compat_r; [clear; lra|exact Bw]).
    destruct (div_round w (fnum E 2) Vw V2 Fw F2 ltac:(rewrite N2; clear; lra) (no_over 16 _ ltac:(lia) Bq)) as [_ D2]. pose proof (rnd_err 16 _ ltac:(lia) Bq) as D3. rewrite <- D2, N2 in D3. change (16 + 47)%Z with 63%Z in D3.
    assert (Q8 : IZR (2 ^ 63) * u100 <= e64 / 2) by (rewrite E64; replace (IZR (2 ^ 64)) with (2 * IZR (2 ^ 63)) by (rewrite <- mult_IZR; reflexivity); rewrite Rmult_assoc; generalize (IZR (2 ^ 63) * u100); clear; intros; lra). apply Rabs_le_inv in D3. set (e63 := IZR (2 ^ 63) * u100) in *. clearbody e63. clear D2 Bq E64.
    apply ltb_val in Hl; try assumption. split; [repeat split; assumption|]. split; [|exact Mb]. rewrite Q1.
    assert (Hle : val w <= val rx * 2). { apply Rnot_lt_le. intros N. rewrite K2 in Hl. assert (rnd (val rx * 2) <= rnd (val w)) by (apply rnd_mono, Rlt_le, N). rewrite (rnd_id (val w)) in H by (apply val_format, Vw). exact (Rlt_irrefl _ (Rlt_le_trans _ _ _ Hl H)). }
    clear K1 K2 Vt B2 Br Bw Bh Mb Rb Wb Hb Hl.
    unfold Rmin. destruct (Rle_dec r (W / 2)); apply Rabs_le; lra.
  - apply ltb_false in Hl; try assumption. split; [repeat split; assumption|]. split; [|exact Mb]. rewrite Q1. clear K1 K2 Vt B2 Br Bw Bh Mb Rb Wb Hb E64. unfold Rmin. destruct (Rle_dec r (W / 2)); apply Rabs_le; lra.
Qed.
(** ** The matrix *)
Lemma near_fixed e (v : sf) z : ap 40 e v (IZR z) -> IZR e * u100 < 1 -> (Z.abs z <= 2 ^ 26)%Z -> (Z.abs (sf_to_i32 O v - z) <= 1)%Z.
Proof using.
  intros Hv He Hz. destruct (ap_trunc O _ _ _ _ Hv He) as (H & _ & _). { rewrite Rabs_Zabs. apply IZR_le. lia. } rewrite Ztrunc_IZR, wrap32_id in H by (unfold int32; lia). exact H.
Qed.
Lemma frame_close (px py qx qy s : sf) cx cy : ap 19 (2 ^ 71) px cx -> ap 19 (2 ^ 71) py cy -> ap 19 (2 ^ 71) qx (- cx) -> ap 19 (2 ^ 71) qy (- cy) -> ap 1 (5 * 2 ^ 70 + 2 ^ 68) s 1 ->
  let m := mTranslate (mScale (mRotate (mTranslate (identity (E := E)) px py) (fmul E (fnum E 0) (fpi_180 E))) (fnum E 1) s) qx qy in
  forall z : pt, (Z.abs (fst z) <= 2 ^ 26)%Z -> (Z.abs (snd z) <= 2 ^ 26)%Z -> (Z.abs (fst (tFixed m z) - fst z) <= 1)%Z /\ (Z.abs (snd (tFixed m z) - snd z) <= 1)%Z.
Proof using HF.
  intros Hpx Hpy Hqx Hqy Hs m z Z1 Z2.
  destruct (fair_zero O HF) as [S0 C0].
  assert (Ha : fmul E (fnum E 0) (fpi_180 E) = z0) by (vm_compute; reflexivity).
  assert (A1 : ap 0 0 (fnum E 1) 1) by (apply ap_num; [lia|cbn; lra]). assert (A0 : ap 0 0 (fnum E 0) 0) by (apply ap_zero; lia).
  assert (Ac : ap 0 0 (fcos E z0) 1) by (cbn [fcos F64]; rewrite C0; exact A1). assert (As : ap 0 0 (fsin E z0) 0) by (cbn [fsin F64]; rewrite S0; exact A0).
  assert (A64 : ap 6 0 (fnum E 64) 64) by (apply ap_num; [lia|cbn; lra]).
  pose proof (ap_ofZ O 26 (fst z) ltac:(lia) Z1) as Zx. pose proof (ap_ofZ O 26 (snd z) ltac:(lia) Z2) as Zy.
  unfold m, mTranslate, mScale, mRotate, mMult, identity, tFixed. cbn [mA mB mC mD mE mF fst snd]. rewrite Ha. clear Ha m.
  set (c := fcos E z0) in *. set (sn := fsin E z0) in *.
  change (fadd E) with (SFadd 53 1024). change (fmul E) with (SFmul 53 1024). change (fneg E) with SFopp. change (f_to_i32 E) with (sf_to_i32 O).
  assert (lin : forall a b p q a' b' p' q', ap 0 0 a a' -> ap 0 0 b b' -> ap 0 0 p p' -> ap 0 0 q q' -> ap 1 (2 ^ 50) (SFadd 53 1024 (SFmul 53 1024 a p) (SFmul 53 1024 b q)) (a' * p' + b' * q')).
  { intros a b p q a' b' p' q' Ka Kb Kp Kq. wk (ap_add 0 _ _ _ _ _ _ ltac:(lia) (ap_mul 0 0 _ _ _ _ _ _ ltac:(lia) ltac:(lia) ltac:(lia) Ka Kp) (ap_mul 0 0 _ _ _ _ _ _ ltac:(lia) ltac:(lia) ltac:(lia) Kb Kq)). }
  pose proof (ap_opp _ _ _ _ As) as Ans.
  assert (tr : forall a b a' b' p q w g, ap 0 0 a a' -> ap 0 0 b b' -> ap 19 (2 ^ 71) p g -> ap 1 (5 * 2 ^ 70 + 2 ^ 68) q 1 -> ap 19 (2 ^ 71) w (- g) ->
    ap 40 (11 * 2 ^ 95) (SFmul 53 1024 (SFadd 53 1024 (SFmul 53 1024 (SFadd 53 1024 (SFadd 53 1024 (SFmul 53 1024 a (fnum E 0)) (SFmul 53 1024 b (fnum E 0))) (SFmul 53 1024 (SFadd 53 1024 (fnum E 0) p) c)) q) w) (fnum E 64)) 0).
  { intros a b a' b' p q w g Ka Kb Kp Kq Kw. pose proof (lin _ _ _ _ _ _ _ _ Ka Kb A0 A0) as L. replace (a' * 0 + b' * 0) with 0 in L by ring. apply (ap_le _ 20 _ (2 ^ 50)) in L; [|lia|lia].
    assert (A0' : ap 19 0 (fnum E 0) 0) by (apply ap_zero; lia). pose proof (ap_add 19 _ _ _ _ _ _ ltac:(lia) A0' Kp) as H1. rewrite Rplus_0_l in H1.
    pose proof (ap_mul 20 0 _ _ _ _ _ _ ltac:(lia) ltac:(lia) ltac:(lia) H1 Ac) as H2. rewrite Rmult_1_r in H2.
    pose proof (ap_add 20 _ _ _ _ _ _ ltac:(lia) L H2) as H3. rewrite Rplus_0_l in H3. apply (ap_close _ _ 19) in H3; [|lia|zc|apply Kp].
    pose proof (ap_mul 20 1 _ _ _ _ _ _ ltac:(lia) ltac:(lia) ltac:(lia) H3 Kq) as H4. rewrite Rmult_1_r in H4.
    assert (Kw' : ap 21 (2 ^ 71) w (- g)) by (revert Kw; apply ap_le; lia). pose proof (ap_add 21 _ _ _ _ _ _ ltac:(lia) H4 Kw') as H5. rewrite Rplus_opp_r in H5.
    apply (ap_close _ _ 0) in H5; [|lia|zc|rewrite Rabs_R0; cbn; lra].
    pose proof (ap_mul 1 6 _ _ _ _ _ _ ltac:(lia) ltac:(lia) ltac:(lia) H5 A64) as H6. rewrite Rmult_0_l in H6. revert H6. apply ap_le; [lia|zc]. }
  assert (A1q : ap 1 (5 * 2 ^ 70 + 2 ^ 68) (fnum E 1) 1) by (revert A1; apply ap_le; lia).
  assert (Ec : c = one) by exact C0. assert (Esn : sn = z0) by exact S0. clearbody c sn.
  assert (EA : SFmul 53 1024 (SFadd 53 1024 (SFmul 53 1024 (fnum E 1) c) (SFmul 53 1024 (fnum E 0) sn)) (fnum E 1) = one) by (rewrite Ec, Esn; vm_compute; reflexivity).
  assert (EB : SFadd 53 1024 (SFmul 53 1024 (fnum E 0) c) (SFmul 53 1024 (fnum E 1) sn) = z0) by (rewrite Ec, Esn; vm_compute; reflexivity).
  assert (EC : SFmul 53 1024 (SFadd 53 1024 (SFmul 53 1024 (fnum E 1) (SFopp sn)) (SFmul 53 1024 (fnum E 0) c)) (fnum E 1) = z0) by (rewrite Ec, Esn; vm_compute; reflexivity).
  assert (ED : SFadd 53 1024 (SFmul 53 1024 (fnum E 0) (SFopp sn)) (SFmul 53 1024 (fnum E 1) c) = one) by (rewrite Ec, Esn; vm_compute; reflexivity).
  rewrite EA, EB, EC, ED. clear EA EB EC ED.
  assert (K1 : ap 0 0 one 1) by exact A1. assert (K0 : ap 0 0 z0 0) by exact A0.
  assert (nil : forall v q r1 r2 b e, (0 <= b <= 800)%Z -> ap 0 0 v 0 -> ap b e q r2 -> ap 0 0 (SFmul 53 1024 v q) (r1 * 0) /\ ap 0 0 (SFmul 53 1024 q v) (r1 * 0)).
  { intros v q r1 r2 b e Hb ((V & Fi & _) & D & _) ((Vq & Fq & Bq) & _ & _). rewrite Rmult_0_l in D. assert (Hv : val v = 0). { apply Rabs_le_inv in D. lra. } rewrite Rmult_0_r.

    assert (fin : forall x y, valid x -> valid y -> finite x -> finite y -> val x * val y = 0 -> ap 0 0 (SFmul 53 1024 x y) 0).
    { intros x y Vx Vy Fx Fy Hxy. destruct (mul_round x y Vx Vy Fx Fy) as [K2 K3]; rewrite Hxy, rnd_nought in *; [rewrite Rabs_R0; apply bpow_gt_0|].
      split; [split; [apply mul_valid; assumption|split; [exact K2|]]|]; rewrite ?K3, ?Rminus_0_r, ?Rabs_R0; cbn; try lra. }
    split; apply fin; try assumption; rewrite Hv; ring. }
  split.
  - apply near_fixed with (e := (11 * 2 ^ 95 + 2 ^ 90)%Z); [|apply Rlt_trans with (IZR (2 ^ 99) * u100); [apply Rmult_lt_compat_r; [apply u_pos|apply IZR_lt; lia]|rewrite err_pow by lia; cbn; lra]|exact Z1].
    pose proof (ap_mul 26 0 _ _ _ _ _ _ ltac:(lia) ltac:(lia) ltac:(lia) Zx K1) as H1. rewrite Rmult_1_r in H1.
    destruct (nil _ _ 0 _ 26%Z 0%Z ltac:(lia) K0 Zy) as [_ H2]. rewrite Rmult_0_l in H2. apply (ap_le _ 26 _ 0) in H2; [|lia|lia].
    pose proof (ap_add 26 _ _ _ _ _ _ ltac:(lia) H1 H2) as H3. rewrite Rplus_0_r in H3. apply (ap_le _ 39 _ (2 ^ 79)) in H3; [|lia|zc].
    pose proof (tr _ _ _ _ _ _ _ _ A1 A0 Hpx A1q Hqx) as H4. apply (ap_close _ _ 0) in H4; [|lia|zc|rewrite Rabs_R0; cbn; lra]. apply (ap_le _ 39 _ (11 * 2 ^ 95)) in H4; [|lia|lia].
    pose proof (ap_add 39 _ _ _ _ _ _ ltac:(lia) H3 H4) as H5. rewrite Rplus_0_r in H5. revert H5. apply ap_le; [lia|zc].
  - apply near_fixed with (e := (11 * 2 ^ 95 + 12 * 2 ^ 95)%Z); [|apply Rlt_trans with (IZR (2 ^ 99 + 2 ^ 98) * u100); [apply Rmult_lt_compat_r; [apply u_pos|apply IZR_lt; lia]|change (2 ^ 99 + 2 ^ 98)%Z with (3 * 2 ^ 98)%Z; rewrite mult_IZR, Rmult_assoc, err_pow by lia; cbn; lra]|exact Z2].
    destruct (nil _ _ 0 _ 1%Z _ ltac:(lia) K0 Hs) as [B0 _]. rewrite Rmult_0_l in B0.
    destruct (nil _ _ 0 _ 26%Z 0%Z ltac:(lia) B0 Zx) as [_ H2]. rewrite Rmult_0_l in H2. apply (ap_le _ 38 _ 0) in H2; [|lia|lia].
    pose proof (ap_mul 0 1 _ _ _ _ _ _ ltac:(lia) ltac:(lia) ltac:(lia) K1 Hs) as D0. rewrite Rmult_1_r in D0.
    pose proof (ap_mul 26 1 _ _ _ _ _ _ ltac:(lia) ltac:(lia) ltac:(lia) Zy D0) as H1. rewrite Rmult_1_r in H1. apply (ap_le _ 38 _ (11 * 2 ^ 95)) in H1; [|lia|zc].
    pose proof (ap_add 38 _ _ _ _ _ _ ltac:(lia) H2 H1) as H3. rewrite Rplus_0_l in H3.
    pose proof (tr _ _ _ _ _ _ _ _ A0 A1 Hpy Hs Hqy) as H4. apply (ap_close _ _ 0) in H4; [|lia|zc|rewrite Rabs_R0; cbn; lra]. apply (ap_le _ 39 _ (11 * 2 ^ 95)) in H4; [|lia|lia].
    pose proof (ap_add 39 _ _ _ _ _ _ ltac:(lia) H3 H4) as H5. rewrite Rplus_0_r in H5. revert H5. apply ap_le; [lia|zc].
Qed.
End Frame.

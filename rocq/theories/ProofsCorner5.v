(** * ProofsCorner5: addRoundRect in binary64 *)
From Coq Require Import ZArith Lia Reals Lra Psatz Floats.SpecFloat.
From Flocq Require Import Core.Core IEEE754.BinarySingleNaN.
From Verif Require Import F64 RealEnv SpecArc SpecTrig SpecCurve SpecPlane SpecCorner ProofsArc64 ProofsScale ProofsAngle ProofsSize3 ProofsDec ProofsRect ProofsPlane ProofsCircle ProofsCurve ProofsCorner ProofsCorner2 ProofsCorner3 ProofsCorner4 ProofsClose ProofsFlocq.
Local Open Scope R_scope.
Local Existing Instance ProofsFlocq.Hprec.
Local Existing Instance ProofsFlocq.Hmax.
Local Notation pow := (bpow radix2).
Lemma pow_15 : pow 15 = 32768. Proof. reflexivity. Qed.
Lemma pow_16 : pow 16 = 65536. Proof. reflexivity. Qed.
Lemma pow_17 : pow 17 = 131072. Proof. reflexivity. Qed.
Lemma pow_18 : pow 18 = 262144. Proof. reflexivity. Qed.
Lemma tiny k e : (e <= 2 ^ k)%Z -> (0 <= k <= 90)%Z -> IZR e * u100 <= / 1000.
Proof. intros He Hk. apply small60. apply Z.le_trans with (1 := He). apply Z.pow_le_mono_r; lia. Qed.

Section Grid.
Context (O : Oracles).
Notation E := (F64 O).
Lemma fixed_near (v : sf) x : ap 21 (2 ^ 90) v x -> Rabs x <= 350000 ->
  Rabs (IZR (f_to_i32 E (fmul E v (fnum E 64))) - 64 * x) <= 1.1 /\ (Z.abs (f_to_i32 E (fmul E v (fnum E 64))) <= 2 ^ 25)%Z.
Proof using.
  intros Hv Hx. assert (A64 : ap 6 0 (fnum E 64) 64) by (apply ap_num; [lia|cbn; lra]).
  pose proof (ap_mul 21 6 _ _ _ _ _ _ ltac:(lia) ltac:(lia) ltac:(lia) Hv A64) as H. apply (ap_le _ 27 _ (2 ^ 96 + 2 ^ 80)) in H; [|lia|zc]. rewrite (Rmult_comm x) in H.
  assert (Hb : Rabs (64 * x) <= 22400000) by (rewrite Rabs_mult, (Rabs_pos_eq 64) by lra; lra).
  destruct (ap_cut O _ _ _ _ 0.1 H) as [H1 _]; [|lra|lra|].
  { apply Rle_trans with (IZR (2 ^ 96 + 2 ^ 80) * u100); [lra|]. rewrite plus_IZR, Rmult_plus_distr_r, !err_pow by lia. cbn. lra. }
  change (f_to_i32 E (fmul E v (fnum E 64))) with (sf_to_i32 O (SFmul 53 1024 v (fnum E 64))). split; [lra|]. apply le_IZR. rewrite <- Rabs_Zabs. apply Rabs_le_inv in H1, Hb. apply Rabs_le. lra.
Qed.
Lemma zero_fixed : f_to_i32 E (fmul E (fnum E 0) (fnum E 64)) = 0%Z.
Proof using. vm_compute. reflexivity. Qed.
Lemma opp_fixed (v : sf) : finite64 v -> Rabs (val v) <= pow 17 -> f_to_i32 E (fmul E (fneg E v) (fnum E 64)) = (- f_to_i32 E (fmul E v (fnum E 64)))%Z.
Proof using.
  intros [V Fi] B. cbn [f_to_i32 fmul fneg F64]. change (SFmul prec64 emax64) with (SFmul 53 1024). destruct (num_val O 64) as [[V6 F6] N6]; [lia|].
  assert (Bm : Rabs (val v * val (fnum E 64)) <= pow 23) by (rewrite N6, Rabs_mult, (Rabs_pos_eq 64) by lra; change (pow 23) with 8388608; rewrite pow_17 in B; lra).
  assert (Vo : valid (SFopp v)) by (destruct v; exact V). assert (Fo : finite (SFopp v)) by (destruct v; exact Fi).
  assert (Bo : Rabs (val (SFopp v) * val (fnum E 64)) <= pow 23) by (rewrite opp_val, Ropp_mult_distr_l_reverse, Rabs_Ropp; exact Bm).
  destruct (mul_round v (fnum E 64) V V6 Fi F6 (no_over 23 _ ltac:(lia) Bm)) as [K1 K2].
  destruct (mul_round (SFopp v) (fnum E 64) Vo V6 Fo F6 (no_over 23 _ ltac:(lia) Bo)) as [L1 L2].
  rewrite opp_val, Ropp_mult_distr_l_reverse, rnd_opp, <- K2 in L2.
  assert (Hz : int32 (Ztrunc (val (SFmul 53 1024 v (fnum E 64))))).
  { apply trunc_int32. rewrite K2. apply Rle_lt_trans with (pow 23); [apply rnd_up; [lia|exact Bm]|cbn; lra]. }
  rewrite (to_i32_val O _ _ K1 eq_refl Hz). apply (to_i32_val O); [exact L1|rewrite L2; apply Ztrunc_opp|].
  rewrite <- Ztrunc_opp. apply trunc_int32. rewrite Rabs_Ropp, K2. apply Rle_lt_trans with (pow 23); [apply rnd_up; [lia|exact Bm]|cbn; lra].
Qed.
End Grid.
Section Whole.
Context (O : Oracles) (HF : fair_trig O) (HA : fair_axes O).
Notation E := (F64 O).
Context (minX minY maxX maxY rx0 ry0 : F E) (x0 y0 x1 y1 ra rb r : R).
Context (HX0 : ap 18 (2 ^ 67) minX x0) (HY0 : ap 18 (2 ^ 67) minY y0) (HX1 : ap 18 (2 ^ 68) maxX x1) (HY1 : ap 18 (2 ^ 68) maxY y1).
Context (HW : 0 <= x1 - x0 <= pow 16) (HH : 0 <= y1 - y0 <= pow 16) (Hra : ap 17 (2 ^ 67) rx0 ra) (Hrb : ap 17 (2 ^ 67) ry0 rb).
Context (Hx : Rmin ra ((x1 - x0) / 2) = r) (Hy : Rmin rb ((y1 - y0) / 2) = r) (Hr : / 8 <= r).
Notation follows := (bow_follows 1 0 0 1 0 0 (6 / 64) (6 / 64)).
Lemma extent_ap (lo hi : sf) u v : ap 18 (2 ^ 67) lo u -> ap 18 (2 ^ 68) hi v -> 0 <= v - u <= pow 16 -> ap 17 (2 ^ 69) (SFsub 53 1024 hi lo) (v - u).
Proof using.
  intros H1 H2 H3. pose proof (ap_sub 18 _ _ _ _ _ _ ltac:(lia) H2 H1) as H. apply (ap_close _ _ 16) in H; [|lia|zc|rewrite Rabs_pos_eq by apply H3; apply H3]. revert H. apply ap_le; [lia|zc].
Qed.
Lemma halves_ap (w : sf) W : ap 17 (2 ^ 69) w W -> ap 16 (2 ^ 68 + 2 ^ 63) (SFdiv 53 1024 w (fnum E 2)) (W / 2).
Proof using.
  intros H. destruct (num_val O 2) as [N1 N2]; [lia|]. apply (ap_over 17 16 (2 ^ 69) (2 ^ 68) w W (fnum E 2) 2); [lia|exact N1|exact N2|lra|rewrite pow_17, pow_16; lra| |exact H]. rewrite <- mult_IZR. apply IZR_le. lia.
Qed.
Lemma middle_ap (lo hf : sf) u d : ap 18 (2 ^ 67) lo u -> ap 16 (2 ^ 68 + 2 ^ 63) hf d -> Rabs (u + d) <= pow 18 -> ap 19 (2 ^ 70) (SFadd 53 1024 lo hf) (u + d) /\ ap 19 (2 ^ 70) (SFsub 53 1024 (SFopp lo) hf) (- (u + d)).
Proof using.
  intros H1 H2 H3. apply (ap_le _ 18 _ (2 ^ 69)) in H2; [|lia|zc]. split.
  - pose proof (ap_add 18 _ _ _ _ _ _ ltac:(lia) H1 H2) as H. revert H. apply ap_le; [lia|zc].
  - pose proof (ap_sub 18 _ _ _ _ _ _ ltac:(lia) (ap_opp _ _ _ _ H1) H2) as H. replace (- (u + d)) with (- u - d) by ring. revert H. apply ap_le; [lia|zc].
Qed.
Lemma stretch_ap (rx ry : sf) : ap 17 (2 ^ 68 + 2 ^ 66) rx r -> ap 17 (2 ^ 68 + 2 ^ 66) ry r ->
  ap 1 (5 * 2 ^ 70 + 2 ^ 67) (SFdiv 53 1024 rx ry) 1 /\ ap 1 (5 * 2 ^ 70 + 2 ^ 68) (SFdiv 53 1024 (fnum E 1) (SFdiv 53 1024 rx ry)) 1.
Proof using Hr.
  intros H1 H2.
  assert (Ts : forall k, (0 <= k <= 80)%Z -> IZR (2 ^ k) * u100 <= / 1000000) by (intros k Hk; rewrite err_pow by lia; apply Rle_trans with (pow (-20)); [apply bpow_le; lia|cbn; lra]).
  assert (T : forall e : Z, (e <= 2 ^ 80)%Z -> IZR e * u100 <= / 1000000). { intros e He. apply Rle_trans with (2 := Ts 80%Z ltac:(lia)). apply err_le, He. }
  assert (Hs : ap 1 (5 * 2 ^ 70 + 2 ^ 67) (SFdiv 53 1024 rx ry) 1).
  { apply (ap_le 1 1 (5 * 2 ^ 70 + 2 ^ 66 + 2 ^ (1 + 47))); [lia|zc|]. apply (ap_quotient 17 17 1 (2 ^ 68 + 2 ^ 66) (2 ^ 68 + 2 ^ 66) _ rx ry 1 r 1 8.001); [lia|rewrite Rmult_1_l; exact H1|exact H2|lra|rewrite Rabs_R1; lra| |cbn; lra| |].
    - pose proof (T (2 ^ 68 + 2 ^ 66)%Z ltac:(zc)). lra.
    - rewrite Rmult_1_l. replace (8.001 * (IZR (2 ^ 68 + 2 ^ 66) + IZR (2 ^ 68 + 2 ^ 66))) with (8001 * 2 * IZR (2 ^ 68 + 2 ^ 66) / 1000) by lra. apply Rmult_le_reg_r with 1000; [lra|]. unfold Rdiv. rewrite Rmult_assoc, Rinv_l, Rmult_1_r by lra. rewrite <- !mult_IZR. apply IZR_le. zc.
    - pose proof (T (5 * 2 ^ 70 + 2 ^ 66)%Z ltac:(zc)). lra. }
  split; [exact Hs|]. assert (A1 : ap 0 0 (fnum E 1) (1 * 1)) by (rewrite Rmult_1_l; apply ap_num; [lia|cbn; lra]).
  apply (ap_le 1 1 (5 * 2 ^ 70 + 3 * 2 ^ 66 + 2 ^ (1 + 47))); [lia|zc|]. apply (ap_quotient 0 1 1 0 (5 * 2 ^ 70 + 2 ^ 67) _ (fnum E 1) _ 1 1 1 1.001); [lia|exact A1|exact Hs|lra|rewrite Rabs_R1; lra| |cbn; lra| |].
  - pose proof (T (5 * 2 ^ 70 + 2 ^ 67)%Z ltac:(zc)). lra.
  - rewrite Rmult_1_l, Rplus_0_l. replace (1.001 * IZR (5 * 2 ^ 70 + 2 ^ 67)) with (1001 * IZR (5 * 2 ^ 70 + 2 ^ 67) / 1000) by lra. apply Rmult_le_reg_r with 1000; [lra|]. unfold Rdiv. rewrite Rmult_assoc, Rinv_l, Rmult_1_r by lra. rewrite <- !mult_IZR. apply IZR_le. zc.
  - pose proof (T (5 * 2 ^ 70 + 3 * 2 ^ 66)%Z ltac:(zc)). lra.
Qed.
Lemma ends_ap (mid hf st : sf) c d : ap 19 (2 ^ 70) mid c -> ap 16 (2 ^ 68 + 2 ^ 63) hf d -> ap 1 (5 * 2 ^ 70 + 2 ^ 67) st 1 ->
  ap 20 (2 ^ 89) (SFadd 53 1024 mid (SFmul 53 1024 hf st)) (c + d) /\ ap 20 (2 ^ 89) (SFsub 53 1024 mid (SFmul 53 1024 hf st)) (c - d).
Proof using.
  intros H1 H2 H3. pose proof (ap_mul 16 1 _ _ _ _ _ _ ltac:(lia) ltac:(lia) ltac:(lia) H2 H3) as H. rewrite Rmult_1_r in H. apply (ap_le _ 19 _ (7 * 2 ^ 86)) in H; [|lia|zc]. split.
  - pose proof (ap_add 19 _ _ _ _ _ _ ltac:(lia) H1 H) as K. revert K. apply ap_le; [lia|zc].
  - pose proof (ap_sub 19 _ _ _ _ _ _ ltac:(lia) H1 H) as K. revert K. apply ap_le; [lia|zc].
Qed.
(** the outline, for any matrix that moves points by at most 1/64 *)
Lemma outline_close fuel (m : matrix E) (rx nY mY : F E) p :
  (forall z : pt, (Z.abs (fst z) <= 2 ^ 26)%Z -> (Z.abs (snd z) <= 2 ^ 26)%Z -> (Z.abs (fst (tFixed m z) - fst z) <= 1)%Z /\ (Z.abs (snd (tFixed m z) - snd z) <= 1)%Z) ->
  ap 17 (2 ^ 68 + 2 ^ 66) rx r -> ap 20 (2 ^ 89) nY y0 -> ap 20 (2 ^ 89) mY y1 -> (1 <= fuel)%nat -> 
  exists b1 b2 b3 b4 q,
    (let p := aStart m (toFixedP (fadd E minX rx) nY) p in
    let p := aLine m (toFixedP (fsub E maxX rx) nY) p in
    obind (roundGap fuel m (toFixedP (fsub E maxX rx) (fadd E nY rx)) (toFixedP (fnum E 0) (fneg E rx)) (toFixedP rx (fnum E 0)) p) (fun p =>
    let p := aLine m (toFixedP maxX (fsub E mY rx)) p in
    obind (roundGap fuel m (toFixedP (fsub E maxX rx) (fsub E mY rx)) (toFixedP rx (fnum E 0)) (toFixedP (fnum E 0) rx) p) (fun p =>
    let p := aLine m (toFixedP (fadd E minX rx) mY) p in
    obind (roundGap fuel m (toFixedP (fadd E minX rx) (fsub E mY rx)) (toFixedP (fnum E 0) rx) (toFixedP (fneg E rx) (fnum E 0)) p) (fun p =>
    let p := aLine m (toFixedP minX (fadd E nY rx)) p in
    obind (roundGap fuel m (toFixedP (fadd E minX rx) (fadd E nY rx)) (toFixedP (fneg E rx) (fnum E 0)) (toFixedP (fnum E 0) (fneg E rx)) p) (fun p =>
    Ret (pStop true p)))))) = Ret (p ++ q) /\ Forall2 follows (map bow_of q) (rim_bows b1 b2 b3 b4 x0 y0 x1 y1 r).
Proof using HF HA HX0 HX1 HY0 HY1 HW HH Hx Hy Hr.
  intros Hm Hrx Hn HmY Hf. cbv zeta.
  assert (Rw : r <= (x1 - x0) / 2) by (rewrite <- Hx; apply Rmin_r). assert (Rh : r <= (y1 - y0) / 2) by (rewrite <- Hy; apply Rmin_r).
  assert (X0b : Rabs x0 <= 262144) by apply HX0. assert (X1b : Rabs x1 <= 262144) by apply HX1. assert (Y0b : Rabs y0 <= 262144) by apply HY0. assert (Y1b : Rabs y1 <= 262144) by apply HY1.
  rewrite pow_16 in HW, HH. apply Rabs_le_inv in X0b, X1b, Y0b, Y1b.
  assert (Ax0 : ap 20 (2 ^ 89) minX x0) by (revert HX0; apply ap_le; lia). assert (Ax1 : ap 20 (2 ^ 89) maxX x1) by (revert HX1; apply ap_le; lia). assert (Ar : ap 20 (2 ^ 69) rx r) by (revert Hrx; apply ap_le; [lia|zc]).
  assert (plus : forall (a : sf) t, ap 20 (2 ^ 89) a t -> ap 21 (2 ^ 90) (fadd E a rx) (t + r)) by (intros a t K; wk (ap_add 20 _ _ _ _ _ _ ltac:(lia) K Ar)).
  assert (less : forall (a : sf) t, ap 20 (2 ^ 89) a t -> ap 21 (2 ^ 90) (fsub E a rx) (t - r)) by (intros a t K; wk (ap_sub 20 _ _ _ _ _ _ ltac:(lia) K Ar)).
  assert (same : forall (a : sf) t, ap 20 (2 ^ 89) a t -> ap 21 (2 ^ 90) a t) by (intros a t; apply ap_le; [lia|zc]).
  set (rho := f_to_i32 E (fmul E rx (fnum E 64))).
  destruct (fixed_near O rx r ltac:(revert Hrx; apply ap_le; [lia|zc]) ltac:(rewrite Rabs_pos_eq; lra)) as [Er _]. fold rho in Er.
  assert (Hrho : (0 < rho <= 2 ^ 22)%Z). { apply Rabs_le_inv in Er. split; [apply lt_IZR|apply le_IZR]; lra. }
  assert (Eo : f_to_i32 E (fmul E (fneg E rx) (fnum E 64)) = (- rho)%Z). { destruct Hrx as ((V & Fi & B) & _ & _). apply opp_fixed; [split; assumption|exact B]. }
  assert (D0 : toFixedP (fnum E 0) (fneg E rx) = dir 0 rho) by (unfold toFixedP, dir; rewrite zero_fixed, Eo; reflexivity).
  assert (D1 : toFixedP rx (fnum E 0) = dir 1 rho) by (unfold toFixedP, dir; rewrite zero_fixed; reflexivity).
  assert (D2 : toFixedP (fnum E 0) rx = dir 2 rho) by (unfold toFixedP, dir; rewrite zero_fixed; reflexivity).
  assert (D3 : toFixedP (fneg E rx) (fnum E 0) = dir 3 rho) by (unfold toFixedP, dir; rewrite zero_fixed, Eo; reflexivity).
  rewrite D0, D1, D2, D3. clear D0 D1 D2 D3 Eo. clearbody rho.
  assert (spot : forall (a b : F E) u v, ap 21 (2 ^ 90) a u -> ap 21 (2 ^ 90) b v -> Rabs u <= 350000 -> Rabs v <= 350000 -> let z := toFixedP a b in
    ((Z.abs (fst z) <= 2 ^ 25)%Z /\ (Z.abs (snd z) <= 2 ^ 25)%Z) /\ Rabs (IZR (fst z) - 64 * u) <= 1.1 /\ Rabs (IZR (snd z) - 64 * v) <= 1.1).
  { intros a b u v Ka Kb Hu Hv z. destruct (fixed_near O a u Ka Hu) as [F1 F2]. destruct (fixed_near O b v Kb Hv) as [F3 F4]. unfold z, toFixedP. cbn [fst snd]. auto. }
  assert (mark : forall (a b : F E) u v, ap 21 (2 ^ 90) a u -> ap 21 (2 ^ 90) b v -> Rabs u <= 350000 -> Rabs v <= 350000 -> beside (6 / 64) (6 / 64) (user (tFixed m (toFixedP a b))) (moved 1 0 0 1 0 0 (u, v))).
  { intros a b u v Ka Kb Hu Hv. apply drop_one. destruct (spot a b u v Ka Kb Hu Hv) as ((B1 & B2) & F1 & F2). cbv zeta in *. destruct (Hm (toFixedP a b) ltac:(lia) ltac:(lia)) as [M1 M2].
    set (z := toFixedP a b) in *. clearbody z. set (z' := tFixed m z) in *. clearbody z'. apply IZR_le in M1, M2. rewrite <- Rabs_Zabs, minus_IZR in M1, M2. apply Rabs_le_inv in M1, M2, F1, F2.
    unfold user. split; cbn [fst snd]; apply Rabs_le; lra. }
  assert (gap : forall k (a b : F E) u v p, (k <= 3)%nat -> ap 21 (2 ^ 90) a u -> ap 21 (2 ^ 90) b v -> Rabs u <= 350000 -> Rabs v <= 350000 ->
    exists five q, roundGap fuel m (toFixedP a b) (dir k rho) (dir (S k) rho) p = Ret (p ++ q) /\ Forall2 follows (map bow_of q) (turn_bows five u v r (ang k))).
  { intros k a b u v p0 Hk Ka Kb Hu Hv. destruct (spot a b u v Ka Kb Hu Hv) as (B & F1 & F2). cbv zeta in *. apply (gap_close O HF HA m Hm (toFixedP a b) rho B Hrho u v r F1 F2 Er fuel k p0 Hk Hf). }
  assert (bnd : forall t, -350000 <= t <= 350000 -> Rabs t <= 350000) by (intros t Ht; apply Rabs_le; lra).
  match goal with |- context [roundGap fuel m _ (dir 0 rho) (dir 1 rho) ?q] => destruct (gap 0%nat _ _ _ _ q ltac:(lia) (less _ _ Ax1) (plus _ _ Hn) (bnd (x1 - r) ltac:(lra)) (bnd (y0 + r) ltac:(lra))) as (b1 & q1 & -> & G1) end. cbn [obind].
  match goal with |- context [roundGap fuel m _ (dir 1 rho) (dir 2 rho) ?q] => destruct (gap 1%nat _ _ _ _ q ltac:(lia) (less _ _ Ax1) (less _ _ HmY) (bnd (x1 - r) ltac:(lra)) (bnd (y1 - r) ltac:(lra))) as (b2 & q2 & -> & G2) end. cbn [obind].
  match goal with |- context [roundGap fuel m _ (dir 2 rho) (dir 3 rho) ?q] => destruct (gap 2%nat _ _ _ _ q ltac:(lia) (plus _ _ Ax0) (less _ _ HmY) (bnd (x0 + r) ltac:(lra)) (bnd (y1 - r) ltac:(lra))) as (b3 & q3 & -> & G3) end. cbn [obind].
  match goal with |- context [roundGap fuel m _ (dir 3 rho) _ ?q] => destruct (gap 3%nat _ _ _ _ q ltac:(lia) (plus _ _ Ax0) (plus _ _ Hn) (bnd (x0 + r) ltac:(lra)) (bnd (y0 + r) ltac:(lra))) as (b4 & q4 & Eg & G4) end. change (dir 4 rho) with (dir 0 rho) in Eg. rewrite Eg. clear Eg. cbn [obind].
  exists b1, b2, b3, b4, (OpMoveTo (tFixed m (toFixedP (fadd E minX rx) nY)) :: OpLineTo (tFixed m (toFixedP (fsub E maxX rx) nY)) :: q1 ++ OpLineTo (tFixed m (toFixedP maxX (fsub E mY rx))) :: q2 ++ OpLineTo (tFixed m (toFixedP (fadd E minX rx) mY)) :: q3 ++ OpLineTo (tFixed m (toFixedP minX (fadd E nY rx))) :: q4 ++ [OpClose]).
  split. { unfold aStart, aLine, pStart, pLine, pStop. f_equal. rewrite <- ?app_assoc. reflexivity. }
  unfold rim_bows. cbn [map bow_of]. constructor; [apply bf_hop, mark; auto; apply bnd; lra|]. constructor; [apply bf_straight, mark; auto; apply bnd; lra|].
  rewrite map_app. apply (Forall2_app G1). cbn [map bow_of]. constructor; [apply bf_straight, mark; auto; apply bnd; lra|].
  rewrite map_app. apply (Forall2_app G2). cbn [map bow_of]. constructor; [apply bf_straight, mark; auto; apply bnd; lra|].
  rewrite map_app. apply (Forall2_app G3). cbn [map bow_of]. constructor; [apply bf_straight, mark; auto; apply bnd; lra|].
  rewrite map_app. apply (Forall2_app G4). cbn [map bow_of]. constructor; [apply bf_back|constructor].
Qed.
Theorem round_close fuel p : (1 <= fuel)%nat -> exists b1 b2 b3 b4 q, addRoundRect fuel minX minY maxX maxY rx0 ry0 (fnum E 0) p = Ret (p ++ q) /\ Forall2 follows (map bow_of q) (rim_bows b1 b2 b3 b4 x0 y0 x1 y1 r).
Proof using HF HA HX0 HY0 HX1 HY1 HW HH Hra Hrb Hx Hy Hr.
  intros Hf. assert (Ra : r <= ra) by (rewrite <- Hx; apply Rmin_l). assert (Rb : r <= rb) by (rewrite <- Hy; apply Rmin_l).
  assert (Rw : r <= (x1 - x0) / 2) by (rewrite <- Hx; apply Rmin_r). assert (Rh : r <= (y1 - y0) / 2) by (rewrite <- Hy; apply Rmin_r).
  assert (Pos : forall (v : sf) t, ap 17 (2 ^ 67) v t -> r <= t -> SFleb v (fnum E 0) = false).
  { intros v t ((V & Fi & _) & D & _) Ht. destruct (SFleb v (fnum E 0)) eqn:Hl; [|reflexivity]. apply leb_val in Hl; [|exact V|reflexivity|exact Fi|exact I]. change (val (fnum E 0)) with 0 in Hl. pose proof (tiny 67 (2 ^ 67) ltac:(lia) ltac:(lia)). apply Rabs_le_inv in D. lra. }
  unfold addRoundRect. change (fleb E) with SFleb. rewrite (Pos _ _ Hra Ra), (Pos _ _ Hrb Rb). cbn [orb]. clear Pos. cbv zeta.
  pose proof (extent_ap _ _ _ _ HX0 HX1 HW) as Aw. pose proof (extent_ap _ _ _ _ HY0 HY1 HH) as Ah. change (fsub E) with (SFsub 53 1024). set (w := SFsub 53 1024 maxX minX) in *. set (h := SFsub 53 1024 maxY minY) in *. clearbody w h.
  pose proof (clamp_ap O _ _ _ _ Hra Aw) as Ax. pose proof (clamp_ap O _ _ _ _ Hrb Ah) as Ay. rewrite Hx in Ax. rewrite Hy in Ay. change (fltb E) with SFltb. change (fmul E rx0 (fnum E 2)) with (SFmul 53 1024 rx0 (fnum E 2)). change (fmul E ry0 (fnum E 2)) with (SFmul 53 1024 ry0 (fnum E 2)). change (fdiv E) with (SFdiv 53 1024).
  change (SFmul prec64 emax64) with (SFmul 53 1024) in *.
  set (rx := if SFltb w (SFmul 53 1024 rx0 (fnum E 2)) then _ else _) in *. set (ry := if SFltb h (SFmul 53 1024 ry0 (fnum E 2)) then _ else _) in *. clearbody rx ry.
  destruct (stretch_ap rx ry Ax Ay) as [As Ai]. set (st := SFdiv 53 1024 rx ry) in *. clearbody st.
  pose proof (halves_ap _ _ Aw) as Bw. pose proof (halves_ap _ _ Ah) as Bh. set (hw := SFdiv 53 1024 w (fnum E 2)) in *. set (hh := SFdiv 53 1024 h (fnum E 2)) in *. clearbody hw hh.
  assert (X0b : Rabs x0 <= 262144) by apply HX0. assert (X1b : Rabs x1 <= 262144) by apply HX1. assert (Y0b : Rabs y0 <= 262144) by apply HY0. assert (Y1b : Rabs y1 <= 262144) by apply HY1. apply Rabs_le_inv in X0b, X1b, Y0b, Y1b.
  destruct (middle_ap _ _ _ _ HX0 Bw) as [Mx Nx]; [rewrite pow_18; apply Rabs_le; lra|]. destruct (middle_ap _ _ _ _ HY0 Bh) as [My Ny]; [rewrite pow_18; apply Rabs_le; lra|].
  destruct (ends_ap _ _ _ _ _ My Bh As) as [Ey En]. replace (y0 + (y1 - y0) / 2 + (y1 - y0) / 2) with y1 in Ey by field. replace (y0 + (y1 - y0) / 2 - (y1 - y0) / 2) with y0 in En by field.
  assert (wide : forall (v : sf) t, ap 19 (2 ^ 70) v t -> ap 19 (2 ^ 71) v t) by (intros v t; apply ap_le; [lia|zc]).
  apply outline_close; [|exact Ax|exact En|exact Ey|exact Hf].
  exact (frame_close O HF _ _ _ _ _ _ _ (wide _ _ Mx) (wide _ _ My) (wide _ _ Nx) (wide _ _ Ny) Ai).
Qed.
End Whole.

(** * ProofsCorner3: the corners of a rounded rectangle in binary64 *)
From Coq Require Import ZArith Lia Reals Lra Psatz Floats.SpecFloat.
From Flocq Require Import Core.Core IEEE754.BinarySingleNaN.
From Verif Require Import F64 RealEnv SpecArc SpecTrig SpecCurve SpecPlane SpecCorner ProofsArc64 ProofsScale ProofsAngle ProofsSize3 ProofsDec ProofsRect ProofsPlane ProofsCircle ProofsCurve ProofsCorner ProofsCorner2 ProofsClose ProofsFlocq.
Local Open Scope R_scope.
Local Existing Instance ProofsFlocq.Hprec.
Local Existing Instance ProofsFlocq.Hmax.
Local Notation pow := (bpow radix2).

(** ** Arithmetic *)
Lemma err_le e e' : (e <= e')%Z -> IZR e * u100 <= IZR e' * u100.
Proof. intros H. apply Rmult_le_compat_r; [apply Rlt_le, u_pos|apply IZR_le, H]. Qed.
Lemma err_pow k : (0 <= k)%Z -> IZR (2 ^ k) * u100 = pow (k - 100).
Proof. intros H. rewrite pow_Z by exact H. rewrite <- bpow_plus. reflexivity. Qed.
(** a quotient [k] of two numbers that are known up to errors *)
Lemma ap_quotient b1 b2 b e1 e2 e x y k s (K M : R) : (0 <= b <= 900)%Z -> ap b1 e1 x (k * s) -> ap b2 e2 y s -> 0 < M -> Rabs k <= K ->
  1 <= M * (s - IZR e2 * u100) -> K + 1 <= pow b -> M * (IZR e1 + K * IZR e2) <= IZR e -> IZR e * u100 <= 1 ->
  ap b (e + 2 ^ (b + 47)) (SFdiv 53 1024 x y) k.
Proof.
  intros Hb ((Vx & Fx & Bx) & Hx & _) ((Vy & Fy & By) & Hy & _) M0 Hk Hlo HKb He Hsmall. pose proof (Rabs_pos k) as HK.
  pose proof u_pos as U. apply Rabs_le_inv in Hy.
  assert (Y1 : 1 <= M * val y) by (apply Rle_trans with (1 := Hlo); apply Rmult_le_compat_l; lra).
  assert (Y0 : 0 < val y) by (apply Rnot_le_lt; intros N; nra).
  assert (Yi : / val y <= M). { apply Rmult_le_reg_r with (val y); [exact Y0|]. rewrite Rinv_l by lra. exact Y1. }
  assert (Yp : 0 < / val y) by (apply Rinv_0_lt_compat, Y0).
  assert (Hq : Rabs (val x / val y - k) <= IZR e * u100).
  { apply Rle_trans with (M * (IZR e1 + K * IZR e2) * u100); [|apply Rmult_le_compat_r; lra].
    replace (val x / val y - k) with (((val x - k * s) - k * (val y - s)) * / val y) by (field; lra). rewrite Rabs_mult, (Rabs_pos_eq (/ val y)) by lra.
    assert (Hn : Rabs (val x - k * s - k * (val y - s)) <= (IZR e1 + K * IZR e2) * u100).
    { pose proof (Rabs_triang (val x - k * s) (- (k * (val y - s)))) as T. rewrite Rabs_Ropp, Rabs_mult in T.
      assert (Rabs k * Rabs (val y - s) <= K * (IZR e2 * u100)) by (apply Rmult_le_compat; try apply Rabs_pos; [exact Hk|apply Rabs_le; lra]). unfold Rminus at 1. lra. }
    rewrite (Rmult_comm M), Rmult_assoc, (Rmult_comm M), <- Rmult_assoc. apply Rmult_le_compat; try lra. apply Rabs_pos. }
  assert (Hqb : Rabs (val x / val y) <= pow b). { pose proof (Rabs_triang (val x / val y - k) k) as T. replace (val x / val y - k + k) with (val x / val y) in T by ring. lra. }
  destruct (div_round x y Vx Vy Fx Fy ltac:(lra)) as [K1 K2]; [apply (no_over b); [lia|exact Hqb]|].
  assert (Vd : valid (SFdiv 53 1024 x y)) by (apply div_valid; assumption).
  split; [split; [exact Vd|split; [exact K1|rewrite K2; apply rnd_up; [lia|exact Hqb]]]|]. split; [|lra].
  rewrite K2. pose proof (rnd_err b (val x / val y) Hb Hqb) as R1. rewrite plus_IZR, Rmult_plus_distr_r.
  pose proof (Rabs_triang (rnd (val x / val y) - val x / val y) (val x / val y - k)) as T. replace (rnd (val x / val y) - val x / val y + (val x / val y - k)) with (rnd (val x / val y) - k) in T by ring. lra.
Qed.
Lemma ap_abs b e x r : 0 <= r -> ap b e x r -> ap b e (SFabs x) r.
Proof.
  intros Hr ((V & Fi & B) & H & K). assert (Va : valid (SFabs x)) by (destruct x; exact V). assert (Fa : finite (SFabs x)) by (destruct x; exact Fi).
  assert (Hab : val (SFabs x) = Rabs (val x)). { destruct x as [s|s| |s m0 e0]; cbn; try (rewrite Rabs_R0; reflexivity). rewrite <- F2R_Zabs. destruct s; reflexivity. }
  split; [split; [exact Va|split; [exact Fa|rewrite Hab, Rabs_Rabsolu; exact B]]|]. split; [|exact K]. rewrite Hab. apply Rle_trans with (2 := H).
  rewrite <- (Rabs_pos_eq r) at 1 by exact Hr. apply Rabs_triang_inv2.
Qed.
Lemma ap_at_i32 O b e x r z : ap b e x r -> IZR z + IZR e * u100 <= r -> r + IZR e * u100 < IZR z + 1 -> (0 <= z < 2 ^ 30)%Z -> sf_to_i32 O x = z.
Proof.
  intros ((V & Fi & B) & H & K) H1 H2 Hz. apply Rabs_le_inv in H. apply (to_i32_val O); [exact Fi| |unfold int32; lia].
  assert (0 <= IZR z) by (apply IZR_le; lia). rewrite Ztrunc_floor by lra. apply Zfloor_imp. rewrite plus_IZR. lra.
Qed.
Section Angles.
Context (O : Oracles) (HF : fair_trig O).
Notation E := (F64 O).
(** ** The factor of the handles *)
Definition factor (d : R) : R := sin d * (sqrt (4 + 3 * (tan (d / 2) * tan (d / 2))) - 1) * (64 / 3).
Lemma lit64_ap : ap 5 (2 ^ 52) (flit E 64 3) (64 / 3).
Proof using.
  cbn [flit F64]. unfold sf_lit. change (64 <? 0)%Z with false. cbv iota. destruct (rat_round false (Z.abs_N 64) 3) as [K1 K2].
  { unfold ratR. cbn [Z.abs_N Z.of_N]. apply (no_over 5); [lia|]. rewrite Rmult_1_l. rewrite Rabs_pos_eq by lra. cbn. lra. }
  assert (Hr : ratR false (Z.abs_N 64) 3 = 64 / 3) by (unfold ratR; cbn [Z.abs_N Z.of_N]; ring). rewrite Hr in K2.
  assert (Hb : Rabs (64 / 3) <= pow 5) by (rewrite Rabs_pos_eq by lra; cbn; lra).
  split; [split; [apply rat_valid|split; [exact K1|rewrite K2; apply rnd_up; [lia|exact Hb]]]|]. split; [|exact Hb]. rewrite K2. apply (rnd_err 5); [lia|exact Hb].
Qed.
Lemma factor_ap (x : sf) d : ap 0 (2 ^ 66) x d ->
  let tde := ftan E (fdiv E x (fnum E 2)) in
  ap 14 (2 ^ 85) (fmul E (fmul E (fsin E x) (fsub E (fsqrt E (fadd E (fnum E 4) (fmul E (fmul E (fnum E 3) tde) tde))) (fnum E 1))) (flit E 64 3)) (factor d).
Proof using HF.
  intros Hx tde. change (fadd E) with (SFadd 53 1024). change (fmul E) with (SFmul 53 1024). change (fsub E) with (SFsub 53 1024). change (fsqrt E) with (SFsqrt 53 1024). change (fsin E) with (o_sin O).
  destruct (num_val O 2) as [N1 N2]; [lia|]. pose proof (ap_half 0 _ _ _ _ ltac:(lia) N1 N2 Hx) as H1. apply (ap_le _ 0 _ (2 ^ 67)) in H1; [|lia|zc].
  pose proof (ap_tan O HF _ _ _ H1) as Ht. change (o_tan O (SFdiv 53 1024 x (fnum E 2))) with tde in Ht. clearbody tde. unfold factor. set (r := tan _) in *. apply (ap_le _ 2 _ (2 ^ 70)) in Ht; [|lia|zc].
  assert (A3 : ap 2 0 (fnum E 3) 3) by (apply ap_num; [lia|cbn; lra]).
  assert (A4 : ap 6 0 (fnum E 4) 4) by (apply ap_num; [lia|cbn; lra]).
  assert (A1 : ap 7 0 (fnum E 1) 1) by (apply ap_num; [lia|cbn; lra]).
  pose proof (ap_mul 4 2 _ _ _ _ _ _ ltac:(lia) ltac:(lia) ltac:(lia) (ap_mul 2 2 _ _ _ _ _ _ ltac:(lia) ltac:(lia) ltac:(lia) A3 Ht) Ht) as H2.
  pose proof (ap_add 6 _ _ _ _ _ _ ltac:(lia) A4 H2) as H3. rewrite Rmult_assoc in H3. apply (ap_le _ 7 _ (2 ^ 76)) in H3; [|lia|zc].
  assert (Hr : 4 <= 4 + 3 * (r * r)) by nra.
  assert (Hv : 1 <= val (SFadd 53 1024 (fnum E 4) (SFmul 53 1024 (SFmul 53 1024 (fnum E 3) tde) tde))).
  { destruct H3 as (_ & H3 & _). apply Rabs_le_inv in H3. pose proof (small60 (2 ^ 76) ltac:(lia)). lra. }
  assert (Hr1 : 1 <= 4 + 3 * (r * r)) by lra. pose proof (ap_sqrt 7 _ _ _ ltac:(lia) Hr1 Hv H3) as H4. pose proof (ap_sub 7 _ _ _ _ _ _ ltac:(lia) H4 A1) as H5.
  assert (Hs : ap 3 (2 ^ 66) x d) by (revert Hx; apply ap_le; lia). apply (ap_sin O HF) in Hs.
  pose proof (ap_mul 1 8 _ _ _ _ _ _ ltac:(lia) ltac:(lia) ltac:(lia) Hs H5) as H6.
  pose proof (ap_mul 9 5 _ _ _ _ _ _ ltac:(lia) ltac:(lia) ltac:(lia) H6 lit64_ap) as H7. revert H7. apply ap_le; [lia|zc].
Qed.
Lemma factor_at d lo hi : 0 < d < PI / 2 -> 0 < sin d -> lo <= (1 - cos d) / (1 + cos d) <= hi -> 0 <= lo ->
  forall q0 q1, 0 <= q0 -> 0 <= q1 -> q0 * q0 <= 4 + 3 * lo -> 4 + 3 * hi <= q1 * q1 -> sin d * (q0 - 1) * (64 / 3) <= factor d <= sin d * (q1 - 1) * (64 / 3).
Proof using.
  intros Hd Hs Hx Hlo q0 q1 P0 P1 H0 H1. assert (Hc : cos (d / 2) <> 0) by (apply Rgt_not_eq, cos_gt_0; lra). destruct (half_angle d Hc) as [Ec _]. pose proof (x2_pos d) as Xp.
  assert (E2 : (1 - cos d) / (1 + cos d) = x2 d) by (rewrite Ec; field; lra). rewrite E2 in Hx. unfold factor. fold (x2 d). set (x := x2 d) in *.
  assert (Q0 : q0 <= sqrt (4 + 3 * x)) by (rewrite <- (sqrt_square q0) by exact P0; apply sqrt_le_1_alt; lra).
  assert (Q1 : sqrt (4 + 3 * x) <= q1) by (rewrite <- (sqrt_square q1) by exact P1; apply sqrt_le_1_alt; lra).
  split; apply Rmult_le_compat_r; try lra; apply Rmult_le_compat_l; lra.
Qed.
Lemma quot_bounds a b lo hi : 0 < b -> lo * b <= a <= hi * b -> lo <= a / b <= hi.
Proof using. intros Hb [H1 H2]. split; apply Rmult_le_reg_r with b; try exact Hb; unfold Rdiv; rewrite Rmult_assoc, Rinv_l by lra; lra. Qed.
Lemma factor_tenth : 6.5 <= factor (PI / 10) <= 6.9.
Proof using.
  pose proof tenth as [Hs Hc]. pose proof PI_RGT_0.
  destruct (factor_at (PI / 10) 0.025 0.0252 ltac:(lra) ltac:(lra)) with (q0 := 2.018) (q1 := 2.02) as [A B]; try lra.
  apply quot_bounds; lra.
Qed.
Lemma factor_eighth : 8.2 <= factor (PI / 8) <= 8.6.
Proof using.
  pose proof eighth as [Hs Hc]. pose proof PI_RGT_0.
  destruct (factor_at (PI / 8) 0.0395 0.0397 ltac:(lra) ltac:(lra)) with (q0 := 2.029) (q1 := 2.031) as [A B]; try lra.
  apply quot_bounds; lra.
Qed.
Lemma eighth_ap : ap 0 (2 ^ 52) eighth64 (PI / 8).
Proof using.
  pose proof pi_ap as ((V & Fi & B) & H & K). pose proof pi_bounds. assert (Ev : val eighth64 = val pi64 / 8) by (unfold pi64, eighth64, SF2R, F2R; cbn; lra). pose proof u_pos.
  assert (Hp : IZR (2 ^ 52) * u100 <= / 1000) by (apply small60; lia). apply Rabs_le_inv in H.
  split; [split; [reflexivity|split; [exact I|]]|split]; try (rewrite Ev); change (pow 0) with 1; apply Rabs_le; lra.
Qed.
(** ** The pieces of a quarter *)
Lemma pieces_of (x : sf) : ap 3 (2 ^ 64) x (PI / 2) -> exists five : bool,
  f_to_int E (fdiv E (fabs E x) (piOver8 (E := E))) = if five then 4%Z else 3%Z.
Proof using.
  intros Hx. rewrite eighth_eq. cbn [f_to_int fdiv fabs F64]. change (SFdiv prec64 emax64) with (SFdiv 53 1024). pose proof pi_bounds. apply (ap_abs 3) in Hx; [|lra].
  assert (Hq : ap 3 (2 ^ 70) (SFdiv 53 1024 (SFabs x) eighth64) 4).
  { refine (ap_le _ _ _ _ _ _ _ _ (ap_quotient 3 0 3 (2 ^ 64) (2 ^ 52) (2 ^ 69) (SFabs x) eighth64 4 (PI / 8) 4 3 _ _ _ _ _ _ _ _ _)); try lia; try zc.
    - replace (4 * (PI / 8)) with (PI / 2) by field. exact Hx.
    - exact eighth_ap.
    - lra.
    - rewrite Rabs_pos_eq; lra.
    - pose proof (small60 (2 ^ 52) ltac:(lia)). lra.
    - cbn; lra.
    - rewrite <- mult_IZR, <- plus_IZR, <- mult_IZR. apply IZR_le. lia.
    - apply Rle_trans with (/ 1000); [apply small60; zc|lra]. }
  destruct Hq as ((V & Fi & _) & Hq & _). pose proof (small60 (2 ^ 70) ltac:(lia)) as S. apply Rabs_le_inv in Hq. set (q := SFdiv 53 1024 (SFabs x) eighth64) in *.
  destruct (Rlt_or_le (val q) 4) as [L|L].
  - exists false. apply to_int_val; [exact Fi| |lia]. rewrite Ztrunc_floor by lra. apply Zfloor_imp. change (IZR (3 + 1)) with 4. change (IZR 3) with 3. lra.
  - exists true. apply to_int_val; [exact Fi| |lia]. rewrite Ztrunc_floor by lra. apply Zfloor_imp. change (IZR (4 + 1)) with 5. change (IZR 4) with 4. lra.
Qed.
Context (m : matrix E) (Hm : forall z : pt, (Z.abs (fst z) <= 2 ^ 26)%Z -> (Z.abs (snd z) <= 2 ^ 26)%Z ->
  (Z.abs (fst (tFixed m z) - fst z) <= 1)%Z /\ (Z.abs (snd (tFixed m z) - snd z) <= 1)%Z).
Context (a : pt) (rho : Z) (Ha : (Z.abs (fst a) <= 2 ^ 25)%Z /\ (Z.abs (snd a) <= 2 ^ 25)%Z) (Hrho : (0 < rho <= 2 ^ 22)%Z).
Context (cx cy r : R) (Hcx : Rabs (IZR (fst a) - 64 * cx) <= 1.1) (Hcy : Rabs (IZR (snd a) - 64 * cy) <= 1.1) (Hr : Rabs (IZR rho - 64 * r) <= 1.1).
Notation follows := (bow_follows 1 0 0 1 0 0 (6 / 64) (6 / 64)).
Notation at_t t := (ellipse_pt cx cy r r t).
Lemma corner_close fuel (s1 s2 : pt) (theta1 theta2 theta2' : F E) t p :
  theta1 = fatan2 E (f_of_Z E (wrap32 (snd s1 - snd a)%Z)) (f_of_Z E (wrap32 (fst s1 - fst a)%Z)) ->
  theta2 = fatan2 E (f_of_Z E (wrap32 (snd s2 - snd a)%Z)) (f_of_Z E (wrap32 (fst s2 - fst a)%Z)) ->
  raise_angle fuel theta2 theta1 = Ret theta2' -> ap 2 (2 ^ 60) theta1 t -> ap 3 (2 ^ 62) theta2' (t + PI / 2) -> - PI <= t <= PI -> ptLength (E := E) (ptSub s1 a) = rho ->
  exists five q, addCircArc fuel m a s1 s2 p = Ret (p ++ q) /\ Forall2 follows (map bow_of q) (Straight (at_t t) :: bends cx cy r t five).
Proof using HF Hm Ha Hrho Hcx Hcy Hr.
  intros E1 E2 Hraise A1 A2 Ht Hlen. unfold addCircArc. rewrite <- E1, <- E2, Hraise. cbn [obind]. rewrite Hlen. cbv zeta. pose proof pi_bounds as Pb.
  assert (A1' : ap 3 (2 ^ 60) theta1 t) by (revert A1; apply ap_le; lia).
  pose proof (ap_sub 3 _ _ _ _ _ _ ltac:(lia) A2 A1') as Ad. replace (t + PI / 2 - t) with (PI / 2) in Ad by ring. change (SFsub 53 1024 theta2' theta1) with (fsub E theta2' theta1) in Ad.
  set (delta := fsub E theta2' theta1) in *. clearbody delta. apply (ap_tight) in Ad; [|zc|rewrite Rabs_pos_eq; lra]. apply (ap_le _ 3 _ (2 ^ 63)) in Ad; [|lia|zc].
  destruct (pieces_of delta) as [five ->]. { revert Ad. apply ap_le; lia. }
  set (segs := Z.add (if five then 4%Z else 3%Z) 1). set (d := snd (fst (cut five))).
  assert (Sg : segs = Z.of_nat (fst (fst (cut five)))) by (destruct five; reflexivity). assert (Sr : 4 <= IZR segs <= 5) by (destruct five; cbn; lra).
  assert (Ed : PI / 2 / IZR segs = d) by (unfold segs, d; destruct five; cbn [cut fst snd Z.add Pos.add Pos.succ]; field).
  destruct (of_Z_val segs) as [Fs Vs]; [destruct five; reflexivity|].
  assert (Ax : ap 0 (2 ^ 62) (fdiv E delta (f_of_Z E segs)) d).
  { pose proof (ap_over 3 1 (2 ^ 63) (2 ^ 61) delta (PI / 2) (f_of_Z E segs) (IZR segs) ltac:(lia) (conj (of_Z_valid segs) Fs) Vs ltac:(lra)) as Q. rewrite Ed in Q.
    assert (Q1 : ap 1 (2 ^ 61 + 2 ^ (1 + 47)) (fdiv E delta (f_of_Z E segs)) d).
    { apply Q; [|apply Rle_trans with (4 * IZR (2 ^ 61)); [rewrite <- mult_IZR; apply IZR_le; zc|apply Rmult_le_compat_r; [apply IZR_le; lia|lra]]|exact Ad].
      change (pow 3) with 8. change (pow 1) with 2. apply Rmult_le_reg_r with (IZR segs); [lra|]. unfold Rdiv. rewrite Rmult_assoc, Rinv_l by lra. lra. }
    clear Q. assert (Db : 0 <= d <= / 2) by (unfold d; destruct five; cbn [cut fst snd]; lra). destruct Q1 as ((V & Fi & _) & Hq & _). pose proof (small60 (2 ^ 61 + 2 ^ (1 + 47)) ltac:(lia)) as S.
    split; [split; [exact V|split; [exact Fi|]]|split].
    - apply Rabs_le_inv in Hq. change (pow 0) with 1. apply Rabs_le. lra.
    - apply Rle_trans with (1 := Hq). apply err_le. zc.
    - change (pow 0) with 1. apply Rabs_le. lra. }
  set (dT := fdiv E delta (f_of_Z E segs)) in *. clearbody dT.
  pose proof (factor_ap dT d ltac:(revert Ax; apply ap_le; lia)) as Af. cbv zeta in Af.
  set (fac := fmul E (fmul E (fsin E dT) _) _) in *. clearbody fac.
  assert (Eal : f_to_i32 E fac = if five then 6%Z else 8%Z).
  { pose proof (small60 (2 ^ 85) ltac:(lia)) as S. unfold d in Af. pose proof factor_tenth as T1. pose proof factor_eighth as T2. destruct five; cbn [cut fst snd] in Af; apply (ap_at_i32 O _ _ _ _ _ Af); try lia; lra. }
  rewrite Eal. set (al := if five then 6%Z else 8%Z). assert (Hal : (0 <= al <= 8)%Z) by (unfold al; destruct five; lia). assert (Eh : snd (cut five) = IZR al / 64) by (unfold al; destruct five; reflexivity).
  assert (Heta : forall i : nat, (1 <= i <= 5)%nat -> ap 3 (2 ^ 66) (fadd E theta1 (fmul E dT (f_of_Z E (Z.of_nat i)))) (if Nat.leb i (fst (fst (cut five))) then ray t d i else t)
    \/ (fst (fst (cut five)) < i)%nat).
  { intros i Hi. destruct (Nat.leb_spec i (fst (fst (cut five)))) as [L|L]; [left|now right].
    assert (Az : ap 3 0 (f_of_Z E (Z.of_nat i)) (IZR (Z.of_nat i))) by (apply (ap_ofZ O 3); lia).
    pose proof (ap_mul 0 3 _ _ _ _ _ _ ltac:(lia) ltac:(lia) ltac:(lia) Ax Az) as H1. pose proof (ap_add 3 _ _ _ _ _ _ ltac:(lia) A1' H1) as H2.
    unfold ray. rewrite INR_IZR_INZ, (Rmult_comm (IZR _)). apply (ap_tight 4); [revert H2; apply ap_le; [lia|zc]|zc|].
    assert (Hi1 : 0 <= IZR (Z.of_nat i) <= IZR segs) by (rewrite Sg; split; apply IZR_le; lia). assert (Hds : d * IZR segs = PI / 2) by (rewrite <- Ed; field; lra).
    assert (0 <= d) by (rewrite <- Ed; apply Rmult_le_pos; [lra|apply Rlt_le, Rinv_0_lt_compat; lra]). apply Rabs_le. nra. }
  assert (Heta' : forall i : nat, (1 <= i <= fst (fst (cut five)))%nat -> ap 3 (2 ^ 66) (fadd E theta1 (fmul E dT (f_of_Z E (Z.of_nat i)))) (ray t d i)).
  { intros i Hi. destruct (Heta i) as [K|K]; [destruct five; cbn in Hi; lia| |lia]. replace (Nat.leb i (fst (fst (cut five)))) with true in K by (symmetry; apply Nat.leb_le; lia). exact K. }
  clear Heta.
  pose proof (spot_at O HF a rho Ha Hrho theta1 t ltac:(revert A1'; apply ap_le; lia)) as (S1 & L1 & L2). 
  set (ldp := (wrap32 (- f_to_i32 E (fmul E (f_of_Z E rho) (fsin E theta1))), f_to_i32 E (fmul E (f_of_Z E rho) (fcos E theta1)))) in *.
  set (ps1 := (wrap32 (fst a + snd ldp), wrap32 (snd a - fst ldp))%Z) in *.
  assert (S0 : spotted a rho (ray t d 0) ldp ps1) by (rewrite ray_0; exact S1).
  assert (Hn : (0 + fst (fst (cut five)) <= fst (fst (cut five)))%nat) by lia.
  destruct (segs_close O HF m Hm a rho Ha Hrho cx cy r Hcx Hcy Hr theta1 dT t d al Hal (fst (fst (cut five))) Heta' (fst (fst (cut five))) 0 ps1 ldp (aLine m ps1 p) Hn S0 L1 L2) as (q & Eq & Fq).
  exists five, (OpLineTo (tFixed m ps1) :: q). split.
  - replace (Z.to_nat segs) with (fst (fst (cut five))) by (rewrite Sg; lia). change 1%Z with (Z.of_nat 1). rewrite Eq. unfold aLine, pLine. rewrite <- app_assoc. reflexivity.
  - cbn [map bow_of]. constructor; [apply bf_straight, drop_one, (spot_stored O m Hm a rho Ha cx cy r Hcx Hcy Hr t ldp ps1 S1 L1 L2)|]. unfold bends. fold d. rewrite Eh. exact Fq.
Qed.
End Angles.
Section Gaps.
Context (O : Oracles) (HF : fair_trig O) (HA : fair_axes O).
Notation E := (F64 O).
Lemma two_pi_ap : ap 3 (2 ^ 53) two_pi64 (2 * PI).
Proof using.
  pose proof pi_ap as ((V & Fi & B) & H & K). pose proof pi_bounds. assert (Ev : val two_pi64 = 2 * val pi64) by (unfold pi64, two_pi64, SF2R, F2R; cbn; lra).
  assert (Hp : IZR (2 ^ 52) * u100 <= / 1000) by (apply small60; lia). change (2 ^ 53)%Z with (2 * 2 ^ 52)%Z. rewrite <- Rabs_Zabs || idtac. apply Rabs_le_inv in H.
  split; [split; [reflexivity|split; [exact I|]]|split]; try (rewrite Ev); try rewrite mult_IZR; change (pow 3) with 8; apply Rabs_le; lra.
Qed.
(** the directions from the centre of a corner to its ends, and their angles *)
Definition dir (k : nat) (rho : Z) : pt := match k with 1%nat => (rho, 0) | 2%nat => (0, rho) | 3%nat => (- rho, 0) | _ => (0, - rho) end%Z.
Definition ang (k : nat) : R := match k with 1%nat => 0 | 2%nat => PI / 2 | 3%nat => PI | _ => - (PI / 2) end.
Definition ways (k : nat) (rho : Z) : F E := fatan2 E (f_of_Z E (snd (dir k rho))) (f_of_Z E (fst (dir k rho))).
Lemma ways_ap k rho : (0 < rho <= 2 ^ 22)%Z -> ap 2 (2 ^ 60) (ways k rho) (ang k).
Proof using HA.
  intros Hr. pose proof pi_bounds as Pb. assert (Hp : 0 < IZR rho) by (apply IZR_lt; lia).
  assert (Ha : Rabs (ang k) <= PI) by (unfold ang; destruct k as [|[|[|[|k]]]]; apply Rabs_le; lra).
  assert (Hd : atan2 (IZR (snd (dir k rho))) (IZR (fst (dir k rho))) = ang k).
  { unfold dir, ang. destruct k as [|[|[|[|k]]]]; cbn [fst snd]; rewrite ?opp_IZR; first [apply atan2_px|apply atan2_nx|apply atan2_py|apply atan2_ny]; exact Hp. }
  destruct (HA (snd (dir k rho)) (fst (dir k rho))) as [[V Fi] H]; try (unfold dir; destruct k as [|[|[|[|k]]]]; cbn [fst snd]; lia). rewrite Hd in H. fold (ways k rho) in V, Fi, H.
  assert (E40 : IZR (2 ^ 60) * u100 = / 2 ^ 40) by (rewrite err_pow by lia; cbn; lra). apply Rabs_le_inv in Ha. apply Rabs_le_inv in H.
  split; [split; [exact V|split; [exact Fi|change (pow 2) with 4; apply Rabs_le; lra]]|]. split; [rewrite E40|change (pow 2) with 4]; apply Rabs_le; lra.
Qed.
Lemma ways_raised fuel k rho : (0 < rho <= 2 ^ 22)%Z -> (k <= 3)%nat -> (1 <= fuel)%nat ->
  exists th, raise_angle fuel (ways (S k) rho) (ways k rho) = Ret th /\ ap 3 (2 ^ 62) th (ang k + PI / 2).
Proof using HA.
  intros Hr Hk Hf. destruct fuel as [|fuel]; [lia|]. pose proof pi_bounds as Pb.
  pose proof (ways_ap k rho Hr) as A1. pose proof (ways_ap (S k) rho Hr) as A2. set (x := ways k rho) in *. set (y := ways (S k) rho) in *. clearbody x y.
  pose proof (small60 (2 ^ 60) ltac:(lia)) as S6. assert (B2 := A2). assert (B1 := A1). destruct A1 as ((V1 & F1 & _) & D1 & _). destruct A2 as ((V2 & F2 & _) & D2 & _). apply Rabs_le_inv in D1, D2. cbn [raise_angle]. change (fltb E) with SFltb.
  destruct (Nat.eq_dec k 3) as [->|Nk].
  - cbn [ang] in D1, D2, B1, B2. destruct (SFltb y x) eqn:Hl; [|apply ltb_false in Hl; try assumption; lra].
    assert (A : ap 3 (2 ^ 62) (fadd E y (twoPi (E := E))) (PI + PI / 2)).
    { rewrite two_pi64_eq. assert (B2' : ap 3 (2 ^ 60) y (- (PI / 2))) by (revert B2; apply ap_le; lia). pose proof (ap_add 3 _ _ _ _ _ _ ltac:(lia) B2' two_pi_ap) as H.
      replace (- (PI / 2) + 2 * PI) with (PI + PI / 2) in H by field. apply (ap_tight 4); [revert H; apply ap_le; [lia|zc]|zc|rewrite Rabs_pos_eq; lra]. }
    exists (fadd E y (twoPi (E := E))). split; [|exact A]. set (th := fadd E y (twoPi (E := E))) in *. clearbody th. pose proof (small60 (2 ^ 62) ltac:(lia)) as S7. destruct A as ((V & Fi & _) & D & _). apply Rabs_le_inv in D.
    assert (Hs : SFltb th x = false) by (destruct (SFltb th x) eqn:Hb; [apply ltb_val in Hb; try assumption; lra|reflexivity]).
    destruct fuel; cbn [raise_angle]; change (fltb E) with SFltb; rewrite Hs; reflexivity.
  - assert (Ea : ang (S k) = ang k + PI / 2) by (destruct k as [|[|[|k]]]; [cbn; field..|lia]). rewrite Ea in *.
    assert (Hs : SFltb y x = false) by (destruct (SFltb y x) eqn:Hb; [apply ltb_val in Hb; try assumption; lra|reflexivity]). rewrite Hs. exists y. split; [reflexivity|]. revert B2. apply ap_le; lia.
Qed.
Lemma dir_length k rho : (0 < rho <= 2 ^ 22)%Z -> ptLength (E := E) (dir k rho) = rho.
Proof using.
  intros Hr.
  assert (K : forall y x : Z, (Z.abs y <= 2 ^ 22)%Z -> (Z.abs x <= 2 ^ 22)%Z -> (y * y + x * x = rho * rho)%Z -> ptLength (E := E) (y, x) = rho).
  { intros y x Hy Hx Hs. unfold ptLength. cbn [fst snd]. change (fmul E) with (SFmul 53 1024). change (fadd E) with (SFadd 53 1024). change (fsqrt E) with (SFsqrt 53 1024).
    assert (Sq : forall z, (Z.abs z <= 2 ^ 22)%Z -> valid (SFmul 53 1024 (f_of_Z E z) (f_of_Z E z)) /\ finite (SFmul 53 1024 (f_of_Z E z) (f_of_Z E z)) /\ val (SFmul 53 1024 (f_of_Z E z) (f_of_Z E z)) = IZR (z * z)).
    { intros z Hz. destruct (of_Z_val z) as [F1 V1]; [lia|]. change (f_of_Z E z) with (sf_of_Z z). pose proof (of_Z_valid z) as Vz. assert (Hz2 : (Z.abs (z * z) <= 2 ^ 44)%Z) by nia.
      destruct (mul_round (sf_of_Z z) (sf_of_Z z) Vz Vz F1 F1) as [K1 K2]; rewrite V1, <- mult_IZR in *; rewrite rnd_int in * by lia.
      - rewrite Rabs_Zabs. apply Rle_lt_trans with (IZR (2 ^ 44)); [apply IZR_le, Hz2|]. rewrite pow_Z by lia. apply bpow_lt. lia.
      - split; [apply mul_valid; exact Vz|]. split; [exact K1|exact K2]. }
    destruct (Sq y Hy) as (Va & Fa & Ea). destruct (Sq x Hx) as (Vb & Fb & Eb). assert (Hrr : (0 <= rho * rho <= 2 ^ 44)%Z) by nia.
    destruct (add_round _ _ Va Vb Fa Fb) as [K1 K2]; rewrite Ea, Eb, <- plus_IZR, Hs in *; rewrite rnd_int in * by lia.
    { rewrite Rabs_Zabs. apply Rle_lt_trans with (IZR (2 ^ 44)); [apply IZR_le; lia|]. rewrite pow_Z by lia. apply bpow_lt. lia. }
    destruct (sqrt_round _ (add_valid _ _ Va Vb) K1) as (V3 & F3 & E3); [rewrite K2; apply IZR_le; lia|]. rewrite K2 in E3. rewrite mult_IZR, sqrt_square in E3 by (apply IZR_le; lia). rewrite rnd_int in E3 by lia.
    apply (to_i32_val O); [exact F3|rewrite E3; apply Ztrunc_IZR|unfold int32; lia]. }
  unfold dir. destruct k as [|[|[|[|k]]]]; apply K; lia.
Qed.
Context (m : matrix E) (Hm : forall z : pt, (Z.abs (fst z) <= 2 ^ 26)%Z -> (Z.abs (snd z) <= 2 ^ 26)%Z ->
  (Z.abs (fst (tFixed m z) - fst z) <= 1)%Z /\ (Z.abs (snd (tFixed m z) - snd z) <= 1)%Z).
Context (a : pt) (rho : Z) (Ha : (Z.abs (fst a) <= 2 ^ 25)%Z /\ (Z.abs (snd a) <= 2 ^ 25)%Z) (Hrho : (0 < rho <= 2 ^ 22)%Z).
Context (cx cy r : R) (Hcx : Rabs (IZR (fst a) - 64 * cx) <= 1.1) (Hcy : Rabs (IZR (snd a) - 64 * cy) <= 1.1) (Hr : Rabs (IZR rho - 64 * r) <= 1.1).
Notation follows := (bow_follows 1 0 0 1 0 0 (6 / 64) (6 / 64)).
Notation at_t t := (ellipse_pt cx cy r r t).
Lemma dir_small k : (Z.abs (fst (dir k rho)) <= 2 ^ 22)%Z /\ (Z.abs (snd (dir k rho)) <= 2 ^ 22)%Z.
Proof using Hrho Ha. unfold dir. destruct k as [|[|[|[|k]]]]; cbn [fst snd]; lia. Qed.
Lemma at_end k : (k <= 3)%nat -> beside (6 / 64) (6 / 64) (user (tFixed m (ptAdd a (dir (S k) rho)))) (at_t (ang k + PI / 2)).
Proof using Hm Ha Hrho Hcx Hcy Hr.
  intros Hk. destruct (dir_small (S k)) as [L1 L2]. unfold ptAdd. rewrite !wrap_small by lia. destruct (Hm (fst a + fst (dir (S k) rho), snd a + snd (dir (S k) rho))%Z) as [M1 M2]; cbn [fst snd]; [lia..|]. cbn [fst snd] in M1, M2.
  assert (Hc : IZR (fst (dir (S k) rho)) = IZR rho * cos (ang k + PI / 2) /\ IZR (snd (dir (S k) rho)) = IZR rho * sin (ang k + PI / 2)).
  { destruct k as [|[|[|[|k]]]]; [..|lia]; cbn [ang dir fst snd]; rewrite ?opp_IZR.
    - replace (- (PI / 2) + PI / 2) with 0 by ring. rewrite cos_0, sin_0. lra.
    - rewrite Rplus_0_l, cos_PI2, sin_PI2. lra.
    - replace (PI / 2 + PI / 2) with PI by field. rewrite cos_PI, sin_PI. lra.
    - rewrite Rplus_comm, cos_plus, sin_plus, cos_PI, sin_PI, cos_PI2, sin_PI2. lra. }
  destruct Hc as [Hc Hs]. set (u := ang k + PI / 2) in *. clearbody u. unfold user, ellipse_pt. split; cbn [fst snd].
  - apply (fun K => stored rho r Hr _ _ (fst a) _ _ 0 M1 K ltac:(lra) Hcx); [|apply Rabs_le; pose proof (COS_bound u); lra]. rewrite plus_IZR, Hc. rewrite Rminus_diag_eq, Rabs_R0 by reflexivity. lra.
  - apply (fun K => stored rho r Hr _ _ (snd a) _ _ 0 M2 K ltac:(lra) Hcy); [|apply Rabs_le; pose proof (SIN_bound u); lra]. rewrite plus_IZR, Hs. rewrite Rminus_diag_eq, Rabs_R0 by reflexivity. lra.
Qed.
Lemma gap_close fuel k p : (k <= 3)%nat -> (1 <= fuel)%nat ->
  exists five q, roundGap fuel m a (dir k rho) (dir (S k) rho) p = Ret (p ++ q) /\ Forall2 follows (map bow_of q) (turn_bows five cx cy r (ang k)).
Proof using HF HA Hm Ha Hrho Hcx Hcy Hr.
  intros Hk Hf. destruct (ways_raised fuel k rho Hrho Hk Hf) as (th & Er & Ath). destruct (dir_small k) as [L1 L2]. destruct (dir_small (S k)) as [L3 L4]. pose proof pi_bounds as Pb.
  assert (Ha1 : - PI <= ang k <= PI) by (unfold ang; destruct k as [|[|[|[|k]]]]; lra).
  assert (Es1 : forall d, (Z.abs (fst d) <= 2 ^ 22)%Z -> (Z.abs (snd d) <= 2 ^ 22)%Z -> ptAdd a d = (fst a + fst d, snd a + snd d)%Z) by (intros d D1 D2; unfold ptAdd; rewrite !wrap_small by lia; reflexivity).
  assert (Hsub : forall d, (Z.abs (fst d) <= 2 ^ 22)%Z -> (Z.abs (snd d) <= 2 ^ 22)%Z -> wrap32 (fst (ptAdd a d) - fst a) = fst d /\ wrap32 (snd (ptAdd a d) - snd a) = snd d).
  { intros d D1 D2. rewrite Es1 by assumption. cbn [fst snd]. rewrite !wrap_small by lia. split; lia. }
  destruct (Hsub _ L1 L2) as [S1 S2]. destruct (Hsub _ L3 L4) as [S3 S4].
  destruct (corner_close O HF m Hm a rho Ha Hrho cx cy r Hcx Hcy Hr fuel (ptAdd a (dir k rho)) (ptAdd a (dir (S k) rho)) (ways k rho) (ways (S k) rho) th (ang k) p) as (five & q & Eq & Fq).
  - rewrite S1, S2. reflexivity.
  - rewrite S3, S4. reflexivity.
  - exact Er.
  - apply ways_ap, Hrho.
  - exact Ath.
  - exact Ha1.
  - replace (ptSub (ptAdd a (dir k rho)) a) with (dir k rho); [apply dir_length, Hrho|]. unfold ptSub. rewrite S1, S2. destruct (dir k rho); reflexivity.
  - exists five, (q ++ [OpLineTo (tFixed m (ptAdd a (dir (S k) rho)))]). unfold roundGap. rewrite Eq. cbn [obind]. unfold aLine, pLine. rewrite <- app_assoc. split; [reflexivity|].
    unfold turn_bows. rewrite map_app. apply (Forall2_app Fq). cbn [map bow_of]. constructor; [|constructor]. apply bf_straight, drop_one, at_end, Hk.
Qed.
End Gaps.

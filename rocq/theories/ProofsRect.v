(** * ProofsRect: rounded rectangles over the reals *)
From Coq Require Import Lia Reals Lra Psatz.
From Flocq Require Import Core.Raux.
From Verif Require Import SpecArc SpecRect ProofsArc ProofsFlocq ProofsPath3 ProofsShape.
Local Open Scope R_scope.

(** ** the angles of a corner *)
Definition calm (t : R) : Prop :=
  Rabs (cos t) + 7 / 64 * Rabs (sin t) <= 1 /\ Rabs (sin t) + 7 / 64 * Rabs (cos t) <= 1.
Lemma calm_quarter t : calm t -> calm (t + PI / 2).
Proof.
  intros [H1 H2]. unfold calm. rewrite cos_plus, sin_plus, cos_PI2, sin_PI2, !Rmult_0_r, !Rmult_1_r, Rminus_0_l, Rplus_0_l, Rabs_Ropp. auto.
Qed.
Lemma calm_quarter' t : calm (t + PI / 2) -> calm t.
Proof.
  intros [H1 H2]. rewrite cos_plus, sin_plus, cos_PI2, sin_PI2, !Rmult_0_r, !Rmult_1_r, Rminus_0_l, Rplus_0_l, Rabs_Ropp in *. split; auto.
Qed.
Lemma sin_20 : 1 / 8 <= sin (PI / 20).
Proof.
  pose proof PI_RGT_0.
  assert (H1 : sin (PI / 6) <= 2 * sin (PI / 12)).
  { replace (PI / 6) with (2 * (PI / 12)) by field. rewrite sin_2a. pose proof (COS_bound (PI / 12)).
    pose proof (sin_gt_0 (PI / 12)). nra. }
  assert (H2 : sin (PI / 12) <= 2 * sin (PI / 24)).
  { replace (PI / 12) with (2 * (PI / 24)) at 1 by field. rewrite sin_2a. pose proof (COS_bound (PI / 24)).
    pose proof (sin_gt_0 (PI / 24)). nra. }
  rewrite sin_PI6 in H1.
  assert (H3 : sin (PI / 24) <= sin (PI / 20)) by (apply sin_incr_1; lra). lra.
Qed.
Lemma flat_enough x : PI / 10 <= x <= PI / 2 -> cos x + 7 / 64 * sin x <= 1.
Proof.
  intros Hx. pose proof PI_RGT_0. pose proof sin_20 as H20.
  assert (Hs : sin (PI / 20) <= sin (x / 2)) by (apply sin_incr_1; lra).
  replace x with (2 * (x / 2)) by field. rewrite cos_2a_sin, sin_2a.
  pose proof (COS_bound (x / 2)). nra.
Qed.
Lemma calm_tenth (i : Z) : (0 <= i <= 5)%Z -> calm (PI / 10 * IZR i).
Proof.
  intros Hi. pose proof PI_RGT_0.
  assert (C : (i = 0 \/ i = 5 \/ (1 <= i <= 4))%Z) by lia. destruct C as [->|[->|C]].
  - rewrite Rmult_0_r. unfold calm. rewrite cos_0, sin_0, Rabs_R0, Rabs_R1. lra.
  - replace (PI / 10 * 5) with (PI / 2) by field. unfold calm. rewrite cos_PI2, sin_PI2, Rabs_R0, Rabs_R1. lra.
  - set (x := PI / 10 * IZR i).
    assert (Hx : PI / 10 <= x <= PI / 2 - PI / 10).
    { destruct C as [C1 C2]. apply IZR_le in C1, C2. unfold x. split; nra. }
    pose proof (cos_ge_0 x) as HC. pose proof (sin_ge_0 x) as HS. unfold calm.
    rewrite !Rabs_pos_eq by (first [apply HC|apply HS]; lra). split.
    + apply flat_enough. lra.
    + pose proof (flat_enough (PI / 2 - x)) as K. rewrite cos_shift, sin_shift in K. apply K. lra.
Qed.
(** ** the handles: a factor of at most 7/64 *)
Lemma sin_10 : 0 < sin (PI / 10) <= 31 / 100.
Proof.
  pose proof PI_RGT_0. set (x := PI / 10).
  assert (Hs : 0 < sin x) by (apply sin_gt_0; unfold x; lra). assert (Hc : 0 < cos x) by (apply cos_gt_0; unfold x; lra).
  assert (E : sin (2 * x) = cos (2 * x + x)).
  { rewrite <- cos_shift. f_equal. unfold x. field. }
  rewrite cos_plus, sin_2a, cos_2a in E. pose proof (sin2_cos2 x) as P. unfold Rsqr in P.
  set (s := sin x) in *. set (c := cos x) in *.
  assert (E2 : 2 * s = 1 - 4 * (s * s)).
  { apply (Rmult_eq_reg_r c); [|lra]. 
    transitivity ((c * c - s * s) * c - 2 * s * c * s); [rewrite <- E; ring|]. replace (c * c) with (1 - s * s) by lra. ring. }
  split; [exact Hs|]. nra.
Qed.
Lemma tan_20 : 0 <= tan (PI / 20) <= 31 / 100.
Proof.
  pose proof PI_RGT_0. pose proof sin_10 as [H1 H2]. set (y := PI / 20) in *.
  assert (Hs : 0 < sin y) by (apply sin_gt_0; unfold y; lra). assert (Hc : 0 < cos y) by (apply cos_gt_0; unfold y; lra).
  unfold tan. split; [apply Rmult_le_pos; [lra|left; apply Rinv_0_lt_compat; lra]|].
  apply (Rmult_le_reg_r (cos y)); [exact Hc|]. unfold Rdiv. rewrite Rmult_assoc, Rinv_l, Rmult_1_r by lra.
  replace (PI / 10) with (2 * y) in H1, H2 by (unfold y; field). rewrite sin_2a in H1, H2.
  assert (1 / 2 <= cos y * cos y).
  { pose proof (cos_2a y) as C2. pose proof (sin2_cos2 y) as P. unfold Rsqr in P. assert (0 <= cos (2 * y)) by (apply cos_ge_0; unfold y; lra). nra. }
  assert (sin y * (2 * cos y * cos y) <= 31 / 100 * cos y) by nra. nra.
Qed.
Definition corner_alpha : Z := Ztrunc (sin (PI / 10) * (sqrt (4 + 3 * tan (PI / 20) * tan (PI / 20)) - 1) * (64 / 3)).
Lemma corner_alpha_bound : (0 <= corner_alpha <= 7)%Z.
Proof.
  pose proof sin_10 as [H1 H2]. pose proof tan_20 as [H3 H4]. unfold corner_alpha.
  set (s := sin (PI / 10)) in *. set (t := tan (PI / 20)) in *. set (q := sqrt (4 + 3 * t * t)).
  assert (Hq : 2 <= q <= 2.08).
  { unfold q. split.
    - replace 2 with (sqrt (2 * 2)) by (apply sqrt_square; lra). apply sqrt_le_1_alt. nra.
    - replace 2.08 with (sqrt (2.08 * 2.08)) by (apply sqrt_square; lra). apply sqrt_le_1_alt. nra. }
  assert (B : 0 <= s * (q - 1) * (64 / 3) < 8) by nra.
  rewrite Ztrunc_floor by lra. pose proof (Zfloor_lb (s * (q - 1) * (64 / 3))) as L. pose proof (Zfloor_ub (s * (q - 1) * (64 / 3))) as U.
  split.
  - apply Zfloor_lub. lra.
  - apply Zlt_succ_le. apply lt_IZR. unfold Z.succ. rewrite plus_IZR. lra.
Qed.

(** ** one corner *)
Local Notation i32 := int32.
Ltac w32 := rewrite !wrap32_id by (unfold int32; lia).
Lemma trunc_abs x : Rabs (IZR (Ztrunc x)) <= Rabs x.
Proof.
  destruct (Rle_or_lt 0 x) as [H|H].
  - rewrite Ztrunc_floor by exact H. pose proof (Zfloor_lb x). assert (0 <= Zfloor x)%Z by (apply Zfloor_lub; exact H).
    apply IZR_le in H1. rewrite !Rabs_pos_eq by lra. exact H0.
  - rewrite Ztrunc_ceil by lra. pose proof (Zceil_ub x). assert (Zceil x <= 0)%Z by (apply Zceil_glb; lra).
    apply IZR_le in H1. rewrite !Rabs_left1 by lra. lra.
Qed.
Lemma trunc_near x : Rabs (IZR (Ztrunc x) - x) <= 1.
Proof.
  apply Rabs_le. destruct (Rle_or_lt 0 x) as [H|H].
  - rewrite Ztrunc_floor by exact H. pose proof (Zfloor_lb x). pose proof (Zfloor_ub x). lra.
  - rewrite Ztrunc_ceil by lra. pose proof (Zceil_ub x). pose proof (Zceil_lb x). lra.
Qed.
Definition near (a : pt) (rho : Z) (z : pt) : Prop := (Z.abs (fst z - fst a) <= rho /\ Z.abs (snd z - snd a) <= rho)%Z.
Lemma abs_IZR z : Rabs (IZR z) = IZR (Z.abs z). Proof. symmetry. apply abs_IZR. Qed.
Lemma quot_le t al : (0 <= al <= 7 -> 64 * Z.abs (Z.quot (t * al) 64) <= 7 * Z.abs t)%Z.
Proof.
  intros H. pose proof (Z.quot_abs (t * al) 64 ltac:(lia)) as Q. change (Z.abs 64) with 64%Z in Q. rewrite <- Q, Z.abs_mul.
  pose proof (Z.mul_quot_le (Z.abs t * Z.abs al) 64 ltac:(nia) ltac:(lia)). nia.
Qed.
Lemma calm_split rho c s al : (0 <= rho)%Z -> (0 <= al <= 7)%Z -> Rabs c + 7 / 64 * Rabs s <= 1 ->
  (Z.abs (Ztrunc (IZR rho * c)) + Z.abs (Z.quot (Ztrunc (IZR rho * s) * al) 64) <= rho)%Z.
Proof.
  intros Hr Hal H. apply le_IZR. rewrite plus_IZR.
  pose proof (quot_le (Ztrunc (IZR rho * s)) al Hal) as Q. apply IZR_le in Q. rewrite !mult_IZR in Q.
  pose proof (trunc_abs (IZR rho * c)) as T1. pose proof (trunc_abs (IZR rho * s)) as T2. rewrite abs_IZR in T1, T2.
  apply IZR_le in Hr. rewrite Rabs_mult in T1, T2. rewrite (Rabs_pos_eq (IZR rho)) in T1, T2 by exact Hr.
  set (A := IZR (Z.abs (Ztrunc (IZR rho * c)))) in *. set (B := IZR (Z.abs (Z.quot (Ztrunc (IZR rho * s) * al) 64))) in *.
  set (T := IZR (Z.abs (Ztrunc (IZR rho * s)))) in *. nra.
Qed.
Section Corner.
Context (O : ROracles) (a : pt) (rho al : Z) (t1 d : R).
Context (Ha : (Z.abs (fst a) <= 2 ^ 30 /\ Z.abs (snd a) <= 2 ^ 30)%Z) (Hr : (0 <= rho <= 2 ^ 28)%Z) (Hal : (0 <= al <= 7)%Z).
Notation K := (RealEnv O).
Definition unitM : matrix K := mkM (E := K) 1 0 0 1 0 0.
Lemma tFixed_unit z : i32 (fst z) -> i32 (snd z) -> tFixed unitM z = z.
Proof.
  intros H1 H2. unfold tFixed, unitM. cbn [mA mB mC mD mE mF fst snd]. rewrite !fnum_real. cbn [f_to_i32 f_of_Z fadd fmul RealEnv].
  replace (IZR (fst z) * 1 + IZR (snd z) * 0 + 0 * 64) with (IZR (fst z)) by ring.
  replace (IZR (fst z) * 0 + IZR (snd z) * 1 + 0 * 64) with (IZR (snd z)) by ring.
  rewrite !Ztrunc_IZR, !wrap32_id by assumption. destruct z; reflexivity.
Qed.
Definition X (t : R) : Z := Ztrunc (IZR rho * cos t).
Definition Y (t : R) : Z := Ztrunc (IZR rho * sin t).
Definition spot (t : R) : pt := (fst a + X t, snd a + Y t)%Z.
Definition tang (t : R) : pt := (- Y t, X t)%Z.
Lemma XY_bound t : (Z.abs (X t) <= rho /\ Z.abs (Y t) <= rho)%Z.
Proof.
  assert (H : forall c, -1 <= c <= 1 -> (Z.abs (Ztrunc (IZR rho * c)) <= rho)%Z).
  { intros c Hc. apply le_IZR. rewrite <- abs_IZR. eapply Rle_trans; [apply trunc_abs|]. destruct Hr as [H _]. apply IZR_le in H.
    rewrite Rabs_mult, (Rabs_pos_eq (IZR rho)) by exact H. assert (Rabs c <= 1) by (apply Rabs_le; lra). nra. }
  split; apply H; [apply COS_bound|apply SIN_bound].
Qed.
Lemma spot_model t (eta : F K) : eta = t ->
  (wrap32 (fst a + f_to_i32 K (fmul K (IZR rho) (fcos K eta))), wrap32 (snd a - wrap32 (- f_to_i32 K (fmul K (IZR rho) (fsin K eta)))))%Z = spot t
  /\ (wrap32 (- f_to_i32 K (fmul K (IZR rho) (fsin K eta))), f_to_i32 K (fmul K (IZR rho) (fcos K eta)))%Z = tang t.
Proof.
  intros ->. pose proof (XY_bound t) as [H1 H2]. unfold spot, tang. cbn [f_to_i32 fmul fcos fsin RealEnv].
  fold (X t) (Y t). rewrite !(wrap32_id (X t)), !(wrap32_id (Y t)) by (unfold int32; lia).
  rewrite !(wrap32_id (- Y t)), !(wrap32_id (fst a + X t)), (wrap32_id (snd a - - Y t)) by (unfold int32; lia).
  split; f_equal; lia.
Qed.
Lemma mul_model t : ptMul (tang t) al = (Z.quot (- Y t * al) 64, Z.quot (X t * al) 64)%Z.
Proof.
  pose proof (XY_bound t) as [H1 H2]. unfold ptMul, tang. cbn [fst snd]. rewrite !wrap32_id by (unfold int32; nia). reflexivity.
Qed.
Lemma handle_near t : calm t ->
  near a rho (ptAdd (spot t) (ptMul (tang t) al)) /\ near a rho (ptSub (spot t) (ptMul (tang t) al)).
Proof.
  intros [C1 C2]. rewrite mul_model. unfold ptAdd, ptSub, spot, near. cbn [fst snd].
  pose proof (calm_split rho (cos t) (sin t) al ltac:(lia) Hal C1) as B1. fold (X t) (Y t) in B1.
  pose proof (calm_split rho (sin t) (cos t) al ltac:(lia) Hal C2) as B2. fold (X t) (Y t) in B2.
  rewrite Z.mul_opp_l, Z.quot_opp_l by lia.
  set (q1 := Z.quot (Y t * al) 64) in *. set (q2 := Z.quot (X t * al) 64) in *.
  rewrite !wrap32_id by (unfold int32; lia). lia.
Qed.
Lemma near_i32 z : near a rho z -> i32 (fst z) /\ i32 (snd z).
Proof. unfold near, int32. lia. Qed.
Lemma spot_near t : near a rho (spot t).
Proof. pose proof (XY_bound t). unfold near, spot. cbn [fst snd]. lia. Qed.
Lemma segs_near : forall n i p (s1 ldp : pt), (forall j, i - 1 <= j < i + Z.of_nat n -> calm (t1 + d * IZR j))%Z ->
  s1 = spot (t1 + d * IZR (i - 1)) -> ldp = tang (t1 + d * IZR (i - 1)) ->
  exists ops, arcSegs (E := K) n i unitM a (IZR rho) t1 d al s1 ldp p = p ++ ops
    /\ Forall (fun o => Forall (near a rho) (op_points o)) ops /\ cubics ops /\ length ops = n.
Proof.
  induction n as [|n IH]; intros i p s1 ldp Hc Hs Hl; cbn [arcSegs].
  - exists []. rewrite app_nil_r. repeat split; constructor.
  - assert (Ee : fadd K t1 (fmul K d (f_of_Z K i)) = t1 + d * IZR i) by reflexivity.
    destruct (spot_model (t1 + d * IZR i) _ Ee) as [E1 E2]. cbn [snd fst].
    match goal with |- context [aCube unitM ?x ?y ?z p] => set (P1 := x); set (P2 := y); set (P3 := z) end.
    assert (HP3 : P3 = spot (t1 + d * IZR i)) by exact E1.
    assert (Hn1 : near a rho P1) by (unfold P1; rewrite Hs, Hl; apply handle_near, Hc; lia).
    assert (Hn2 : near a rho P2).
    { unfold P2. replace (ptSub _ _) with (ptSub (spot (t1 + d * IZR i)) (ptMul (tang (t1 + d * IZR i)) al)) by (rewrite <- E1, <- E2; reflexivity).
      apply handle_near, Hc. lia. }
    assert (Hn3 : near a rho P3) by (rewrite HP3; apply spot_near).
    destruct (IH (i + 1)%Z (aCube unitM P1 P2 P3 p) P3 (wrap32 (- f_to_i32 K (fmul K (IZR rho) (fsin K (fadd K t1 (fmul K d (f_of_Z K i)))))), f_to_i32 K (fmul K (IZR rho) (fcos K (fadd K t1 (fmul K d (f_of_Z K i))))))%Z) as (ops & R1 & R2 & R3 & R4).
    { intros j Hj. apply Hc. lia. } { rewrite HP3. f_equal. f_equal. f_equal. f_equal. lia. }
    { rewrite E2. f_equal. f_equal. f_equal. f_equal. lia. }
    exists (OpCubicTo P1 P2 P3 :: ops). split; [|split; [constructor; [cbn [op_points]; auto|exact R2]|split; [constructor; [eauto|exact R3]|cbn; congruence]]].
    etransitivity; [exact R1|]. unfold aCube, pCube. rewrite !tFixed_unit by (apply near_i32; assumption). rewrite <- app_assoc. reflexivity.
Qed.
End Corner.

(** ** a corner of the rectangle *)
Lemma gap_near O fuel a rho (tN lN : pt) (t dl : R) p :
  (Z.abs (fst a) <= 2 ^ 30 /\ Z.abs (snd a) <= 2 ^ 30)%Z -> (0 <= rho <= 2 ^ 28)%Z ->
  (fst tN * fst tN + snd tN * snd tN = rho * rho)%Z -> (Z.abs (fst lN) <= rho /\ Z.abs (snd lN) <= rho)%Z ->
  atan2 (IZR (snd tN)) (IZR (fst tN)) = t ->
  raise_angle (E := RealEnv O) fuel (atan2 (IZR (snd lN)) (IZR (fst lN))) t = Ret (t + dl) ->
  (dl = PI / 2 \/ dl = 0) -> (forall j, 0 <= j <= 5 -> calm (t + PI / 10 * IZR j))%Z ->
  exists k, roundGap (E := RealEnv O) fuel (unitM O) a tN lN p = Ret (p ++ k)
    /\ corner (ptAdd a lN) k /\ Forall (fun o => Forall (near a rho) (op_points o)) k.
Proof.
  intros Ha Hr Hl HL H1 H2 Hd Hc. pose proof PI_RGT_0.
  assert (HT : (Z.abs (fst tN) <= rho /\ Z.abs (snd tN) <= rho)%Z) by nia.
  assert (St : ptAdd a tN = (fst a + fst tN, snd a + snd tN)%Z) by (unfold ptAdd; rewrite !wrap32_id by (unfold int32; lia); reflexivity).
  assert (Sl : ptAdd a lN = (fst a + fst lN, snd a + snd lN)%Z) by (unfold ptAdd; rewrite !wrap32_id by (unfold int32; lia); reflexivity).
  unfold roundGap, addCircArc. rewrite St, Sl. cbn [fst snd].
  replace (fst a + fst tN - fst a)%Z with (fst tN) by lia. replace (snd a + snd tN - snd a)%Z with (snd tN) by lia.
  replace (fst a + fst lN - fst a)%Z with (fst lN) by lia. replace (snd a + snd lN - snd a)%Z with (snd lN) by lia.
  rewrite !wrap32_id by (unfold int32; lia). cbn [fatan2 f_of_Z RealEnv]. rewrite H1.
  match goal with |- context [raise_angle fuel ?x ?y] => replace (raise_angle (E := RealEnv O) fuel x y) with (Ret (A := R) (t + dl)) by (symmetry; exact H2) end. cbn [obind].
  assert (Hlen : ptLength (E := RealEnv O) (ptSub (fst a + fst tN, snd a + snd tN)%Z a) = rho).
  { unfold ptSub. cbn [fst snd]. replace (fst a + fst tN - fst a)%Z with (fst tN) by lia. replace (snd a + snd tN - snd a)%Z with (snd tN) by lia.
    rewrite !wrap32_id by (unfold int32; lia). unfold ptLength. cbn [fst snd f_to_i32 fsqrt f_of_Z fadd fmul RealEnv].
    rewrite <- !mult_IZR, <- plus_IZR, Hl, mult_IZR, sqrt_square by (apply IZR_le; lia). rewrite Ztrunc_IZR. apply wrap32_id. unfold int32. lia. }
  rewrite Hlen. rewrite piOver8_real, !fnum_real. cbn [f_to_int f_to_i32 fabs fdiv fsub fadd fmul fsin fcos ftan fsqrt flit f_of_Z RealEnv].
  replace (t + dl - t) with dl by ring.
  assert (Hs : exists n, (Ztrunc (Rabs dl / (PI / 8)) + 1 = Z.of_nat n)%Z /\ (1 <= n)%nat
     /\ (forall j, 0 <= j <= Z.of_nat n -> calm (t + dl / IZR (Z.of_nat n) * IZR j))%Z
     /\ (0 <= wrap32 (Ztrunc (sin (dl / IZR (Z.of_nat n)) * (sqrt (4 + 3 * tan (dl / IZR (Z.of_nat n) / 2) * tan (dl / IZR (Z.of_nat n) / 2)) - 1) * (64 / 3))) <= 7)%Z).
  { destruct Hd as [->| ->].
    - exists 5%nat. assert (Eq : PI / 2 / IZR (Z.of_nat 5) = PI / 10) by (cbn; field). rewrite Eq. split; [|split; [lia|split; [exact Hc|]]].
      + rewrite Rabs_pos_eq by lra. replace (PI / 2 / (PI / 8)) with (IZR 4) by (field; lra). rewrite Ztrunc_IZR. reflexivity.
      + replace (PI / 10 / 2) with (PI / 20) by field. fold corner_alpha. pose proof corner_alpha_bound. rewrite wrap32_id by (unfold int32; lia). assumption.
    - exists 1%nat. split; [|split; [lia|split]].
      + rewrite Rabs_R0. unfold Rdiv. rewrite Rmult_0_l, Ztrunc_IZR. reflexivity.
      + intros j _. replace (t + 0 / IZR (Z.of_nat 1) * IZR j) with (t + PI / 10 * IZR 0) by (cbn; lra). apply Hc. lia.
      + replace (0 / IZR (Z.of_nat 1)) with 0 by (cbn; lra). rewrite sin_0, !Rmult_0_l, Ztrunc_IZR. cbn. lia. }
  destruct Hs as (n & En & Hn & Hcn & Hal). rewrite En, Nat2Z.id.
  set (d := dl / IZR (Z.of_nat n)) in *. set (al := wrap32 (Ztrunc (sin d * _ * _))) in *.
  destruct (spot_model O a rho Ha Hr t t eq_refl) as [E1 E2]. cbn [f_to_i32 fmul fsin fcos RealEnv] in E1, E2.
  match goal with |- context [arcSegs n 1 _ a _ t d al ?s ?l ?q] =>
    destruct (segs_near O a rho al t d Ha Hr Hal n 1 q s l) as (ops & R1 & R2 & R3 & R4) end.
  { intros j Hj. apply Hcn. lia. } { rewrite E1. f_equal. cbn. ring. } { rewrite E2. f_equal. cbn. ring. }
  match goal with |- context [arcSegs n 1 ?m a ?r t d al ?s ?l ?q] =>
    replace (arcSegs n 1 m a r t d al s l q) with (q ++ ops) by (symmetry; exact R1) end.
  rewrite E1. exists (OpLineTo (spot a rho t) :: ops ++ [OpLineTo (fst a + fst lN, snd a + snd lN)%Z]).
  pose proof (spot_near a rho Hr t) as Ns.
  assert (Nl : near a rho (fst a + fst lN, snd a + snd lN)%Z) by (unfold near; cbn [fst snd]; lia).
  split; [|split].
  - unfold aLine, pLine. rewrite !(tFixed_unit O) by (eapply near_i32; eassumption). f_equal. rewrite <- !app_assoc. reflexivity.
  - exists (spot a rho t), ops. split; [reflexivity|]. split; [|exact R3]. intros ->. cbn in R4. lia.
  - constructor; [cbn; auto|]. apply Forall_app. split; [exact R2|]. repeat constructor; apply Nl.
Qed.
Lemma calm_0 j : (0 <= j <= 5)%Z -> calm (0 + PI / 10 * IZR j).
Proof. intros H. rewrite Rplus_0_l. apply calm_tenth, H. Qed.
Lemma calm_turn t : (forall j, 0 <= j <= 5 -> calm (t + PI / 10 * IZR j))%Z -> (forall j, 0 <= j <= 5 -> calm (t + PI / 2 + PI / 10 * IZR j))%Z.
Proof. intros H j Hj. replace (t + PI / 2 + PI / 10 * IZR j) with (t + PI / 10 * IZR j + PI / 2) by ring. apply calm_quarter, H, Hj. Qed.
Lemma calm_back j : (0 <= j <= 5)%Z -> calm (- (PI / 2) + PI / 10 * IZR j).
Proof. intros H. apply calm_quarter'. replace (- (PI / 2) + PI / 10 * IZR j + PI / 2) with (0 + PI / 10 * IZR j) by ring. apply calm_0, H. Qed.
Lemma atan2_px r : 0 < r -> atan2 0 r = 0.
Proof. intros H. unfold atan2. destruct (Rlt_dec 0 r); [|lra]. unfold Rdiv. rewrite Rmult_0_l. apply atan_0. Qed.
Lemma atan2_nx r : 0 < r -> atan2 0 (- r) = PI.
Proof.
  intros H. unfold atan2. destruct (Rlt_dec 0 (- r)); [lra|]. destruct (Rlt_dec (- r) 0); [|lra]. destruct (Rle_dec 0 0); [|lra].
  unfold Rdiv. rewrite Rmult_0_l, atan_0. lra.
Qed.
Lemma atan2_py r : 0 < r -> atan2 r 0 = PI / 2.
Proof. intros H. unfold atan2. destruct (Rlt_dec 0 0); [lra|]. destruct (Rlt_dec 0 r); [reflexivity|lra]. Qed.
Lemma atan2_ny r : 0 < r -> atan2 (- r) 0 = - (PI / 2).
Proof. intros H. unfold atan2. destruct (Rlt_dec 0 0); [lra|]. destruct (Rlt_dec 0 (- r)); [lra|]. destruct (Rlt_dec (- r) 0); [reflexivity|lra]. Qed.
Lemma atan2_00 : atan2 0 0 = 0.
Proof. unfold atan2. destruct (Rlt_dec 0 0); [lra|]. reflexivity. Qed.
Definition quarter (rho : Z) (tN lN : pt) : Prop :=
  (tN = (0, - rho) /\ lN = (rho, 0) \/ tN = (rho, 0) /\ lN = (0, rho)
  \/ tN = (0, rho) /\ lN = (- rho, 0) \/ tN = (- rho, 0) /\ lN = (0, - rho))%Z.
Lemma raise_stay O fuel (a b : R) : b <= a -> raise_angle (E := RealEnv O) fuel a b = Ret a.
Proof. intros H. destruct fuel; cbn [raise_angle fltb RealEnv]; destruct (Rlt_dec a b); [lra|reflexivity|lra|reflexivity]. Qed.
Lemma quarter_near O fuel a rho tN lN p : (1 <= fuel)%nat ->
  (Z.abs (fst a) <= 2 ^ 30 /\ Z.abs (snd a) <= 2 ^ 30)%Z -> (0 <= rho <= 2 ^ 28)%Z -> quarter rho tN lN ->
  exists k, roundGap (E := RealEnv O) fuel (unitM O) a tN lN p = Ret (p ++ k)
    /\ corner (ptAdd a lN) k /\ Forall (fun o => Forall (near a rho) (op_points o)) k.
Proof.
  intros Hf Ha Hr Q. pose proof PI_RGT_0.
  assert (C : (rho = 0 \/ 0 < rho)%Z) by lia. destruct C as [->|C].
  - assert (tN = (0, 0)%Z /\ lN = (0, 0)%Z) as [-> ->] by (unfold quarter in Q; cbn in Q; intuition).
    apply gap_near with (t := 0) (dl := 0); auto; cbn [fst snd]; try lia.
    + apply atan2_00.
    + rewrite atan2_00. replace (0 + 0) with 0 by ring. apply raise_stay. lra.
    + apply calm_0.
  - assert (C' : 0 < IZR rho) by (apply IZR_lt, C).
    destruct Q as [[-> ->]|[[-> ->]|[[-> ->]|[-> ->]]]].
    + apply gap_near with (t := - (PI / 2)) (dl := PI / 2); auto; cbn [fst snd]; try lia.
      * rewrite opp_IZR. apply atan2_ny, C'.
      * rewrite atan2_px by exact C'. replace (- (PI / 2) + PI / 2) with 0 by ring. apply raise_stay. lra.
      * apply calm_back.
    + apply gap_near with (t := 0) (dl := PI / 2); auto; cbn [fst snd]; try lia.
      * apply atan2_px, C'.
      * rewrite atan2_py, Rplus_0_l by exact C'. apply raise_stay. lra.
      * apply calm_0.
    + apply gap_near with (t := 0 + PI / 2) (dl := PI / 2); auto; cbn [fst snd]; try lia.
      * rewrite Rplus_0_l. apply atan2_py, C'.
      * rewrite opp_IZR, atan2_nx by exact C'. replace (0 + PI / 2 + PI / 2) with PI by field. apply raise_stay. lra.
      * apply calm_turn, calm_0.
    + apply gap_near with (t := 0 + PI / 2 + PI / 2) (dl := PI / 2); auto; cbn [fst snd]; try lia.
      * replace (0 + PI / 2 + PI / 2) with PI by field. rewrite opp_IZR. apply atan2_nx, C'.
      * rewrite opp_IZR, atan2_ny by exact C'. destruct fuel as [|f]; [lia|]. cbn [raise_angle fltb RealEnv].
        destruct (Rlt_dec _ _); [|lra]. rewrite twoPi_real. cbn [fadd RealEnv].
        replace (- (PI / 2) + PI * 2) with (0 + PI / 2 + PI / 2 + PI / 2) by field. apply raise_stay. lra.
      * apply calm_turn, calm_turn, calm_0.
Qed.

(** ** the rectangle *)
Lemma grid_bound (u : R) (B : Z) : Rabs u <= IZR B -> (64 * B < 2 ^ 31)%Z ->
  wrap32 (Ztrunc (u * 64)) = Ztrunc (u * 64) /\ (Z.abs (Ztrunc (u * 64)) <= 64 * B)%Z.
Proof.
  intros H HB. assert (K : (Z.abs (Ztrunc (u * 64)) <= 64 * B)%Z).
  { apply le_IZR. rewrite <- abs_IZR, mult_IZR. eapply Rle_trans; [apply trunc_abs|]. rewrite Rabs_mult, (Rabs_pos_eq 64) by lra. lra. }
  split; [|exact K]. apply wrap32_id. unfold int32. lia.
Qed.
Section Rectangle.
Context (O : ROracles) (fuel : nat) (x0 y0 x1 y1 r : R).
Notation K := (RealEnv O).
Context (Hf : (1 <= fuel)%nat) (Hr : 0 < r) (Hw : 2 * r <= x1 - x0) (Hh : 2 * r <= y1 - y0).
Context (Hx : Rabs x0 <= 4194304 /\ Rabs x1 <= 4194304) (Hy : Rabs y0 <= 4194304 /\ Rabs y1 <= 4194304).
Definition rho : Z := Ztrunc (r * 64).
Lemma sides : -4194304 <= x0 <= 4194304 /\ -4194304 <= x1 <= 4194304 /\ -4194304 <= y0 <= 4194304 /\ -4194304 <= y1 <= 4194304.
Proof. destruct Hx as [A B], Hy as [C D]. apply Rabs_le_inv in A, B, C, D. auto. Qed.
Lemma rho_bound : (0 <= rho <= 2 ^ 28)%Z.
Proof.
  pose proof sides. unfold rho. rewrite Ztrunc_floor by lra. split; [apply Zfloor_lub; lra|].
  apply le_IZR. eapply Rle_trans; [apply Zfloor_lb|]. change (2 ^ 28)%Z with 268435456%Z. lra.
Qed.
Lemma rho_le : IZR rho <= r * 64.
Proof. unfold rho. rewrite Ztrunc_floor by lra. apply Zfloor_lb. Qed.
Lemma grid_in u v : x0 <= u <= x1 -> y0 <= v <= y1 ->
  inside x0 y0 x1 y1 (grid_R (u, v)) /\ i32 (fst (grid_R (u, v))) /\ i32 (snd (grid_R (u, v)))
  /\ (Z.abs (fst (grid_R (u, v))) <= 2 ^ 30 /\ Z.abs (snd (grid_R (u, v))) <= 2 ^ 30)%Z
  /\ fst (grid_R (u, v)) = Ztrunc (u * 64) /\ snd (grid_R (u, v)) = Ztrunc (v * 64).
Proof.
  intros Hu Hv. pose proof sides as S. unfold grid_R. cbn [fst snd].
  destruct (grid_bound u 4194304) as [E1 B1]; [apply Rabs_le; lra|lia|]. destruct (grid_bound v 4194304) as [E2 B2]; [apply Rabs_le; lra|lia|].
  rewrite E1, E2. pose proof (trunc_near (u * 64)) as T1. pose proof (trunc_near (v * 64)) as T2. apply Rabs_le_inv in T1, T2.
  unfold inside, int32. cbn [fst snd]. repeat split; try lra; lia.
Qed.
Lemma norm_grid (s : R) : s = 1 \/ s = -1 ->
  grid_R (0, s * r) = (0, if Rlt_dec 0 s then rho else - rho)%Z /\ grid_R (s * r, 0) = (if Rlt_dec 0 s then rho else - rho, 0)%Z.
Proof.
  intros Hs. pose proof rho_bound as B. unfold grid_R. cbn [fst snd]. rewrite Rmult_0_l, Ztrunc_IZR. change (wrap32 0) with 0%Z.
  assert (E : wrap32 (Ztrunc (s * r * 64)) = if Rlt_dec 0 s then rho else (- rho)%Z).
  { destruct Hs as [->| ->].
    - destruct (Rlt_dec 0 1); [|lra]. rewrite Rmult_1_l. fold rho. apply wrap32_id. unfold int32. lia.
    - destruct (Rlt_dec 0 (-1)); [lra|]. replace (-1 * r * 64) with (- (r * 64)) by ring. rewrite Ztrunc_opp. fold rho. apply wrap32_id. unfold int32. lia. }
  rewrite E. auto.
Qed.
Lemma near_inside u v z : x0 + r <= u <= x1 - r -> y0 + r <= v <= y1 - r -> near (grid_R (u, v)) rho z -> inside x0 y0 x1 y1 z.
Proof.
  intros Hu Hv [N1 N2]. destruct (grid_in u v) as (_ & _ & _ & _ & E1 & E2); [lra|lra|]. rewrite E1 in N1. rewrite E2 in N2.
  pose proof (trunc_near (u * 64)) as T1. pose proof (trunc_near (v * 64)) as T2. apply Rabs_le_inv in T1, T2.
  apply IZR_le in N1, N2. rewrite <- abs_IZR, minus_IZR in N1, N2. apply Rabs_le_inv in N1, N2. pose proof rho_le. unfold inside. lra.
Qed.
Lemma gap_inside u v tN lN p : x0 + r <= u <= x1 - r -> y0 + r <= v <= y1 - r -> quarter rho tN lN ->
  exists k e, roundGap (E := K) fuel (unitM O) (grid_R (u, v)) tN lN p = Ret (p ++ k) /\ corner e k /\ outline_inside x0 y0 x1 y1 k.
Proof.
  intros Hu Hv Q. destruct (grid_in u v) as (_ & _ & _ & B & _); [lra|lra|].
  destruct (quarter_near O fuel (grid_R (u, v)) rho tN lN p Hf B rho_bound Q) as (k & K1 & K2 & K3).
  exists k. eexists. split; [exact K1|]. split; [exact K2|]. unfold outline_inside. eapply Forall_impl; [|exact K3].
  intros o Ho. eapply Forall_impl; [|exact Ho]. intros z. apply near_inside; assumption.
Qed.
Lemma round_matrix : mTranslate (mScale (mRotate (mTranslate (identity (E := K)) (x0 + (x1 - x0) / 2) (y0 + (y1 - y0) / 2)) 0) 1 1) (- x0 - (x1 - x0) / 2) (- y0 - (y1 - y0) / 2) = unitM O.
Proof.
  unfold mTranslate, mScale, mRotate, mMult, identity, unitM. cbn [mA mB mC mD mE mF fcos fsin fadd fmul fneg fsub RealEnv]. rewrite !fnum_real, cos_0, sin_0.
  cbn [fadd fmul fneg fsub RealEnv]. f_equal; field.
Qed.
Lemma round_rect rx ry p : 0 < rx -> 0 < ry -> Rmin rx ((x1 - x0) / 2) = r -> Rmin ry ((y1 - y0) / 2) = r ->
  exists q, addRoundRect (E := K) fuel x0 y0 x1 y1 rx ry (fnum K 0) p = Ret (p ++ q)
    /\ round_outline grid_R r x0 y0 x1 y1 q /\ outline_inside x0 y0 x1 y1 q.
Proof.
  intros P1 P2 M1 M2. unfold addRoundRect. rewrite !fnum_real. cbn [fleb fltb fmul fdiv fsub fadd fneg fpi_180 RealEnv].
  destruct (Rle_dec rx 0); [lra|]. destruct (Rle_dec ry 0); [lra|]. cbn [orb].
  match goal with |- context [if ?b then ?x else rx] => replace (if b return F K then x else rx) with r end.
  2: { rewrite <- M1. destruct (Rlt_dec (x1 - x0) (rx * 2)); [rewrite Rmin_right by lra|rewrite Rmin_left by lra]; reflexivity. }
  match goal with |- context [if ?b then ?x else ry] => replace (if b return F K then x else ry) with r end.
  2: { rewrite <- M2. destruct (Rlt_dec (y1 - y0) (ry * 2)); [rewrite Rmin_right by lra|rewrite Rmin_left by lra]; reflexivity. }
  replace (r / r) with 1 by (field; lra). replace (1 / 1) with 1 by field.
  match goal with |- context [mRotate ?m ?t] => replace t with 0 by (symmetry; apply Rmult_0_l) end.
  match goal with |- context [mTranslate (mScale ?a ?b ?c) ?d ?e] => replace (mTranslate (mScale a b c) d e) with (unitM O) by (symmetry; exact round_matrix) end.
  rewrite !toFixed_real.
  replace (y0 + (y1 - y0) / 2 + (y1 - y0) / 2 * 1) with y1 by field. replace (y0 + (y1 - y0) / 2 - (y1 - y0) / 2 * 1) with y0 by field.
  pose proof (norm_grid 1 (or_introl eq_refl)) as [N1 N2]. rewrite Rmult_1_l in N1, N2. destruct (Rlt_dec 0 1) as [_|]; [|lra].
  pose proof (norm_grid (-1) (or_intror eq_refl)) as [N3 N4]. replace (-1 * r) with (- r) in N3, N4 by ring. destruct (Rlt_dec 0 (-1)) as [|_]; [lra|].
  rewrite N1, N2, N3, N4. unfold aStart, aLine, pStart, pLine, pStop.
  assert (U : forall u v, x0 <= u <= x1 -> y0 <= v <= y1 -> tFixed (unitM O) (grid_R (u, v)) = grid_R (u, v)).
  { intros u v A B. destruct (grid_in u v A B) as (_ & C1 & C2 & _). apply tFixed_unit; assumption. }
  rewrite !U by lra.
  match goal with |- context [roundGap fuel ?m ?a (0, (- rho))%Z ?l ?q] => destruct (gap_inside (x1 - r) (y0 + r) (0, - rho)%Z (rho, 0)%Z q) as (k1 & e1 & A1 & B1 & C1); [lra|lra|unfold quarter; tauto|]; rewrite A1 end. cbn [obind].
  match goal with |- context [roundGap fuel ?m ?a (rho, 0)%Z ?l ?q] => destruct (gap_inside (x1 - r) (y1 - r) (rho, 0)%Z (0, rho)%Z q) as (k2 & e2 & A2 & B2 & C2); [lra|lra|unfold quarter; tauto|]; rewrite A2 end. cbn [obind].
  match goal with |- context [roundGap fuel ?m ?a (0, rho)%Z ?l ?q] => destruct (gap_inside (x0 + r) (y1 - r) (0, rho)%Z (- rho, 0)%Z q) as (k3 & e3 & A3 & B3 & C3); [lra|lra|unfold quarter; tauto|]; rewrite A3 end. cbn [obind].
  match goal with |- context [roundGap fuel ?m ?a (- rho, 0)%Z ?l ?q] => destruct (gap_inside (x0 + r) (y0 + r) (- rho, 0)%Z (0, - rho)%Z q) as (k4 & e4 & A4 & B4 & C4); [lra|lra|unfold quarter; tauto|]; rewrite A4 end. cbn [obind].
  eexists. split; [f_equal; rewrite <- !app_assoc; reflexivity|]. split.
  - exists k1, k2, k3, k4, e1, e2, e3, e4. split; [|auto]. cbn [app]. reflexivity.
  - assert (Q : forall u v, x0 <= u <= x1 -> y0 <= v <= y1 -> inside x0 y0 x1 y1 (grid_R (u, v))) by (intros u v A B; apply grid_in; assumption).
    unfold outline_inside. repeat (apply Forall_app; split); repeat apply Forall_cons; repeat apply Forall_nil; cbn [op_points];
      repeat apply Forall_cons; repeat apply Forall_nil; try (apply Q; lra); try assumption.
Qed.
End Rectangle.
Theorem round_rect_real O fuel attrs (x y w h rx ry : R) (c : cursor (RealEnv O)) : let vb := sv_viewBox (c_svg c) in
  (1 <= fuel)%nat -> pc_path (c_pc c) = [] ->
  length_attr (E := RealEnv O) vb OfWidth "x" attrs x -> length_attr (E := RealEnv O) vb OfHeight "y" attrs y ->
  length_attr (E := RealEnv O) vb OfWidth "width" attrs w -> length_attr (E := RealEnv O) vb OfHeight "height" attrs h ->
  length_attr (E := RealEnv O) vb OfWidth "rx" attrs rx -> length_attr (E := RealEnv O) vb OfHeight "ry" attrs ry ->
  let r := auto_radius rx ry (w / 2) in
  let minX := x + fst (offset c) in let minY := y + snd (offset c) in
  let maxX := minX + w in let maxY := minY + h in
  0 < w -> 0 < h -> 0 <= rx -> 0 <= ry -> 0 < r -> auto_radius ry rx (h / 2) = r ->
  Rabs minX <= 4194304 -> Rabs maxX <= 4194304 -> Rabs minY <= 4194304 -> Rabs maxY <= 4194304 ->
  exists p, element_draws fuel "rect" attrs c p /\ round_outline grid_R r minX minY maxX maxY p /\ outline_inside minX minY maxX maxY p.
Proof.
  intros vb Hf Hp Hx Hy Hw Hh Hrx Hry r minX minY maxX maxY Pw Ph Prx Pry Pr Er B1 B2 B3 B4.
  pose proof (rect_fold (E := RealEnv O) attrs _ _ _ _ _ _ x y w h rx ry c Hx Hy Hw Hh Hrx Hry) as HF.
  set (ry' := if Req_EM_T ry 0 then rx else ry). set (rx' := if Req_EM_T rx 0 then ry else rx).
  assert (Pos : 0 < rx' /\ 0 < ry').
  { pose proof (Rmin_l rx' (w / 2)). unfold r, auto_radius in Pr. fold rx' in Pr.
    assert (0 < rx') by lra. split; [assumption|]. unfold ry', rx' in *. destruct (Req_EM_T ry 0), (Req_EM_T rx 0); lra. }
  destruct (round_rect O fuel minX minY maxX maxY r Hf Pr) with (rx := rx') (ry := ry') (p := @nil op) as (q & A1 & A2 & A3); auto.
  { pose proof (Rmin_r rx' (w / 2)) as H. unfold r, auto_radius. fold rx'. unfold maxX. lra. }
  { pose proof (Rmin_r ry' (h / 2)) as H. rewrite <- Er. unfold auto_radius. fold ry'. unfold maxY. lra. }
  { apply Pos. } { apply Pos. }
  { unfold r, auto_radius. fold rx'. f_equal. unfold maxX. field. }
  { rewrite <- Er. unfold auto_radius. fold ry'. f_equal. unfold maxY. field. }
  exists q. split; [|auto]. exists (rectF fuel), (c_set_pc (set_path q (c_pc c)) c). split; [reflexivity|]. split; [|reflexivity].
  unfold rectF. rewrite (bind_step _ _ _ _ _ HF). cbv beta iota. unfold f0 in *. rewrite !fnum_real. cbn [feqb RealEnv].
  destruct (Req_EM_T w 0); [lra|]. destruct (Req_EM_T h 0); [lra|]. cbn [orb].
  unfold curXY, bind, gets, lift. rewrite Hp. cbn [fadd RealEnv].
  match goal with |- context [addRoundRect fuel ?a ?b ?cc ?d ?u ?v ?t ?pp] =>
    replace (addRoundRect (E := RealEnv O) fuel a b cc d u v t pp) with (Ret q) end.
  - reflexivity.
  - symmetry. etransitivity; [|exact A1]. rewrite fnum_real.
    assert (Ey : (if negb (if Req_EM_T rx 0 then true else false) && (if Req_EM_T ry 0 then true else false) then rx else ry) = ry').
    { unfold ry'. destruct (Req_EM_T rx 0), (Req_EM_T ry 0); cbn [negb andb]; try lra; reflexivity. }
    f_equal.
    + unfold maxX, minX. cbn [fst snd offset]. ring.
    + unfold maxY, minY. cbn [fst snd offset]. ring.
    + destruct Pos as [P1 P2]. unfold F in *. cbn in Ey |- *. rewrite !Ey. unfold rx'. destruct (Req_EM_T rx 0); destruct (Req_EM_T ry' 0); cbn [negb andb]; try lra.
      unfold ry' in *. destruct (Req_EM_T ry 0); lra.
    + exact Ey.
Qed.

(** ** unequal radii: the outline is displaced *)
Section Prefix.
Context {E : Env}.
Lemma arcSegs_app : forall n i m a r t d al s l p, exists k, arcSegs (E := E) n i m a r t d al s l p = p ++ k.
Proof.
  induction n as [|n IH]; intros; cbn [arcSegs]; [exists []; rewrite app_nil_r; reflexivity|].
  match goal with |- exists k, arcSegs n ?i ?m ?a ?r ?t ?d ?al ?s ?l ?q = _ => destruct (IH i m a r t d al s l q) as (k & ->) end.
  unfold aCube, pCube. rewrite <- app_assoc. eauto.
Qed.
Lemma gap_app fuel m a t l p p' : roundGap (E := E) fuel m a t l p = Ret p' -> exists k, p' = p ++ k.
Proof.
  unfold roundGap, addCircArc. destruct (raise_angle _ _ _); cbn [obind]; try discriminate. intros H. injection H as <-.
  unfold aLine, pLine. match goal with |- context [arcSegs ?n ?i ?m ?a ?r ?t ?d ?al ?s ?l ?q] => destruct (arcSegs_app n i m a r t d al s l q) as (k & ->) end.
  rewrite <- !app_assoc. eauto.
Qed.
End Prefix.
Ltac next_gap H := match type of H with obind (roundGap ?f ?m ?a ?t ?l ?p) _ = _ =>
  let g := fresh "g" in let Hg := fresh "Hg" in destruct (roundGap f m a t l p) as [g| | |] eqn:Hg; cbn [obind] in H; try discriminate;
  apply gap_app in Hg; destruct Hg as (? & ->) end.
Lemma round_start O fuel (x0 y0 x1 y1 rx ry : R) p : 0 < rx -> 0 < ry -> 2 * rx <= x1 - x0 -> 2 * ry <= y1 - y0 ->
  let s := ry / rx in let mid := (y0 + y1) / 2 in
  Rabs x0 <= 4194304 -> Rabs x1 <= 4194304 -> Rabs (mid - (y1 - y0) / 2 / s) <= 4194304 -> Rabs (y0 + 2 * mid * (s - 1)) <= 4194304 -> s <= 1024 ->
  addRoundRect (E := RealEnv O) fuel x0 y0 x1 y1 rx ry (fnum (RealEnv O) 0) [] = Ret p ->
  exists a rest, p = OpMoveTo a :: rest /\ fst a = Ztrunc ((x0 + rx) * 64)
    /\ Rabs (IZR (snd a) - 64 * (y0 + 2 * mid * (s - 1))) <= s + 1.
Proof.
  intros P1 P2 W1 W2 s mid Bx0 Bx1 B B' Bs.
  assert (Ps : 0 < s) by (apply Rmult_lt_0_compat; [lra|apply Rinv_0_lt_compat; lra]).
  unfold addRoundRect. rewrite !fnum_real. cbn [fleb fltb fmul fdiv fsub fadd fneg fpi_180 RealEnv].
  destruct (Rle_dec rx 0); [lra|]. destruct (Rle_dec ry 0); [lra|]. cbn [orb].
  destruct (Rlt_dec (x1 - x0) (rx * 2)); [lra|]. destruct (Rlt_dec (y1 - y0) (ry * 2)); [lra|]. 
  intros H. 
  assert (Em : mTranslate (mScale (mRotate (mTranslate (identity (E := RealEnv O)) (x0 + (x1 - x0) / 2) (y0 + (y1 - y0) / 2)) (0 * (PI / 180))) 1 (1 / (rx / ry))) (- x0 - (x1 - x0) / 2) (- y0 - (y1 - y0) / 2)
    = mkM (E := RealEnv O) 1 0 0 s 0 (mid * (s - 1))).
  { unfold mTranslate, mScale, mRotate, mMult, identity. cbn [mA mB mC mD mE mF fcos fsin fadd fmul fneg fsub RealEnv]. rewrite Rmult_0_l, !fnum_real, cos_0, sin_0.
    cbn [fadd fmul fneg fsub RealEnv]. unfold s, mid. f_equal; field; lra. }
  match type of H with context [aStart ?m ?u ?q] =>
    assert (Hst : aStart m u q = [OpMoveTo (Ztrunc ((x0 + rx) * 64), Ztrunc (IZR (Ztrunc ((mid - (y1 - y0) / 2 / s) * 64)) * s + mid * (s - 1) * 64))]) end.
  { unfold aStart, pStart. cbn [app]. f_equal. f_equal. apply Rabs_le_inv in Bx0, Bx1.
    match goal with |- tFixed ?m _ = _ => replace m with (mkM (E := RealEnv O) 1 0 0 s 0 (mid * (s - 1))) by (symmetry; exact Em) end.
    rewrite toFixed_real. unfold grid_R, tFixed. cbn [fst snd mA mB mC mD mE mF fadd fmul f_to_i32 f_of_Z RealEnv]. rewrite fnum_real.
    replace (y0 + (y1 - y0) / 2 - (y1 - y0) / 2 * (rx / ry)) with (mid - (y1 - y0) / 2 / s) by (unfold mid, s; field; lra).
    destruct (grid_bound (x0 + rx) 4194304) as [E1 B1]; [apply Rabs_le; lra|lia|]. destruct (grid_bound (mid - (y1 - y0) / 2 / s) 4194304) as [E2 B2]; [exact B|lia|].
    rewrite E1, E2. f_equal.
    - replace (IZR (Ztrunc ((x0 + rx) * 64)) * 1 + IZR (Ztrunc ((mid - (y1 - y0) / 2 / s) * 64)) * 0 + 0 * 64) with (IZR (Ztrunc ((x0 + rx) * 64))) by ring.
      rewrite Ztrunc_IZR. exact E1.
    - rewrite Rmult_0_r, Rplus_0_l. apply wrap32_id. pose proof (trunc_near ((mid - (y1 - y0) / 2 / s) * 64)) as T. apply Rabs_le_inv in T.
      set (Y' := IZR (Ztrunc ((mid - (y1 - y0) / 2 / s) * 64))) in *.
      assert (Eq : (mid - (y1 - y0) / 2 / s) * 64 * s + mid * (s - 1) * 64 = 64 * (y0 + 2 * mid * (s - 1))) by (unfold mid; field; lra).
      apply Rabs_le_inv in B'. pose proof (trunc_near (Y' * s + mid * (s - 1) * 64)) as T'. apply Rabs_le_inv in T'.
      assert (- s <= Y' * s - (mid - (y1 - y0) / 2 / s) * 64 * s <= s) by nra.
      unfold int32. split; apply le_IZR || apply lt_IZR; change (2 ^ 31)%Z with 2147483648%Z; rewrite ?opp_IZR; lra. }
  rewrite Hst in H. clear Hst Em. unfold aLine, pLine in H. repeat next_gap H. injection H as <-.
  eexists. eexists. split; [cbn [app]; reflexivity|]. cbn [fst snd]. split; [reflexivity|].
  pose proof (trunc_near ((mid - (y1 - y0) / 2 / s) * 64)) as T. apply Rabs_le_inv in T.
  set (Y' := IZR (Ztrunc ((mid - (y1 - y0) / 2 / s) * 64))) in *.
  assert (Eq : (mid - (y1 - y0) / 2 / s) * 64 * s + mid * (s - 1) * 64 = 64 * (y0 + 2 * mid * (s - 1))) by (unfold mid; field; lra).
  pose proof (trunc_near (Y' * s + mid * (s - 1) * 64)) as T'. apply Rabs_le_inv in T'.
  assert (- s <= Y' * s - (mid - (y1 - y0) / 2 / s) * 64 * s <= s) by nra. apply Rabs_le. lra.
Qed.
Theorem round_rect_displaced O fuel attrs (x y w h rx ry : R) (c : cursor (RealEnv O)) p : let vb := sv_viewBox (c_svg c) in
  pc_path (c_pc c) = [] ->
  length_attr (E := RealEnv O) vb OfWidth "x" attrs x -> length_attr (E := RealEnv O) vb OfHeight "y" attrs y ->
  length_attr (E := RealEnv O) vb OfWidth "width" attrs w -> length_attr (E := RealEnv O) vb OfHeight "height" attrs h ->
  length_attr (E := RealEnv O) vb OfWidth "rx" attrs rx -> length_attr (E := RealEnv O) vb OfHeight "ry" attrs ry ->
  let minX := x + fst (offset c) in let minY := y + snd (offset c) in
  let maxX := minX + w in let maxY := minY + h in
  let s := ry / rx in let mid := (minY + maxY) / 2 in
  0 < rx -> 0 < ry -> 2 * rx <= w -> 2 * ry <= h ->
  Rabs minX <= 4194304 -> Rabs maxX <= 4194304 -> Rabs (mid - h / 2 / s) <= 4194304 -> Rabs (minY + 2 * mid * (s - 1)) <= 4194304 -> s <= 1024 ->
  element_draws fuel "rect" attrs c p ->
  exists a rest, p = OpMoveTo a :: rest /\ fst a = Ztrunc ((minX + rx) * 64) /\ Rabs (IZR (snd a) - 64 * (minY + 2 * mid * (s - 1))) <= s + 1.
Proof.
  intros vb Hp Hx Hy Hw Hh Hrx Hry minX minY maxX maxY s mid P1 P2 W1 W2 B1 B2 B3 B4 B5 (df & c' & Hdf & Hrun & <-).
  pose proof (rect_fold (E := RealEnv O) attrs _ _ _ _ _ _ x y w h rx ry c Hx Hy Hw Hh Hrx Hry) as HF.
  injection Hdf as <-.
  unfold rectF in Hrun. rewrite (bind_step _ _ _ _ _ HF) in Hrun. cbv beta iota in Hrun. unfold f0 in *. rewrite !fnum_real in Hrun. cbn [feqb RealEnv] in Hrun.
  destruct (Req_EM_T w 0); [lra|]. destruct (Req_EM_T h 0); [lra|]. destruct (Req_EM_T rx 0); [lra|]. destruct (Req_EM_T ry 0); [lra|]. cbn [orb andb negb] in Hrun.
  unfold curXY, bind, gets, lift in Hrun. rewrite Hp in Hrun. cbn [fadd RealEnv] in Hrun.
  match type of Hrun with context [addRoundRect fuel ?a ?b ?cc ?d ?u ?v ?t ?pp] => destruct (addRoundRect (E := RealEnv O) fuel a b cc d u v t pp) as [q| | |] eqn:Hq end; try discriminate.
  assert (Hq' : addRoundRect (E := RealEnv O) fuel minX minY maxX maxY rx ry (fnum (RealEnv O) 0) [] = Ret q).
  { etransitivity; [|exact Hq]. rewrite fnum_real.
    assert (E1 : maxX = w + x + pc_curX (c_pc c)) by (unfold maxX, minX; cbn [fst offset]; ring).
    assert (E2 : maxY = h + y + pc_curY (c_pc c)) by (unfold maxY, minY; cbn [snd offset]; ring).
    rewrite E1, E2. destruct (Req_EM_T ry 0); [lra|]. reflexivity. }
  unfold onCPath in Hrun. injection Hrun as <-. cbn [c_set_pc c_pc set_path pc_path].
  destruct (round_start O fuel minX minY maxX maxY rx ry q) as (a & rest & K1 & K2 & K3); auto.
  { unfold maxX. lra. } { unfold maxY. lra. } { replace (maxY - minY) with h by (unfold maxY; ring). exact B3. }
  exists a, rest. split; [exact K1|]. split; [exact K2|exact K3].
Qed.

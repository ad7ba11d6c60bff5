(** * ProofsCorner2: rounded corners in binary64 *)
From Coq Require Import ZArith Lia Reals Lra Psatz Floats.SpecFloat.
From Flocq Require Import Core.Core.
From Verif Require Import F64 RealEnv SpecArc SpecTrig SpecCurve SpecPlane SpecCorner ProofsArc64 ProofsScale ProofsSize3 ProofsDec ProofsPlane ProofsCircle ProofsCurve ProofsCorner ProofsClose ProofsFlocq.
Local Open Scope R_scope.
Local Notation pow := (bpow radix2).

Lemma trunc_off x : Rabs (IZR (Ztrunc x) - x) <= 1.
Proof. pose proof (ProofsRect.trunc_near x). assumption. Qed.
Lemma ap_cut O b e x r n : ap b e x r -> IZR e * u100 <= n -> n <= 1 -> Rabs r <= 2147483000 -> Rabs (IZR (sf_to_i32 O x) - r) <= 1 + n /\ (Z.abs (sf_to_i32 O x) <= 2147483002)%Z.
Proof.
  intros ((V & Fi & B) & H & K) He Hn Hr. assert (Hx : Rabs (val x) <= 2147483001). { pose proof (Rabs_triang (val x - r) r) as H1. replace (val x - r + r) with (val x) in H1 by ring. lra. }
  assert (Hz : int32 (Ztrunc (val x))) by (apply trunc_int32; lra). rewrite (to_i32_val O x _ Fi eq_refl Hz). pose proof (trunc_off (val x)) as T. split.
  - pose proof (Rabs_triang (IZR (Ztrunc (val x)) - val x) (val x - r)) as T1. replace (IZR (Ztrunc (val x)) - val x + (val x - r)) with (IZR (Ztrunc (val x)) - r) in T1 by ring. lra.
  - apply le_IZR. rewrite <- Rabs_Zabs. pose proof (Rabs_triang (IZR (Ztrunc (val x)) - val x) (val x)) as T1. replace (IZR (Ztrunc (val x)) - val x + val x) with (IZR (Ztrunc (val x))) in T1 by ring. lra.
Qed.
Lemma quot_off z k : Rabs (IZR (Z.quot (z * k) 64) - IZR z * IZR k / 64) <= 1.
Proof.
  assert (H : (Z.abs (64 * Z.quot (z * k) 64 - z * k) <= 64)%Z). { pose proof (Z.quot_rem (z * k) 64 ltac:(lia)). pose proof (Z.rem_bound_abs (z * k) 64 ltac:(lia)). lia. }
  apply IZR_le in H. rewrite <- Rabs_Zabs, minus_IZR, !mult_IZR in H. apply Rabs_le_inv in H. apply Rabs_le. lra.
Qed.
Lemma wrap_small z : (Z.abs z <= 2147483000)%Z -> wrap32 z = z.
Proof. intros H. apply wrap32_id. unfold int32. lia. Qed.

Section Arc.
Context (O : Oracles) (HF : fair_trig O).
Notation E := (F64 O).
Context (m : matrix E) (Hm : forall z : pt, (Z.abs (fst z) <= 2 ^ 26)%Z -> (Z.abs (snd z) <= 2 ^ 26)%Z ->
  (Z.abs (fst (tFixed m z) - fst z) <= 1)%Z /\ (Z.abs (snd (tFixed m z) - snd z) <= 1)%Z).
Context (a : pt) (rho : Z) (Ha : (Z.abs (fst a) <= 2 ^ 25)%Z /\ (Z.abs (snd a) <= 2 ^ 25)%Z) (Hrho : (0 < rho <= 2 ^ 22)%Z).
(** the corner it stands for *)
Context (cx cy r : R) (Hcx : Rabs (IZR (fst a) - 64 * cx) <= 1.1) (Hcy : Rabs (IZR (snd a) - 64 * cy) <= 1.1) (Hr : Rabs (IZR rho - 64 * r) <= 1.1).
Context (theta1 dTheta : F E) (t d : R) (al : Z) (Hal : (0 <= al <= 8)%Z).
Notation eta i := (fadd E theta1 (fmul E dTheta (f_of_Z E i))).
Notation h := (IZR al / 64).
Notation near := (beside (6 / 64) (6 / 64)).
Notation follows := (bow_follows 1 0 0 1 0 0 (6 / 64) (6 / 64)).
Definition spotted (u : R) (ldp ps : pt) : Prop :=
  Rabs (IZR (fst ldp) + IZR rho * sin u) <= 1.001 /\ Rabs (IZR (snd ldp) - IZR rho * cos u) <= 1.001 /\ ps = (fst a + snd ldp, snd a - fst ldp)%Z.
Lemma rho_ap : ap 22 0 (f_of_Z E rho) (IZR rho).
Proof using Hrho Ha. apply (ap_ofZ O 22); lia. Qed.
Lemma rho_wave (k : R) : -1 <= k <= 1 -> Rabs (IZR rho * k) <= 2 ^ 22.
Proof using Hrho Ha. intros Hk. assert (0 <= IZR rho <= 2 ^ 22) by (replace (2 ^ 22) with (IZR (2 ^ 22)) by (cbn; lra); split; apply IZR_le; lia). apply Rabs_le. nra. Qed.
Lemma spot_at (e : F E) u : ap 3 (2 ^ 66) e u ->
  let ldp := (wrap32 (Z.opp (f_to_i32 E (fmul E (f_of_Z E rho) (fsin E e)))), f_to_i32 E (fmul E (f_of_Z E rho) (fcos E e))) in
  spotted u ldp (wrap32 (fst a + snd ldp), wrap32 (snd a - fst ldp))%Z /\ (Z.abs (fst ldp) <= 2 ^ 23)%Z /\ (Z.abs (snd ldp) <= 2 ^ 23)%Z.
Proof using HF Ha Hrho.
  intros He ldp. destruct (waves O HF _ _ He) as [Ws Wc].
  assert (K : forall w k, ap 1 (2 ^ 67) w k -> -1 <= k <= 1 -> Rabs (IZR (sf_to_i32 O (SFmul 53 1024 (f_of_Z E rho) w)) - IZR rho * k) <= 1.001 /\ (Z.abs (sf_to_i32 O (SFmul 53 1024 (f_of_Z E rho) w)) <= 2 ^ 23)%Z).
  { intros w k Hw Hk. pose proof (ap_mul 22 1 _ _ _ _ _ _ ltac:(lia) ltac:(lia) ltac:(lia) rho_ap Hw) as H. pose proof (rho_wave k Hk) as Hb.
    destruct (ap_cut O _ _ _ _ 0.001 H) as [H1 H2]; [|lra|lra|].
    - apply Rle_trans with (IZR (2 ^ 90) * u100); [apply Rmult_le_compat_r; [apply Rlt_le, u_pos|]; apply IZR_le; zc|]. rewrite pow_Z by lia. rewrite <- bpow_plus. change (pow (90 + -100)) with (/ 1024). lra.
    - split; [lra|]. apply le_IZR. rewrite <- Rabs_Zabs. set (v := IZR (sf_to_i32 O _)) in *. pose proof (Rabs_triang (v - IZR rho * k) (IZR rho * k)) as T. replace (v - IZR rho * k + IZR rho * k) with v in T by ring.
      replace (IZR (2 ^ 23)) with (2 * 2 ^ 22) by (cbn; lra). lra. }
  destruct (K _ _ Ws (SIN_bound u)) as [S1 S2]. destruct (K _ _ Wc (COS_bound u)) as [C1 C2]. clear K.
  set (zs := sf_to_i32 O (SFmul 53 1024 (f_of_Z E rho) (o_sin O e))) in *. set (zc := sf_to_i32 O (SFmul 53 1024 (f_of_Z E rho) (o_cos O e))) in *.
  assert (El : ldp = (wrap32 (- zs), zc)%Z) by reflexivity. rewrite wrap_small in El by lia. rewrite El. cbn [fst snd]. unfold spotted. cbn [fst snd].
  rewrite !wrap_small by lia. split; [|lia]. split; [|split; [exact C1|reflexivity]]. rewrite opp_IZR. replace (- IZR zs + IZR rho * sin u) with (- (IZR zs - IZR rho * sin u)) by ring. rewrite Rabs_Ropp. exact S1.
Qed.
(** a coordinate of a stored point *)
Lemma stored z z' c0 c (k B : R) : (Z.abs (z' - z) <= 1)%Z -> Rabs (IZR z - (IZR c0 + IZR rho * k)) <= B -> B <= 2.5 -> Rabs (IZR c0 - 64 * c) <= 1.1 -> Rabs k <= 1.25 -> Rabs (IZR z' / 64 - (c + r * k)) <= 6 / 64.
Proof using Hr.
  intros Hz HB Hb Hc Hk. apply IZR_le in Hz. rewrite <- Rabs_Zabs, minus_IZR in Hz.
  assert (H3 : Rabs ((IZR rho - 64 * r) * k) <= 1.1 * 1.25) by (rewrite Rabs_mult; apply Rmult_le_compat; try apply Rabs_pos; assumption).
  assert (H4 : (IZR rho - 64 * r) * k = IZR rho * k - 64 * (r * k)) by ring. rewrite H4 in H3. apply Rabs_le_inv in Hz, HB, Hc, H3. apply Rabs_le. lra.
Qed.
Lemma drop_one a' b' : beside (6 / 64) (6 / 64) a' b' -> beside (6 / 64) (6 / 64) a' (moved 1 0 0 1 0 0 b').
Proof using. intros H. unfold moved. destruct b' as [u v]. cbn [fst snd]. replace (1 * u + 0 * v + 0) with u by ring. replace (0 * u + 1 * v + 0) with v by ring. exact H. Qed.
Lemma spot_stored u ldp ps : spotted u ldp ps -> (Z.abs (fst ldp) <= 2 ^ 23)%Z -> (Z.abs (snd ldp) <= 2 ^ 23)%Z -> near (user (tFixed m ps)) (ellipse_pt cx cy r r u).
Proof using Hm Ha Hcx Hcy Hr.
  intros (S1 & S2 & ->) L1 L2. destruct (Hm (fst a + snd ldp, snd a - fst ldp)%Z) as [M1 M2]; cbn [fst snd]; [lia..|]. cbn [fst snd] in M1, M2. unfold user, ellipse_pt. split; cbn [fst snd].
  - apply (fun K => stored _ _ (fst a) _ _ 1.001 M1 K ltac:(lra) Hcx); [|apply Rabs_le; pose proof (COS_bound u); lra]. rewrite plus_IZR. replace (IZR (fst a) + IZR (snd ldp) - (IZR (fst a) + IZR rho * cos u)) with (IZR (snd ldp) - IZR rho * cos u) by ring. exact S2.
  - apply (fun K => stored _ _ (snd a) _ _ 1.001 M2 K ltac:(lra) Hcy); [|apply Rabs_le; pose proof (SIN_bound u); lra]. rewrite minus_IZR. replace (IZR (snd a) - IZR (fst ldp) - (IZR (snd a) + IZR rho * sin u)) with (- (IZR (fst ldp) + IZR rho * sin u)) by ring. rewrite Rabs_Ropp. exact S1.
Qed.
Lemma al_range : 0 <= IZR al <= 8. Proof using Hal Ha. split; apply IZR_le; lia. Qed.
(** a handle: [g] is 1 at the beginning of a piece and -1 at its end *)
Lemma handle_off z (k : R) : Rabs (IZR z - k) <= 1.001 -> (Z.abs z <= 2 ^ 23)%Z -> Rabs (IZR (Z.quot (wrap32 (z * al)) 64) - k * h) <= 1.13 /\ (Z.abs (Z.quot (wrap32 (z * al)) 64) <= 2 ^ 23)%Z.
Proof using Hal Ha.
  intros Hz Hb. rewrite wrap_small by nia. pose proof (quot_off z al) as Q. pose proof al_range as A. split.
  - assert (H : Rabs ((IZR z - k) * h) <= 1.001 * (8 / 64)) by (rewrite Rabs_mult; apply Rmult_le_compat; try apply Rabs_pos; [exact Hz|apply Rabs_le; lra]).
    apply Rabs_le_inv in H, Q. apply Rabs_le. lra.
  - assert ((Z.abs (64 * Z.quot (z * al) 64 - z * al) <= 64)%Z). { pose proof (Z.quot_rem (z * al) 64 ltac:(lia)). pose proof (Z.rem_bound_abs (z * al) 64 ltac:(lia)). lia. } nia.
Qed.
Lemma handle_stored u ldp ps : spotted u ldp ps -> (Z.abs (fst ldp) <= 2 ^ 23)%Z -> (Z.abs (snd ldp) <= 2 ^ 23)%Z ->
  near (user (tFixed m (ptAdd ps (ptMul ldp al)))) (cx + r * (cos u - h * sin u), cy + r * (sin u + h * cos u))
  /\ near (user (tFixed m (ptSub ps (ptMul ldp al)))) (cx + r * (cos u + h * sin u), cy + r * (sin u - h * cos u)).
Proof using Hm Ha Hcx Hcy Hr Hal.
  intros (S1 & S2 & ->) L1 L2. unfold ptAdd, ptSub, ptMul. cbn [fst snd].
  assert (S1' : Rabs (IZR (fst ldp) - (- (IZR rho * sin u))) <= 1.001) by (replace (IZR (fst ldp) - - (IZR rho * sin u)) with (IZR (fst ldp) + IZR rho * sin u) by ring; exact S1).
  destruct (handle_off _ _ S1' L1) as [Q1 B1]. destruct (handle_off _ _ S2 L2) as [Q2 B2]. set (q1 := Z.quot (wrap32 (fst ldp * al)) 64) in *. set (q2 := Z.quot (wrap32 (snd ldp * al)) 64) in *.
  rewrite !wrap_small by lia. pose proof al_range as A. pose proof (COS_bound u) as Cb. pose proof (SIN_bound u) as Sb.
  assert (Kb : forall p q, -1 <= p <= 1 -> -1 <= q <= 1 -> Rabs (p + h * q) <= 1.25 /\ Rabs (p - h * q) <= 1.25).
  { intros p q Hp Hq. assert (0 <= h <= 8 / 64) by lra. set (k := h) in *. clearbody k. split; apply Rabs_le; nra. }
  split.
  - destruct (Hm (fst a + snd ldp + q1, snd a - fst ldp + q2)%Z) as [M1 M2]; cbn [fst snd]; [lia..|]. cbn [fst snd] in M1, M2. unfold user. split; cbn [fst snd].
    + apply (fun K => stored _ _ (fst a) _ _ 2.2 M1 K ltac:(lra) Hcx); [|now apply Kb]. rewrite !plus_IZR. apply Rabs_le_inv in Q1, S2. apply Rabs_le. lra.
    + apply (fun K => stored _ _ (snd a) _ _ 2.2 M2 K ltac:(lra) Hcy); [|now apply Kb]. rewrite plus_IZR, minus_IZR. apply Rabs_le_inv in Q2, S1. apply Rabs_le. lra.
  - destruct (Hm (fst a + snd ldp - q1, snd a - fst ldp - q2)%Z) as [M1 M2]; cbn [fst snd]; [lia..|]. cbn [fst snd] in M1, M2. unfold user. split; cbn [fst snd].
    + apply (fun K => stored _ _ (fst a) _ _ 2.2 M1 K ltac:(lra) Hcx); [|now apply Kb]. rewrite minus_IZR, plus_IZR. apply Rabs_le_inv in Q1, S2. apply Rabs_le. lra.
    + apply (fun K => stored _ _ (snd a) _ _ 2.2 M2 K ltac:(lra) Hcy); [|now apply Kb]. rewrite !minus_IZR. apply Rabs_le_inv in Q2, S1. apply Rabs_le. lra.
Qed.
Context (N : nat) (Heta : forall i : nat, (1 <= i <= N)%nat -> ap 3 (2 ^ 66) (eta (Z.of_nat i)) (ray t d i)).
Lemma segs_close n : forall i s1 ldp p, (i + n <= N)%nat -> spotted (ray t d i) ldp s1 -> (Z.abs (fst ldp) <= 2 ^ 23)%Z -> (Z.abs (snd ldp) <= 2 ^ 23)%Z ->
  exists q, arcSegs n (Z.of_nat (S i)) m a (f_of_Z E rho) theta1 dTheta al s1 ldp p = p ++ q /\ Forall2 follows (map bow_of q) (map (gore cx cy r t d h) (seq i n)).
Proof using Hm Ha Hcx Hcy Hr Hal Heta HF Hrho.
  induction n as [|n IH]; intros i s1 ldp p Hi S1 L1 L2; cbn [arcSegs seq map].
  - exists []. rewrite app_nil_r. split; [reflexivity|constructor].
  - pose proof (spot_at _ _ (Heta (S i) ltac:(lia))) as K. cbv zeta in K. destruct K as (S2 & L3 & L4). cbv zeta.
    set (ds2 := (wrap32 (- f_to_i32 E (fmul E (f_of_Z E rho) (fsin E (eta (Z.of_nat (S i)))))), f_to_i32 E (fmul E (f_of_Z E rho) (fcos E (eta (Z.of_nat (S i))))))) in *.
    set (ps2 := (wrap32 (fst a + snd ds2), wrap32 (snd a - fst ds2))%Z) in *. replace (Z.of_nat (S i) + 1)%Z with (Z.of_nat (S (S i))) by lia.
    destruct (IH (S i) ps2 ds2 (aCube m (ptAdd s1 (ptMul ldp al)) (ptSub ps2 (ptMul ds2 al)) ps2 p)) as (q & Eq & Fq); [lia|exact S2|exact L3|exact L4|].
    exists (OpCubicTo (tFixed m (ptAdd s1 (ptMul ldp al))) (tFixed m (ptSub ps2 (ptMul ds2 al))) (tFixed m ps2) :: q).
    split; [rewrite Eq; unfold aCube, pCube; rewrite <- app_assoc; reflexivity|]. cbn [map bow_of]. constructor; [|exact Fq]. unfold gore. cbv zeta.
    apply bf_bend3; apply drop_one; [exact (proj1 (handle_stored _ _ _ S1 L1 L2))|exact (proj2 (handle_stored _ _ _ S2 L3 L4))|exact (spot_stored _ _ _ S2 L3 L4)].
Qed.
End Arc.

(** * ProofsFlocq: rounding facts about the binary64 instance, from Flocq *)
From Coq Require Import ZArith Lia Reals Lra Floats.SpecFloat.
From Flocq Require Import Core.Core IEEE754.BinarySingleNaN.
From Flocq Require Import Mult_error.
From Verif Require Import F64 SpecDoc.
Local Open Scope Z_scope.
Local Open Scope R_scope.

Local Instance Hprec : FLX.Prec_gt_0 53 := eq_refl _.
Local Instance Hmax : Prec_lt_emax 53 1024 := eq_refl _.
Notation bf := (binary_float 53 1024).
Notation fexp64 := (SpecFloat.fexp 53 1024).
Definition valid (x : sf) : Prop := SpecFloat.valid_binary 53 1024 x = true.
Definition finite (x : sf) : Prop := match x with S754_zero _ | S754_finite _ _ _ => True | _ => False end.
Notation val := (SF2R radix2).
Notation rnd := (round radix2 fexp64 ZnearestE).

Lemma rne_equiv s m l : round_nearest_even m l = choice_mode mode_NE s m l.
Proof. destruct l as [|c]; [reflexivity|]. destruct c; try reflexivity. cbn. unfold Round.cond_incr. destruct (Z.even m); reflexivity. Qed.
Lemma bra_equiv sx mx ex lx : SpecFloat.binary_round_aux 53 1024 sx mx ex lx = binary_round_aux 53 1024 mode_NE sx mx ex lx.
Proof.
  unfold SpecFloat.binary_round_aux, binary_round_aux. destruct (shr_fexp _ _ _) as [a b]. cbn. rewrite (rne_equiv sx). reflexivity.
Qed.
Lemma br_equiv s m e : SpecFloat.binary_round 53 1024 s m e = binary_round 53 1024 mode_NE s m e.
Proof. unfold SpecFloat.binary_round, binary_round, shl_align_fexp. destruct (shl_align _ _ _). apply bra_equiv. Qed.
Lemma bn_equiv m e z : SpecFloat.binary_normalize 53 1024 m e z = B2SF (binary_normalize 53 1024 Hprec Hmax mode_NE m e z).
Proof. destruct m; [reflexivity| |]; cbn; rewrite B2SF_SF2B; apply br_equiv. Qed.

Lemma mul_equiv (x y : bf) : SFmul 53 1024 (B2SF x) (B2SF y) = B2SF (Bmult mode_NE x y).
Proof. destruct x, y; try reflexivity. cbn. rewrite B2SF_SF2B. apply bra_equiv. Qed.
Lemma add_equiv (x y : bf) : SFadd 53 1024 (B2SF x) (B2SF y) = B2SF (Bplus mode_NE x y).
Proof. destruct x, y; try reflexivity; try (cbn; destruct (Bool.eqb _ _); reflexivity). apply bn_equiv. Qed.
Lemma div_equiv (x y : bf) : SFdiv 53 1024 (B2SF x) (B2SF y) = B2SF (Bdiv mode_NE x y).
Proof.
  destruct x, y; try reflexivity. cbn. rewrite B2SF_SF2B.
  destruct (SFdiv_core_binary _ _ _ _ _ _) as [[mz ez] lz]. apply bra_equiv.
Qed.

Lemma of_valid x : valid x -> exists b : bf, x = B2SF b.
Proof. intros H. exists (SF2B x H). rewrite B2SF_SF2B. reflexivity. Qed.
Lemma valid_b (b : bf) : valid (B2SF b). Proof. apply valid_binary_B2SF. Qed.
Lemma mul_valid x y : valid x -> valid y -> valid (SFmul 53 1024 x y).
Proof. intros [a ->]%of_valid [b ->]%of_valid. rewrite mul_equiv. apply valid_b. Qed.
Lemma add_valid x y : valid x -> valid y -> valid (SFadd 53 1024 x y).
Proof. intros [a ->]%of_valid [b ->]%of_valid. rewrite add_equiv. apply valid_b. Qed.
Lemma div_valid x y : valid x -> valid y -> valid (SFdiv 53 1024 x y).
Proof. intros [a ->]%of_valid [b ->]%of_valid. rewrite div_equiv. apply valid_b. Qed.
Lemma finite_b (b : bf) : finite (B2SF b) <-> is_finite b = true.
Proof. destruct b; cbn; split; intros; auto; try discriminate; try contradiction. Qed.

Lemma mul_round x y : valid x -> valid y -> finite x -> finite y -> Rabs (rnd (val x * val y)) < bpow radix2 1024 ->
  finite (SFmul 53 1024 x y) /\ val (SFmul 53 1024 x y) = rnd (val x * val y).
Proof.
  intros [a ->]%of_valid [b ->]%of_valid Ha%finite_b Hb%finite_b. rewrite !SF2R_B2SF. intros Hlt. rewrite mul_equiv, SF2R_B2SF.
  pose proof (Bmult_correct 53 1024 Hprec Hmax mode_NE a b) as H. cbn [round_mode] in H. rewrite Rlt_bool_true in H by exact Hlt.
  destruct H as (H1 & H2 & _). split; [|exact H1]. apply finite_b. rewrite H2, Ha, Hb. reflexivity.
Qed.
Lemma add_round x y : valid x -> valid y -> finite x -> finite y -> Rabs (rnd (val x + val y)) < bpow radix2 1024 ->
  finite (SFadd 53 1024 x y) /\ val (SFadd 53 1024 x y) = rnd (val x + val y).
Proof.
  intros [a ->]%of_valid [b ->]%of_valid Ha%finite_b Hb%finite_b. rewrite !SF2R_B2SF. intros Hlt. rewrite add_equiv, SF2R_B2SF.
  pose proof (Bplus_correct 53 1024 Hprec Hmax mode_NE a b Ha Hb) as H. cbn [round_mode] in H. rewrite Rlt_bool_true in H by exact Hlt.
  destruct H as (H1 & H2 & _). split; [|exact H1]. apply finite_b. exact H2.
Qed.
Lemma val_format x : valid x -> generic_format radix2 fexp64 (val x).
Proof. intros [a ->]%of_valid. rewrite SF2R_B2SF. apply (generic_format_B2R 53 1024). Qed.
Lemma val_lt x : valid x -> Rabs (val x) < bpow radix2 1024.
Proof. intros [a ->]%of_valid. rewrite SF2R_B2SF. apply (abs_B2R_lt_emax 53 1024). Qed.

(** equal finite values with equal sign are equal *)
Lemma val_inj x y : valid x -> valid y -> finite x -> finite y -> val x = val y -> val x <> 0 -> x = y.
Proof.
  intros [a ->]%of_valid [b ->]%of_valid Ha%finite_b Hb%finite_b. rewrite !SF2R_B2SF. intros H1 H2. f_equal.
  apply B2R_inj; [| |exact H1]; unfold is_finite_strict.
  - destruct a; cbn in *; try reflexivity; try discriminate; exfalso; apply H2; reflexivity.
  - rewrite H1 in H2. destruct b; cbn in *; try reflexivity; try discriminate; exfalso; apply H2; reflexivity.
Qed.

Notation one := (sf_lit 1 1).
Lemma one_eq : one = S754_finite false 4503599627370496 (-52). Proof. vm_compute. reflexivity. Qed.
Lemma one_valid : valid one. Proof. vm_compute. reflexivity. Qed.
Lemma one_val : val one = 1. Proof. rewrite one_eq. unfold SF2R, F2R. cbn. lra. Qed.
Lemma mul_one x : valid x -> finite x -> SFmul 53 1024 x one = x.
Proof.
  intros Hv Hf. destruct x as [s| | |s m e]; try contradiction.
  - rewrite one_eq. cbn. destruct s; reflexivity.
  - set (x := S754_finite s m e) in *.
    assert (Hr : rnd (val x * val one) = val x).
    { rewrite one_val, Rmult_1_r. apply round_generic; [apply valid_rnd_N|apply val_format, Hv]. }
    destruct (mul_round x one Hv one_valid Hf) as (H1 & H2). { rewrite one_eq. exact I. } { rewrite Hr. apply val_lt, Hv. }
    rewrite Hr in H2. apply val_inj; auto using mul_valid, one_valid.
    rewrite H2. intros H0. unfold x, SF2R in H0. apply eq_0_F2R in H0. destruct s; discriminate.
Qed.
Lemma one_mul x : valid x -> finite x -> SFmul 53 1024 one x = x.
Proof.
  intros Hv Hf. rewrite <- (mul_one x Hv Hf) at 2. rewrite one_eq. destruct x as [s| | |s m e]; try contradiction; [destruct s; reflexivity|].
  cbn [SFmul]. rewrite Z.add_comm, Pos.mul_comm. destruct s; reflexivity.
Qed.

(** ** integers *)
Lemma of_Z_valid z : valid (sf_of_Z z).
Proof. unfold sf_of_Z. rewrite bn_equiv. apply valid_b. Qed.
Lemma of_Z_val z : (Z.abs z < 2 ^ 53)%Z -> finite (sf_of_Z z) /\ val (sf_of_Z z) = IZR z.
Proof.
  intros Hz. unfold sf_of_Z, prec64, emax64. rewrite bn_equiv, SF2R_B2SF.
  pose proof (binary_normalize_correct 53 1024 Hprec Hmax mode_NE z 0 false) as H. cbn [round_mode] in H.
  assert (Hv : F2R (Float radix2 z 0) = IZR z) by (unfold F2R; cbn; lra). rewrite Hv in H.
  assert (Hlt : Rabs (IZR z) < bpow radix2 53).
  { rewrite <- abs_IZR. change (bpow radix2 53) with (IZR (2 ^ 53)). apply IZR_lt, Hz. }
  assert (Hg : generic_format radix2 fexp64 (IZR z)).
  { rewrite <- Hv. apply generic_format_F2R' with (f := Float radix2 z 0); [reflexivity|]. intros Hnz. cbn [Fexp].
    unfold cexp, fexp64, emin. rewrite Hv in *.
    assert (mag radix2 (IZR z) <= 53)%Z by (apply mag_le_bpow; assumption). lia. }
  rewrite round_generic in H; [|apply valid_rnd_N|exact Hg].
  rewrite Rlt_bool_true in H by (eapply Rlt_trans; [exact Hlt|apply bpow_lt; lia]).
  destruct H as (H1 & H2 & _). split; [apply finite_b, H2|exact H1].
Qed.
Lemma trunc_val x : finite x -> sf_trunc x = Some (Ztrunc (val x)).
Proof.
  destruct x as [s| | |s m e]; try contradiction; intros _.
  - cbn. f_equal. symmetry. apply (Ztrunc_IZR 0).
  - unfold sf_trunc, SF2R. f_equal. rewrite F2R_cond_Zopp. 
    assert (Hc : Ztrunc (cond_Ropp s (F2R (Float radix2 (Zpos m) e))) = cond_Zopp s (Ztrunc (F2R (Float radix2 (Zpos m) e)))).
    { destruct s; [apply Ztrunc_opp|reflexivity]. }
    rewrite Hc. f_equal. destruct (0 <=? e)%Z eqn:He.
    + apply Z.leb_le in He. rewrite <- (Ztrunc_IZR (Z.pos m * 2 ^ e)). f_equal. unfold F2R. cbn [Fnum Fexp].
      rewrite mult_IZR. f_equal. rewrite (IZR_Zpower radix2) by exact He. reflexivity.
    + apply Z.leb_gt in He. rewrite Ztrunc_floor by (apply F2R_ge_0; cbn; lia).
      unfold F2R. cbn [Fnum Fexp]. replace (bpow radix2 e) with (/ IZR (2 ^ (- e))).
      2:{ rewrite (IZR_Zpower radix2) by lia. rewrite <- bpow_opp. f_equal. lia. }
      symmetry. apply Zfloor_div. apply Z.pow_nonzero; lia.
Qed.
Definition int32 (z : Z) : Prop := (- 2 ^ 31 <= z < 2 ^ 31)%Z.
Lemma wrap32_int z : int32 (wrap32 z).
Proof.
  unfold int32, wrap32, wrap. change (2 ^ 32 / 2)%Z with (2 ^ 31)%Z. cbv zeta.
  pose proof (Z.mod_pos_bound z (2 ^ 32) eq_refl). destruct (Z.ltb_spec (z mod 2 ^ 32) (2 ^ 31)); lia.
Qed.
Lemma wrap32_id z : int32 z -> wrap32 z = z.
Proof.
  unfold int32, wrap32, wrap. change (2 ^ 32 / 2)%Z with (2 ^ 31)%Z. cbv zeta. intros H.
  destruct (Z.lt_ge_cases z 0).
  - replace (z mod 2 ^ 32)%Z with (z + 2 ^ 32)%Z.
    + destruct (Z.ltb_spec (z + 2 ^ 32) (2 ^ 31)); lia.
    + apply Z.mod_unique_pos with (-1)%Z; lia.
  - rewrite Z.mod_small by lia. destruct (Z.ltb_spec z (2 ^ 31)); lia.
Qed.
Lemma to_val lo hi other x z : finite x -> Ztrunc (val x) = z -> (lo <= z < hi)%Z -> sf_to lo hi other x = z.
Proof.
  intros Hf Ht Hz. unfold sf_to. rewrite trunc_val by exact Hf. rewrite Ht.
  replace ((lo <=? z) && (z <? hi))%Z%bool with true; [reflexivity|].
  symmetry. apply andb_true_intro. split; [apply Z.leb_le|apply Z.ltb_lt]; lia.
Qed.
Lemma to_i32_val O x z : finite x -> Ztrunc (val x) = z -> int32 z -> sf_to_i32 O x = z.
Proof.
  intros Hf Ht Hz. unfold sf_to_i32. rewrite (to_val _ _ _ x z Hf Ht Hz). apply wrap32_id, Hz.
Qed.
Lemma wrap64_id z : (- 2 ^ 63 <= z < 2 ^ 63)%Z -> wrap64 z = z.
Proof.
  intros H. unfold wrap64, wrap. change (2 ^ 64 / 2)%Z with (2 ^ 63)%Z. cbv zeta.
  destruct (Z.ltb_spec z 0) as [Hn|Hn].
  - replace (z mod 2 ^ 64)%Z with (z + 2 ^ 64)%Z.
    + destruct (Z.ltb_spec (z + 2 ^ 64) (2 ^ 63)); lia.
    + apply Z.mod_unique_pos with (-1)%Z; lia.
  - rewrite Z.mod_small by lia. destruct (Z.ltb_spec z (2 ^ 63)); lia.
Qed.
Lemma to_int_val O x z : finite x -> Ztrunc (val x) = z -> (- 2 ^ 63 <= z < 2 ^ 63)%Z -> sf_to_int64 O x = z.
Proof. intros Hf Ht Hz. unfold sf_to_int64. rewrite (to_val _ _ _ x z Hf Ht Hz). apply wrap64_id, Hz. Qed.
Lemma to_u32_val O x z : finite x -> Ztrunc (val x) = z -> (0 <= z < 2 ^ 32)%Z -> sf_to_u32 O x = z.
Proof. intros Hf Ht Hz. unfold sf_to_u32. rewrite (to_val _ _ _ x z Hf Ht Hz). apply Z.mod_small, Hz. Qed.
Lemma of_to_i32 O z : int32 z -> sf_to_i32 O (sf_of_Z z) = z.
Proof.
  intros H. destruct (of_Z_val z) as (H1 & H2); [unfold int32 in H; lia|]. apply to_i32_val; auto. rewrite H2. apply Ztrunc_IZR.
Qed.

(** ** the turn by zero degrees about a finite point is the identity on the grid *)
Notation z0 := (S754_zero false).
Lemma add_z0 x : finite x -> SFadd 53 1024 z0 x = match x with S754_zero _ => z0 | _ => x end.
Proof. destruct x as [[]| | |]; try contradiction; reflexivity. Qed.
Lemma add_opp x : finite x -> SFadd 53 1024 match x with S754_zero _ => z0 | _ => x end (SFopp x) = z0.
Proof.
  destruct x as [[]| | |s m e]; try contradiction; try reflexivity. intros _. cbn [SFopp SFadd]. rewrite Z.min_id.
  assert (H : forall k : Z, (cond_Zopp s k + cond_Zopp (negb s) k = 0)%Z) by (intros k; destruct s; cbn; lia).
  rewrite H. reflexivity.
Qed.
Lemma turn_coord cx : valid cx -> finite cx ->
  SFadd 53 1024 (SFadd 53 1024 z0 (SFmul 53 1024 (SFadd 53 1024 z0 cx) one)) (SFopp cx) = z0.
Proof.
  intros Hv Hf. rewrite (add_z0 cx Hf). rewrite mul_one.
  - rewrite add_z0 by (destruct cx; auto). destruct cx; try contradiction; apply (add_opp _ Hf).
  - destruct cx; auto; reflexivity.
  - destruct cx; auto.
Qed.
Lemma add_any0 x s : finite x -> SFadd 53 1024 (SFadd 53 1024 x (S754_zero s)) z0 = match x with S754_zero _ => z0 | _ => x end.
Proof. destruct x as [[]| | |]; try contradiction; destruct s; reflexivity. Qed.
Lemma any0_add x s : finite x -> SFadd 53 1024 (SFadd 53 1024 (S754_zero s) x) z0 = match x with S754_zero _ => z0 | _ => x end.
Proof. destruct x as [[]| | |]; try contradiction; destruct s; reflexivity. Qed.
Lemma mul_zero x : finite x -> exists s, SFmul 53 1024 x z0 = S754_zero s.
Proof. destruct x; try contradiction; intros _; eexists; reflexivity. Qed.
Theorem turn_zero O (cx cy : F (F64 O)) z : trig0 O -> valid cx -> valid cy -> finite cx -> finite cy -> int32 (fst z) -> int32 (snd z) ->
  tFixed (E := F64 O) (mTranslate (mRotate (mTranslate identity cx cy) (fmul (F64 O) (f0 (F64 O)) (fpi_180 (F64 O))))
    (fneg (F64 O) cx) (fneg (F64 O) cy)) z = z.
Proof.
  intros [Hs Hc] Vx Vy Fx Fy Zx Zy. destruct z as [a b]. cbn [fst snd] in *.
  set (ang := fmul (F64 O) (f0 (F64 O)) (fpi_180 (F64 O))).
  assert (Ha : ang = z0) by (vm_compute; reflexivity).
  set (M := mTranslate _ _ _).
  assert (HM : M = @mkM (F64 O) one z0 z0 one z0 z0).
  { unfold M, mTranslate, mRotate, mMult, identity. cbn [mA mB mC mD mE mF].
    replace (fcos (F64 O) ang) with one by (cbn; rewrite Ha, Hc; reflexivity).
    replace (fsin (F64 O) ang) with z0 by (cbn; rewrite Ha, Hs; reflexivity).
    change (fnum (F64 O) 0) with z0. change (fnum (F64 O) 1) with one.
    change (fadd (F64 O)) with (SFadd 53 1024). change (fmul (F64 O)) with (SFmul 53 1024). change (fneg (F64 O)) with SFopp.
    f_equal; try (vm_compute; reflexivity).
    - replace (SFadd 53 1024 (SFmul 53 1024 one z0) (SFmul 53 1024 z0 z0)) with z0 by (vm_compute; reflexivity). apply turn_coord; assumption.
    - replace (SFadd 53 1024 (SFmul 53 1024 z0 z0) (SFmul 53 1024 one z0)) with z0 by (vm_compute; reflexivity). apply turn_coord; assumption. }
  rewrite HM. unfold tFixed. cbn [mA mB mC mD mE mF fst snd].
  change (fadd (F64 O)) with (SFadd 53 1024). change (fmul (F64 O)) with (SFmul 53 1024). change (f_of_Z (F64 O)) with sf_of_Z.
  change (f_to_i32 (F64 O)) with (sf_to_i32 O).
  replace (SFmul 53 1024 z0 (fnum (F64 O) 64)) with z0 by (vm_compute; reflexivity).
  assert (Fz : forall z, int32 z -> finite (sf_of_Z z)) by (intros z Hz; apply of_Z_val; unfold int32 in Hz; lia).
  destruct (mul_zero (sf_of_Z a) (Fz a Zx)) as [s1 E1], (mul_zero (sf_of_Z b) (Fz b Zy)) as [s2 E2].
  rewrite E1, E2, !mul_one by auto using of_Z_valid. rewrite add_any0, any0_add by auto.
  assert (K : forall z, int32 z -> sf_to_i32 O match sf_of_Z z with S754_zero _ => z0 | _ => sf_of_Z z end = z).
  { intros z Hz. transitivity (sf_to_i32 O (sf_of_Z z)); [|apply of_to_i32, Hz]. destruct (sf_of_Z z); reflexivity. }
  rewrite !K by assumption. reflexivity.
Qed.

(** ** conversion to the grid of 1/64 *)
Notation c64 := (sf_lit 64 1).
Lemma c64_val : val c64 = 64.
Proof. replace c64 with (S754_finite false 4503599627370496 (-46)) by (vm_compute; reflexivity). unfold SF2R, F2R. cbn. lra. Qed.
Lemma grid_val O x : valid x -> finite x -> Rabs (val x) < bpow radix2 25 -> sf_to_i32 O (SFmul 53 1024 x c64) = Ztrunc (64 * val x).
Proof.
  intros Hv Hf Hlt.
  assert (Hg : rnd (val x * val c64) = 64 * val x).
  { rewrite c64_val, Rmult_comm. apply round_generic; [apply valid_rnd_N|]. rewrite Rmult_comm.
    change 64 with (bpow radix2 6). change fexp64 with (FLT_exp (-1074) 53).
    apply mult_bpow_pos_exact_FLT; [apply val_format, Hv|lia]. }
  assert (Ha : Rabs (64 * val x) < bpow radix2 31).
  { rewrite Rabs_mult, (Rabs_pos_eq 64) by lra. change (bpow radix2 31) with (bpow radix2 (6 + 25)). rewrite bpow_plus.
    change (bpow radix2 6) with 64. apply Rmult_lt_compat_l; [lra|exact Hlt]. }
  destruct (mul_round x c64 Hv) as (H1 & H2); [vm_compute; reflexivity|exact Hf|vm_compute; exact I| |].
  { rewrite Hg. eapply Rlt_trans; [exact Ha|apply bpow_lt; lia]. }
  apply to_i32_val; [exact H1|rewrite H2, Hg; reflexivity|]. unfold int32.
  assert (Z.abs (Ztrunc (64 * val x)) < 2 ^ 31)%Z; [|lia].
  apply lt_IZR. rewrite abs_IZR. eapply Rle_lt_trans; [|exact Ha]. rewrite <- abs_IZR, <- Ztrunc_abs.
  rewrite Ztrunc_floor by apply Rabs_pos. apply Zfloor_lb.
Qed.
Definition float_value (x : sf) : R :=
  match x with S754_finite s m e => (if s then -1 else 1) * IZR (Zpos m) * powerRZ 2 e | _ => 0 end.
Lemma float_value_val x : float_value x = val x.
Proof.
  destruct x as [s| | |s m e]; try reflexivity. unfold float_value, SF2R, F2R. cbn [Fnum Fexp].
  rewrite (bpow_powerRZ radix2). change (IZR radix2) with 2. destruct s; cbn [cond_Zopp]; [|lra].
  change (IZR (- Z.pos m)) with (IZR (-1 * Z.pos m)). rewrite mult_IZR. reflexivity.
Qed.
Theorem grid_close O (x : F (F64 O)) : valid x -> finite x -> Rabs (float_value x) < 2 ^ 25 ->
  let q := IZR (f_to_i32 (F64 O) (fmul (F64 O) x (fnum (F64 O) 64))) / 64 in
  Rabs (float_value x - q) < / 64 /\ Rabs q <= Rabs (float_value x) /\ 0 <= q * float_value x.
Proof.
  intros Hv Hf. rewrite float_value_val. intros Hlt. change (fnum (F64 O) 64) with c64.
  change (f_to_i32 (F64 O) (fmul (F64 O) x c64)) with (sf_to_i32 O (SFmul 53 1024 x c64)).
  rewrite grid_val; [|assumption..|cbn [bpow radix2]; cbn in Hlt |- *; lra]. set (v := val x). cbv zeta.
  destruct (Rle_or_lt 0 v) as [Hp|Hp].
  - rewrite Ztrunc_floor by lra. pose proof (Zfloor_lb (64 * v)). pose proof (Zfloor_ub (64 * v)).
    assert (0 <= IZR (Zfloor (64 * v))) by (apply IZR_le, Zfloor_lub; cbn; lra).
    rewrite (Rabs_pos_eq (v - _)), (Rabs_pos_eq v), (Rabs_pos_eq (_ / 64)) by lra. split; [lra|]. split; [lra|]. apply Rmult_le_pos; lra.
  - rewrite Ztrunc_ceil by lra. pose proof (Zceil_ub (64 * v)). pose proof (Zceil_lb (64 * v)).
    assert (IZR (Zceil (64 * v)) <= 0) by (apply IZR_le, Zceil_glb; cbn; lra).
    rewrite (Rabs_left1 (v - _)), (Rabs_left1 v), (Rabs_left1 (_ / 64)) by lra. split; [lra|]. split; [lra|].
    replace (_ * v) with ((- (IZR (Zceil (64 * v)) / 64)) * (- v)) by ring. apply Rmult_le_pos; lra.
Qed.
Theorem unmoved_F64 O (cx cy : F (F64 O)) : trig0 O -> valid cx -> valid cy -> finite cx -> finite cy -> SpecDoc.unmoved (F64 O) cx cy.
Proof. intros T Vx Vy Fx Fy p. apply turn_zero; auto; apply wrap32_int. Qed.

(** * ProofsAngle: the angle loop of rounded rectangles ends in binary64 *)
From Coq Require Import ZArith Lia Reals Lra Floats.SpecFloat.
From Flocq Require Import Core.Core IEEE754.BinarySingleNaN.
From Verif Require Import F64 SpecDoc SpecEnd ProofsFlocq ProofsFuel.
Local Open Scope R_scope.
Local Existing Instance ProofsFlocq.Hprec.
Local Existing Instance ProofsFlocq.Hmax.

Lemma leb_val x y : valid x -> valid y -> finite x -> finite y -> SFleb x y = true -> val x <= val y.
Proof.
  intros [a ->]%of_valid [b ->]%of_valid Ha%finite_b Hb%finite_b. rewrite !SF2R_B2SF.
  pose proof (Bleb_correct 53 1024 a b Ha Hb) as H. unfold Bleb in H. rewrite H. destruct (Rle_bool_spec (B2R a) (B2R b)); [auto|discriminate].
Qed.
Lemma ltb_val x y : valid x -> valid y -> finite x -> finite y -> SFltb x y = true -> val x < val y.
Proof.
  intros [a ->]%of_valid [b ->]%of_valid Ha%finite_b Hb%finite_b. rewrite !SF2R_B2SF.
  pose proof (Bltb_correct 53 1024 a b Ha Hb) as H. unfold Bltb in H. rewrite H. destruct (Rlt_bool_spec (B2R a) (B2R b)); [auto|discriminate].
Qed.
Definition pi64 : sf := S754_finite false 7074237752028440 (-51).
Definition two_pi64 : sf := S754_finite false 7074237752028440 (-50).
Lemma pi64_eq O : fpi (F64 O) = pi64. Proof. change (sf_rat false pi_num pi_den = pi64). vm_compute. reflexivity. Qed.
Lemma two_pi64_eq O : twoPi (E := F64 O) = two_pi64.
Proof. unfold twoPi. rewrite pi64_eq. change (SFmul 53 1024 pi64 (sf_of_Z 2) = two_pi64). vm_compute. reflexivity. Qed.
Lemma within x : valid x -> SFleb (SFopp pi64) x = true -> SFleb x pi64 = true -> finite x.
Proof. destruct x as [s|s| |s m e]; intros H1 H2 H3; [exact I| |discriminate|exact I]. destruct s; discriminate. Qed.
Lemma turns_F64 O : angles O -> turns (E := F64 O) 1.
Proof.
  intros H y1 x1 y2 x2 fuel Hf. destruct fuel as [|fuel]; [lia|]. unfold onf.
  change (fatan2 (F64 O)) with (o_atan2 O). pose proof (H y1 x1) as Ha. pose proof (H y2 x2) as Hb.
  set (a := o_atan2 O y1 x1) in *. set (b := o_atan2 O y2 x2) in *. clearbody a b. rewrite pi64_eq in *.
  cbn [raise_angle]. destruct (fltb (F64 O) a b) eqn:Hlt; [|discriminate].
  destruct Ha as [->|(Va & La & Ua)]; [discriminate|]. destruct Hb as [->|(Vb & Lb & Ub)]; [destruct a; discriminate|].
  pose proof (within _ Va La Ua) as Fa. pose proof (within _ Vb Lb Ub) as Fb.
  assert (Vp : valid pi64) by reflexivity. assert (Vn : valid (SFopp pi64)) by reflexivity. assert (Vt : valid two_pi64) by reflexivity.
  apply leb_val in La, Ua, Lb, Ub; try assumption; try exact I.
  assert (Ep : val (SFopp pi64) = - val pi64). { unfold pi64, SFopp, SF2R. cbn [cond_Zopp]. apply F2R_Zopp. }
  assert (Et : val two_pi64 = 2 * val pi64). { unfold pi64, two_pi64, SF2R, F2R. cbn [Fnum Fexp cond_Zopp]. change (-50)%Z with (-51 + 1)%Z. rewrite bpow_plus. change (bpow radix2 1) with 2. ring. }
  assert (Hpi : 0 < val pi64 <= 4).
  { unfold pi64, SF2R. cbn [cond_Zopp]. split; [apply F2R_gt_0; reflexivity|].
    replace 4 with (IZR 9007199254740992 * bpow radix2 (-51)) by (rewrite (IZR_Zpower radix2 53) || (change 9007199254740992%Z with (radix2 ^ 53)%Z; rewrite IZR_Zpower by lia); [rewrite <- bpow_plus; reflexivity|..]; lia).
    unfold F2R. cbn [Fnum Fexp]. apply Rmult_le_compat_r; [apply bpow_ge_0|]. apply IZR_le. lia. }
  assert (R1 : val pi64 <= rnd (val a + val two_pi64)).
  { rewrite <- (round_generic radix2 fexp64 ZnearestE (val pi64)) at 1 by apply val_format, Vp. apply round_le; [apply (fexp_correct 53 1024), ProofsFlocq.Hprec|typeclasses eauto|]. lra. }
  assert (G16 : generic_format radix2 fexp64 (bpow radix2 4)). { apply generic_format_bpow. vm_compute. discriminate. }
  assert (B16 : bpow radix2 4 = 16) by (cbn; lra).
  assert (R2 : rnd (val a + val two_pi64) <= bpow radix2 4).
  { rewrite <- (round_generic radix2 fexp64 ZnearestE (bpow radix2 4)) by exact G16. apply round_le; [apply (fexp_correct 53 1024), ProofsFlocq.Hprec|typeclasses eauto|]. lra. }
  assert (R3 : Rabs (rnd (val a + val two_pi64)) < bpow radix2 1024).
  { rewrite Rabs_pos_eq by lra. apply Rle_lt_trans with (1 := R2). apply bpow_lt. reflexivity. }
  destruct (add_round a two_pi64 Va Vt Fa I R3) as [Fs Es].
  assert (Hstop : fltb (F64 O) (fadd (F64 O) a (twoPi (E := F64 O))) b = false).
  { rewrite two_pi64_eq. change (SFltb (SFadd 53 1024 a two_pi64) b = false). destruct (SFltb _ b) eqn:Hl; [|reflexivity].
    apply ltb_val in Hl; [|apply add_valid; assumption|assumption..]. rewrite Es in Hl. lra. }
  destruct fuel; cbn [raise_angle]; rewrite Hstop; discriminate.
Qed.

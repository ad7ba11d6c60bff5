(** * ProofsSize3: how many curves an arc is drawn with, in real and in binary64 arithmetic *)
From Coq Require Import ZArith Lia Reals Lra Floats.SpecFloat.
From Flocq Require Import Core.Core IEEE754.BinarySingleNaN.
From Verif Require Import F64 RealEnv SpecDoc SpecEnd ProofsFlocq ProofsAngle ProofsArc.
From Verif Require Export ProofsSize2.
Local Open Scope nat_scope.

Section Any.
Context {E : Env}.
Notation F := (F E).
Definition pieces (d : F) : nat := Z.to_nat (Z.add (f_to_int E (fdiv E (fabs E d) (piOver8 (E := E)))) 1).
(** an arc takes at most [n] curves *)
Definition arc_pieces (n : nat) : Prop := forall y1 x1 y2 x2 b1 b2 b3,
  pieces (adjustEta (fsub E (fatan2 E y2 x2) (fatan2 E y1 x1)) b1 b2 b3) <= n.
Definition corner_pieces (n : nat) : Prop := forall fuel y1 x1 y2 x2 t,
  raise_angle fuel (fatan2 E y2 x2) (fatan2 E y1 x1) = Ret t -> pieces (fsub E t (fatan2 E y1 x1)) <= n.
Lemma ellSegs_len n : forall i segs ra rb ex ey cx cy s c es d al lx ly ldx ldy p,
  List.length (fst (ellSegs (E := E) n i segs ra rb ex ey cx cy s c es d al lx ly ldx ldy p)) = List.length p + n.
Proof.
  induction n as [|n IH]; intros; cbn [ellSegs]; [cbn; lia|].
  destruct (if (i =? segs)%Z then _ else _) as [px py]. destruct (ellipsePrime _ _ _ _ _) as [dx dy]. rewrite IH. unfold pCube. rewrite app_length. cbn. lia.
Qed.
Lemma arc_len n : arc_pieces n -> forall ps cx cy px py (p : path) p' l, addArc (E := E) ps cx cy px py p = Ret (p', l) -> List.length p' <= List.length p + (n + 4).
Proof.
  intros Hn ps cx cy px py p p' l. unfold addArc, obind. repeat (match goal with |- context [idx ps ?i] => destruct (idx ps i) end; [|discriminate..]).
  cbv zeta. destruct (ellipsePrime _ _ _ _ _) as [ldx ldy]. intros [= H]. assert (K : List.length p' = List.length (fst (p', l))) by reflexivity. rewrite <- H, ellSegs_len in K. rewrite K. clear K H.
  match goal with |- _ + Z.to_nat (f_to_int E (fdiv E (fabs E (adjustEta (fsub E (fatan2 E ?y2 ?x2) (fatan2 E ?y1 ?x1)) ?b1 ?b2 ?b3)) _) + 1) <= _ => specialize (Hn y1 x1 y2 x2 b1 b2 b3) end.
  unfold pieces in Hn. lia.
Qed.
Lemma arcSegs_len n : forall i m a r t d al s1 ldp p, List.length (arcSegs (E := E) n i m a r t d al s1 ldp p) = List.length p + n.
Proof. induction n as [|n IH]; intros; cbn [arcSegs]; [lia|]. rewrite IH. unfold aCube, pCube. rewrite app_length. cbn. lia. Qed.
Lemma gap_len n : corner_pieces n -> forall fuel m a t l (p : path) p', roundGap (E := E) fuel m a t l p = Ret p' -> List.length p' <= List.length p + (n + 2).
Proof.
  intros Hn fuel m a t l p p'. unfold roundGap, addCircArc, obind.
  match goal with |- context [raise_angle fuel (fatan2 E ?y2 ?x2) (fatan2 E ?y1 ?x1)] => specialize (Hn fuel y1 x1 y2 x2); destruct (raise_angle fuel (fatan2 E y2 x2) (fatan2 E y1 x1)) as [th|e| |]; [|discriminate..] end.
  specialize (Hn th eq_refl). cbv zeta. intros [= <-]. unfold aLine, pLine. rewrite app_length, arcSegs_len, app_length. unfold pieces in Hn. cbn [List.length ptAdd fst snd] in *. lia.
Qed.
Lemma rect_len n : corner_pieces n -> forall fuel x0 y0 x1 y1 rx ry rot (p : path) p', addRoundRect (E := E) fuel x0 y0 x1 y1 rx ry rot p = Ret p' -> List.length p' <= List.length p + 4 * (n + 4).
Proof.
  intros Hn fuel x0 y0 x1 y1 rx ry rot p p'. unfold addRoundRect. destruct (_ || _).
  - intros [= <-]. unfold addRect, aStart, aLine, pStart, pLine, pStop. rewrite !app_length. cbn. lia.
  - cbv zeta. unfold obind.
    repeat (match goal with |- match roundGap ?f ?m ?a ?t ?l ?p with _ => _ end = _ -> _ => let H := fresh in pose proof (gap_len n Hn f m a t l p) as H; destruct (roundGap f m a t l p); [specialize (H _ eq_refl)|discriminate..] end).
    intros [= <-]. unfold aStart, aLine, pStart, pLine, pStop in *. rewrite !app_length in *. cbn [List.length] in *. lia.
Qed.
Theorem size_of n : arc_pieces n -> corner_pieces n -> forall fuel mode toks tm s err log,
  Forall self_contained toks -> parse (E := E) fuel mode toks tm = PSvg s err log -> svg_ops s <= 4 * (n + 4) * doc_size toks.
Proof. intros H1 H2. apply size_bound; [lia|apply arc_len, H1|apply rect_len, H2]. Qed.
End Any.

(** ** Exact numbers *)
Section Real.
Context (O : ROracles).
Local Open Scope R_scope.
Notation RE := (RealEnv O).
Lemma two_pi_real : twoPi (E := RE) = 2 * PI. Proof. unfold twoPi. rewrite fnum_real. cbn. lra. Qed.
Lemma pieces_real (d : R) : - (2 * PI) <= d <= 2 * PI -> (pieces (E := RE) d <= 17)%nat.
Proof.
  intros H. unfold pieces, piOver8. rewrite fnum_real. pose proof PI_RGT_0. change (Z.to_nat (Ztrunc (Rabs d / (PI / IZR 8)) + 1) <= 17)%nat.
  assert (K : (Ztrunc (Rabs d / (PI / IZR 8)) <= 16)%Z); [|lia]. rewrite <- (Ztrunc_IZR 16). apply Ztrunc_le.
  assert (H1 : Rabs d <= 2 * PI) by (apply Rabs_le; lra). apply Rmult_le_reg_r with (PI / IZR 8); [lra|]. replace (Rabs d / (PI / IZR 8) * (PI / IZR 8)) with (Rabs d) by (field; lra). lra.
Qed.
Lemma arc_pieces_real : arc_pieces (E := RE) 17.
Proof.
  intros y1 x1 y2 x2 b1 b2 b3. apply pieces_real. change (fatan2 RE) with atan2. pose proof (atan2_range y1 x1). pose proof (atan2_range y2 x2). pose proof PI_RGT_0.
  unfold adjustEta. rewrite !two_pi_real, !fnum_real. set (d := fsub RE (atan2 y2 x2) (atan2 y1 x1)). assert (Hd : - (2 * PI) <= d <= 2 * PI) by (unfold d; cbn; lra). clearbody d.
  cbn [fltb fleb fadd fsub RealEnv]. destruct (xorb b1 b2), b3; repeat (match goal with |- context [Rlt_dec ?a ?b] => destruct (Rlt_dec a b) | |- context [Rle_dec ?a ?b] => destruct (Rle_dec a b) end; cbn [andb negb]); lra.
Qed.
Lemma raise_real fuel : forall (a b t : R), raise_angle (E := RE) fuel a b = Ret t -> (t = a /\ b <= a) \/ (b <= t < b + 2 * PI).
Proof.
  induction fuel as [|fuel IH]; intros a b t; cbn [raise_angle]; change (fltb RE a b) with (if Rlt_dec a b then true else false); destruct (Rlt_dec a b); try discriminate; try (intros [= <-]; left; split; [reflexivity|lra]).
  intros H. apply IH in H. change (fadd RE a (twoPi (E := RE))) with (a + twoPi (E := RE)) in H. rewrite two_pi_real in H. destruct H as [[-> H]|H]; right; lra.
Qed.
Lemma corner_pieces_real : corner_pieces (E := RE) 17.
Proof.
  intros fuel y1 x1 y2 x2 t H. apply raise_real in H. apply pieces_real. change (fatan2 RE) with atan2 in *. pose proof (atan2_range y1 x1). pose proof (atan2_range y2 x2). pose proof PI_RGT_0.
  change (fsub RE t (atan2 y1 x1)) with (t - atan2 y1 x1). destruct H as [[-> H]|H]; lra.
Qed.
End Real.

(** ** Binary64 *)
Section Float.
Local Open Scope R_scope.
Local Existing Instance ProofsFlocq.Hprec.
Local Existing Instance ProofsFlocq.Hmax.
Lemma sub_add x y : SFsub 53 1024 x y = SFadd 53 1024 x (SFopp y).
Proof.
  destruct x as [s| s| |s m e], y as [s'|s'| |s' m' e']; try reflexivity; cbn; try (destruct s, s'; reflexivity).
Qed.
Lemma div_round x y : valid x -> valid y -> finite x -> finite y -> val y <> 0 -> Rabs (rnd (val x / val y)) < bpow radix2 1024 ->
  finite (SFdiv 53 1024 x y) /\ val (SFdiv 53 1024 x y) = rnd (val x / val y).
Proof.
  intros [a ->]%of_valid [b ->]%of_valid Ha%finite_b Hb%finite_b. rewrite !SF2R_B2SF. intros H0 Hlt. rewrite div_equiv, SF2R_B2SF.
  pose proof (Bdiv_correct 53 1024 ProofsFlocq.Hprec ProofsFlocq.Hmax mode_NE a b H0) as H. cbn [round_mode] in H. rewrite Rlt_bool_true in H by exact Hlt.
  destruct H as (H1 & H2 & _). split; [|exact H1]. apply finite_b. rewrite H2. exact Ha.
Qed.
Lemma rnd_le x y : x <= y -> rnd x <= rnd y.
Proof. intros H. apply round_le; [apply (fexp_correct 53 1024), ProofsFlocq.Hprec|typeclasses eauto|exact H]. Qed.
Lemma rnd_int z : (Z.abs z < 2 ^ 53)%Z -> rnd (IZR z) = IZR z.
Proof. intros H. destruct (of_Z_val z H) as [_ <-]. apply round_generic; [typeclasses eauto|]. apply val_format, of_Z_valid. Qed.
Lemma rnd_range z x : (Z.abs z < 2 ^ 53)%Z -> - IZR z <= x <= IZR z -> - IZR z <= rnd x <= IZR z.
Proof.
  intros Hz H. rewrite <- (rnd_int z Hz) at 2. rewrite <- opp_IZR in *. rewrite <- (rnd_int (- z)) at 1 by lia. split; apply rnd_le; lra.
Qed.
Lemma small_ok z x : (Z.abs z < 2 ^ 53)%Z -> - IZR z <= rnd x <= IZR z -> Rabs (rnd x) < bpow radix2 1024.
Proof.
  intros Hz H. apply Rle_lt_trans with (IZR z). { apply Rabs_le, H. } rewrite <- (rnd_int z Hz) at 1. destruct (of_Z_val z Hz) as [_ K]. rewrite <- K.
  apply Rle_lt_trans with (Rabs (rnd (val (sf_of_Z z)))); [apply Rle_abs|]. rewrite round_generic; [apply val_lt, of_Z_valid|typeclasses eauto|apply val_format, of_Z_valid].
Qed.
(** not a number, or between -8 and 8 *)
Definition sm (x : sf) : Prop := x = S754_nan \/ (valid x /\ finite x /\ -8 <= val x <= 8).
Lemma opp_valid x : valid x -> valid (SFopp x). Proof. destruct x; auto. Qed.
Lemma opp_finite x : finite x -> finite (SFopp x). Proof. destruct x; auto. Qed.
Lemma opp_val x : val (SFopp x) = - val x.
Proof. destruct x as [s|s| |s m e]; cbn; try lra. destruct s; cbn; rewrite <- F2R_Zopp; reflexivity. Qed.
Lemma sm_add x y : valid x -> valid y -> finite x -> finite y -> -8 <= val x + val y <= 8 -> sm (SFadd 53 1024 x y).
Proof.
  intros Vx Vy Fx Fy H. right. assert (K : - IZR 8 <= rnd (val x + val y) <= IZR 8) by (apply rnd_range; [reflexivity|lra]).
  destruct (add_round x y Vx Vy Fx Fy (small_ok 8 _ eq_refl K)) as [K1 K2]. split; [apply add_valid; assumption|]. split; [exact K1|]. rewrite K2. lra.
Qed.
Lemma sm_sub x y : valid x -> valid y -> finite x -> finite y -> -8 <= val x - val y <= 8 -> sm (SFsub 53 1024 x y).
Proof. intros. rewrite sub_add. apply sm_add; [assumption|apply opp_valid; assumption|assumption|apply opp_finite; assumption|]. rewrite opp_val. lra. Qed.
Lemma add_nan y : SFadd 53 1024 S754_nan y = S754_nan. Proof. destruct y; reflexivity. Qed.
Lemma sub_nan y : SFsub 53 1024 S754_nan y = S754_nan. Proof. destruct y; reflexivity. Qed.
Lemma nsub x : SFsub 53 1024 x S754_nan = S754_nan. Proof. destruct x; reflexivity. Qed.
Lemma pi64_val : 3 <= val pi64 <= 4.
Proof. unfold pi64, SF2R, F2R. cbn [Fnum Fexp cond_Zopp bpow radix2 radix_val]. cbn. lra. Qed.
Lemma two_pi64_val : 6 <= val two_pi64 <= 7.
Proof. unfold two_pi64, SF2R, F2R. cbn. lra. Qed.
Definition eighth64 : sf := S754_finite false 7074237752028440 (-54).
Lemma eighth_eq O : piOver8 (E := F64 O) = eighth64.
Proof. unfold piOver8. rewrite pi64_eq. change (SFdiv 53 1024 pi64 (sf_of_Z 8) = eighth64). vm_compute. reflexivity. Qed.
Lemma eighth_val : 8 / 21 <= val eighth64.
Proof. unfold eighth64, SF2R, F2R. cbn. lra. Qed.
Lemma pieces_F64 O x : nan_low O -> sm x -> (pieces (E := F64 O) x <= 22)%nat.
Proof.
  intros Hn Hx. unfold pieces. rewrite eighth_eq. change (Z.to_nat (sf_to_int64 O (SFdiv 53 1024 (SFabs x) eighth64) + 1) <= 22)%nat.
  destruct Hx as [->|(V & Fi & H)]; [change (SFdiv 53 1024 (SFabs S754_nan) eighth64) with S754_nan; unfold nan_low in Hn; lia|].
  assert (Va : valid (SFabs x)) by (destruct x; exact V). assert (Fa : finite (SFabs x)) by (destruct x; exact Fi).
  assert (Ha : 0 <= val (SFabs x) <= 8).
  { assert (Hab : val (SFabs x) = Rabs (val x)). { destruct x as [s|s| |s m e]; cbn; try (rewrite Rabs_R0; reflexivity). rewrite <- F2R_Zabs. destruct s; reflexivity. }
    rewrite Hab. split; [apply Rabs_pos|]. apply Rabs_le. lra. }
  pose proof eighth_val as He. assert (Ve : valid eighth64) by reflexivity.
  assert (Hq : 0 <= val (SFabs x) / val eighth64 <= 21).
  { split. { apply Rmult_le_pos; [lra|]. apply Rlt_le, Rinv_0_lt_compat. lra. } apply Rmult_le_reg_r with (val eighth64); [lra|]. replace (val (SFabs x) / val eighth64 * val eighth64) with (val (SFabs x)) by (field; lra). lra. }
  assert (K : - IZR 21 <= rnd (val (SFabs x) / val eighth64) <= IZR 21) by (apply rnd_range; [reflexivity|lra]).
  destruct (div_round (SFabs x) eighth64 Va Ve Fa I ltac:(lra) (small_ok 21 _ eq_refl K)) as [K1 K2].
  assert (Hz : (- 21 <= Ztrunc (val (SFdiv 53 1024 (SFabs x) eighth64)) <= 21)%Z). { rewrite K2. split; [rewrite <- (Ztrunc_IZR (-21))|rewrite <- (Ztrunc_IZR 21)]; apply Ztrunc_le; lra. }
  rewrite (to_int_val O _ _ K1 eq_refl) by lia. lia.
Qed.
Lemma ltb_zero x : valid x -> finite x -> SFltb x (sf_of_Z 0) = false -> 0 <= val x.
Proof.
  intros V Fi H. assert (V0 : valid (sf_of_Z 0)) by reflexivity. assert (F0 : finite (sf_of_Z 0)) by exact I. assert (Z0 : val (sf_of_Z 0) = 0) by reflexivity. rewrite <- Z0.
  destruct (of_valid x V) as [a ->]. destruct (of_valid _ V0) as [b Hb]. rewrite Hb in *. rewrite !SF2R_B2SF. apply finite_b in Fi, F0.
  pose proof (Bltb_correct 53 1024 a b Fi F0) as K. unfold Bltb in K. rewrite K in H. destruct (Rlt_bool_spec (B2R a) (B2R b)); [discriminate|lra].
Qed.
Lemma sm_adjust O x b1 b2 b3 : sm x -> sm (adjustEta (E := F64 O) x b1 b2 b3).
Proof.
  intros Hx. unfold adjustEta. rewrite two_pi64_eq. change (fnum (F64 O) 0) with (sf_of_Z 0). change (fltb (F64 O)) with SFltb. change (fleb (F64 O)) with SFleb.
  change (fadd (F64 O)) with (SFadd 53 1024). change (fsub (F64 O)) with (SFsub 53 1024). pose proof two_pi64_val as Ht. assert (Vt : valid two_pi64) by reflexivity.
  assert (V0 : valid (sf_of_Z 0)) by reflexivity. assert (F0 : finite (sf_of_Z 0)) by exact I. assert (Z0 : val (sf_of_Z 0) = 0) by reflexivity.
  set (d1 := if xorb b1 b2 then _ else _). assert (H1 : sm d1).
  { unfold d1. destruct (xorb b1 b2); [|exact Hx]. destruct Hx as [->|(V & Fi & H)]; [left; cbn; reflexivity|]. destruct (SFltb x (sf_of_Z 0)) eqn:Hl.
    - apply ltb_val in Hl; try assumption. apply sm_add; try assumption; try exact I; lra.
    - apply ltb_zero in Hl; try assumption. apply sm_sub; try assumption; try exact I; lra. }
  clearbody d1. clear Hx. destruct H1 as [->|(V & Fi & H)]. { left. cbn. reflexivity. }
  destruct (SFltb d1 (sf_of_Z 0) && b3) eqn:E1.
  - apply andb_true_iff in E1. destruct E1 as [Hl _]. apply ltb_val in Hl; try assumption. apply sm_add; try assumption; try exact I; lra.
  - destruct (SFleb (sf_of_Z 0) d1 && negb b3) eqn:E2; [|right; auto]. apply andb_true_iff in E2. destruct E2 as [Hl _]. apply leb_val in Hl; try assumption. apply sm_sub; try assumption; try exact I; lra.
Qed.
Context (O : Oracles) (HO : angles O) (HN : nan_low O).
Lemma angle_facts y x : o_atan2 O y x = S754_nan \/ (valid (o_atan2 O y x) /\ finite (o_atan2 O y x) /\ - val pi64 <= val (o_atan2 O y x) <= val pi64).
Proof.
  destruct (HO y x) as [H|(V & L & U)]; [left; exact H|right]. rewrite pi64_eq in *. pose proof (within _ V L U) as Fi. split; [exact V|]. split; [exact Fi|].
  apply leb_val in L, U; try assumption; try exact I; try reflexivity. rewrite opp_val in L. lra.
Qed.
Lemma arc_pieces_F64 : arc_pieces (E := F64 O) 22.
Proof.
  intros y1 x1 y2 x2 b1 b2 b3. apply (pieces_F64 O _ HN), sm_adjust. change (sm (SFsub 53 1024 (o_atan2 O y2 x2) (o_atan2 O y1 x1))). pose proof pi64_val.
  destruct (angle_facts y1 x1) as [->|(V1 & F1 & H1)]; [left; apply nsub|]. destruct (angle_facts y2 x2) as [->|(V2 & F2 & H2)]; [left; apply sub_nan|]. apply sm_sub; try assumption. lra.
Qed.
Lemma corner_pieces_F64 : corner_pieces (E := F64 O) 22.
Proof.
  intros fuel y1 x1 y2 x2 t H. apply (pieces_F64 O _ HN). change (fatan2 (F64 O)) with (o_atan2 O) in *. change (sm (SFsub 53 1024 t (o_atan2 O y1 x1))).
  destruct (angle_facts y1 x1) as [->|(V1 & F1 & H1)]; [left; apply nsub|]. destruct (angle_facts y2 x2) as [E2|(V2 & F2 & H2)].
  { rewrite E2 in H. destruct fuel; cbn in H; injection H as <-; left; apply sub_nan. }
  set (a := o_atan2 O y2 x2) in *. set (b := o_atan2 O y1 x1) in *. clearbody a b. pose proof pi64_val. pose proof two_pi64_val.
  assert (Et : val two_pi64 = 2 * val pi64). { unfold pi64, two_pi64, SF2R, F2R. cbn. lra. }
  destruct fuel as [|fuel]; cbn [raise_angle] in H; change (fltb (F64 O)) with SFltb in H; destruct (SFltb a b) eqn:Hl; try discriminate; try (injection H as <-; apply sm_sub; try assumption; lra).
  rewrite two_pi64_eq in H. change (fadd (F64 O) a two_pi64) with (SFadd 53 1024 a two_pi64) in H.
  apply ltb_val in Hl; try assumption. assert (Vt : valid two_pi64) by reflexivity. assert (Vp : valid pi64) by reflexivity.
  assert (K : - IZR 16 <= rnd (val a + val two_pi64) <= IZR 16) by (apply rnd_range; [reflexivity|lra]).
  destruct (add_round a two_pi64 V2 Vt F2 I (small_ok 16 _ eq_refl K)) as [K1 K2].
  assert (R1 : val pi64 <= rnd (val a + val two_pi64)).
  { rewrite <- (round_generic radix2 fexp64 ZnearestE (val pi64)) at 1 by apply val_format, Vp. apply rnd_le. lra. }
  assert (R2 : rnd (val a + val two_pi64) <= val b + 8).
  { set (k := Zceil (val b + val two_pi64)). pose proof (Zceil_ub (val b + val two_pi64)) as U. pose proof (Zceil_lb (val b + val two_pi64)) as L. fold k in U, L.
    apply Rle_trans with (IZR k); [|lra]. rewrite <- (rnd_int k); [apply rnd_le; lra|]. assert (k < 20)%Z by (apply lt_IZR; lra). assert (-20 < k)%Z by (apply lt_IZR; lra). lia. }
  assert (Hs : SFltb (SFadd 53 1024 a two_pi64) b = false).
  { destruct (SFltb _ b) eqn:Hb; [|reflexivity]. apply ltb_val in Hb; [|apply add_valid; assumption|assumption..]. rewrite K2 in Hb. lra. }
  assert (Ht : t = SFadd 53 1024 a two_pi64). { destruct fuel; cbn [raise_angle] in H; change (fltb (F64 O)) with SFltb in H; rewrite Hs in H; injection H as <-; reflexivity. }
  rewrite Ht. apply sm_sub; try assumption; [apply add_valid; assumption|]. rewrite K2. lra.
Qed.
End Float.

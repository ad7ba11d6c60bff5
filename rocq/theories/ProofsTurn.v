(** * ProofsTurn: transform attributes in float64 *)
From Coq Require Import ZArith Lia Reals Lra Psatz Floats.SpecFloat.
From Flocq Require Import Core.Core IEEE754.BinarySingleNaN.
From Verif Require Import F64 RealEnv SpecTurn ProofsStyle ProofsMatrix ProofsSize3 ProofsArc64 ProofsDec ProofsTarget ProofsScale ProofsClose ProofsRead ProofsReadPath ProofsMeasure ProofsCircle ProofsFlocq.
Local Open Scope R_scope.
Local Existing Instance ProofsFlocq.Hprec.
Local Existing Instance ProofsFlocq.Hmax.
Local Notation pow := (bpow radix2).

(** ** Relative errors: [x] stands for [r], which is at most [Y], up to [e] of [Y] *)
Definition rel (Y e : R) (x : sf) (r : R) : Prop := finite64 x /\ Rabs (val x - r) <= e * Y /\ Rabs r <= Y.
Lemma rel_le Y Y' e e' x r : 0 <= e <= e' -> 0 <= Y <= Y' -> rel Y e x r -> rel Y' e' x r.
Proof. intros He HY (H1 & H2 & H3). split; [exact H1|]. split; [|lra]. apply Rle_trans with (1 := H2). apply Rmult_le_compat; lra. Qed.
Lemma rnd_rel z Y : 1 <= Y -> Rabs z <= Y -> Rabs (rnd z - z) <= / 2 ^ 53 * Y.
Proof.
  intros HY H. eapply Rle_trans; [apply error_le_half_ulp; typeclasses eauto|].
  apply Rle_trans with (/ 2 * ulp radix2 fexp64 Y).
  - apply Rmult_le_compat_l; [lra|]. apply ulp_le; [typeclasses eauto|typeclasses eauto|]. rewrite (Rabs_pos_eq Y) by lra. exact H.
  - replace (/ 2 ^ 53 * Y) with (/ 2 * (Rabs Y * pow (1 - 53))) by (rewrite (Rabs_pos_eq Y) by lra; change (pow (1 - 53)) with (/ 4503599627370496); lra).
    apply Rmult_le_compat_l; [lra|]. apply (ulp_FLT_le radix2 (-1074) 53). rewrite (Rabs_pos_eq Y) by lra. apply Rle_trans with (2 := HY). change 1 with (pow 0). apply bpow_le. lia.
Qed.
Lemma rnd_fits z Y : 1 <= Y -> Y <= pow 900 -> Rabs z <= Y -> Rabs (rnd z) < pow 1024.
Proof.
  intros H1 H2 H3. pose proof (rnd_rel z Y H1 H3) as H. pose proof (Rabs_triang (rnd z - z) z) as T. replace (rnd z - z + z) with (rnd z) in T by ring.
  assert (/ 2 ^ 53 * Y <= 1 * Y) by (apply Rmult_le_compat_r; lra). assert (B : pow 901 <= pow 1000) by (apply bpow_le; lia). assert (C : pow 1000 < pow 1024) by (apply bpow_lt; lia).
  change 901%Z with (1 + 900)%Z in B. rewrite bpow_plus in B. change (pow 1) with 2 in B. lra.
Qed.
Lemma rel_val Y e x r : 0 <= Y -> 0 <= e <= 1 -> rel Y e x r -> Rabs (val x) <= 2 * Y.
Proof. intros HY He (_ & H2 & H3). pose proof (Rabs_triang (val x - r) r) as T. replace (val x - r + r) with (val x) in T by ring. assert (e * Y <= 1 * Y) by (apply Rmult_le_compat_r; lra). lra. Qed.
Lemma rel_mul G B e d x y r s : 1 <= G -> 1 <= B -> G * B <= pow 800 -> 0 <= e <= 1 -> 0 <= d <= 1 -> rel G e x r -> rel B d y s ->
  rel (G * B) (e + 2 * d + / 2 ^ 50) (SFmul 53 1024 x y) (r * s).
Proof.
  intros HG HB HGB He Hd Hx Hy. pose proof (rel_val G e x r ltac:(lra) He Hx) as Bx. pose proof (rel_val B d y s ltac:(lra) Hd Hy) as By.
  destruct Hx as ([Vx Fx] & Ex & Rx), Hy as ([Vy Fy] & Ey & Ry).
  assert (GB : 1 <= G * B) by (apply Rle_trans with (1 * 1); [lra|apply Rmult_le_compat; lra]).
  assert (Hz : Rabs (val x * val y) <= 4 * (G * B)). { rewrite Rabs_mult. replace (4 * (G * B)) with (2 * G * (2 * B)) by ring. apply Rmult_le_compat; try apply Rabs_pos; assumption. }
  assert (H4 : 4 * (G * B) <= pow 900). { apply Rle_trans with (pow 2 * pow 800); [change (pow 2) with 4; lra|]. rewrite <- bpow_plus. apply bpow_le. lia. }
  destruct (mul_round x y Vx Vy Fx Fy) as [K1 K2]; [apply rnd_fits with (4 * (G * B)); lra|]. split; [split; [now apply mul_valid|exact K1]|]. split; [|rewrite Rabs_mult; apply Rmult_le_compat; try apply Rabs_pos; assumption].
  rewrite K2. pose proof (rnd_rel _ (4 * (G * B)) ltac:(lra) Hz) as H0.
  replace (rnd (val x * val y) - r * s) with ((rnd (val x * val y) - val x * val y) + ((val x - r) * s + val x * (val y - s))) by ring.
  assert (H1 : Rabs ((val x - r) * s) <= e * G * B). { rewrite Rabs_mult. apply Rmult_le_compat; try apply Rabs_pos; assumption. }
  assert (H2 : Rabs (val x * (val y - s)) <= 2 * G * (d * B)). { rewrite Rabs_mult. apply Rmult_le_compat; try apply Rabs_pos; assumption. }
  pose proof (Rabs_triang (rnd (val x * val y) - val x * val y) ((val x - r) * s + val x * (val y - s))). pose proof (Rabs_triang ((val x - r) * s) (val x * (val y - s))).
  replace ((e + 2 * d + / 2 ^ 50) * (G * B)) with (e * G * B + 2 * G * (d * B) + / 2 ^ 50 * (G * B)) by ring. lra.
Qed.
Lemma rel_add G H e d x y r s : 1 <= G -> 0 <= H -> G + H <= pow 800 -> 0 <= e <= 1 -> 0 <= d <= e -> rel G e x r -> rel H d y s ->
  rel (G + H) (e + / 2 ^ 50) (SFadd 53 1024 x y) (r + s).
Proof.
  intros HG HH HGH He Hd Hx Hy. pose proof (rel_val G e x r ltac:(lra) He Hx) as Bx. pose proof (rel_val H d y s ltac:(lra) ltac:(lra) Hy) as By.
  destruct Hx as ([Vx Fx] & Ex & Rx), Hy as ([Vy Fy] & Ey & Ry).
  assert (Hz : Rabs (val x + val y) <= 2 * (G + H)) by (pose proof (Rabs_triang (val x) (val y)); lra).
  assert (H4 : 2 * (G + H) <= pow 900). { apply Rle_trans with (pow 1 * pow 800); [change (pow 1) with 2; lra|]. rewrite <- bpow_plus. apply bpow_le. lia. }
  destruct (add_round x y Vx Vy Fx Fy) as [K1 K2]; [apply rnd_fits with (2 * (G + H)); lra|]. split; [split; [now apply add_valid|exact K1]|]. split; [|pose proof (Rabs_triang r s); lra].
  rewrite K2. pose proof (rnd_rel _ (2 * (G + H)) ltac:(lra) Hz) as H0.
  replace (rnd (val x + val y) - (r + s)) with ((rnd (val x + val y) - (val x + val y)) + ((val x - r) + (val y - s))) by ring.
  pose proof (Rabs_triang (rnd (val x + val y) - (val x + val y)) ((val x - r) + (val y - s))). pose proof (Rabs_triang (val x - r) (val y - s)).
  assert (d * H <= e * H) by (apply Rmult_le_compat_r; lra). lra.
Qed.

Section Turn.
Context (O : Oracles) (Q : ROracles) (HF : fair_trig O).
Notation E := (F64 O).
Notation X := (RealEnv Q).
Definition mrel (G e : R) (m : matrix E) (m' : matrix X) : Prop :=
  rel G e (mA m) (mA m') /\ rel G e (mB m) (mB m') /\ rel G e (mC m) (mC m') /\ rel G e (mD m) (mD m') /\ rel G e (mE m) (mE m') /\ rel G e (mF m) (mF m').
Lemma mrel_le G G' e e' m m' : 0 <= e <= e' -> 0 <= G <= G' -> mrel G e m m' -> mrel G' e' m m'.
Proof using. intros He HG (H1 & H2 & H3 & H4 & H5 & H6). pose proof (fun x r => rel_le G G' e e' x r He HG) as K. exact (conj (K _ _ H1) (conj (K _ _ H2) (conj (K _ _ H3) (conj (K _ _ H4) (conj (K _ _ H5) (K _ _ H6)))))). Qed.
Lemma mrel_mult G B e d a b a' b' : 1 <= G -> 1 <= B -> 3 * (G * B) <= pow 800 -> 0 <= e <= 1 / 2 -> 0 <= d <= / 2 ^ 10 -> mrel G e a a' -> mrel B d b b' ->
  mrel (G * (3 * B)) (e + 2 * d + / 2 ^ 48) (mMult a b) (mMult a' b').
Proof using.
  intros HG HB HGB He Hd (A1 & A2 & A3 & A4 & A5 & A6) (B1 & B2 & B3 & B4 & B5 & B6).
  assert (GB : 1 <= G * B) by (apply Rle_trans with (1 * 1); [lra|apply Rmult_le_compat; lra]).
  assert (M : forall x y r s, rel G e x r -> rel B d y s -> rel (G * B) (e + 2 * d + / 2 ^ 50) (SFmul 53 1024 x y) (r * s)) by (intros; apply rel_mul; try assumption; lra).
  assert (S2 : forall x y u v r s p q, rel G e x r -> rel B d y s -> rel G e u p -> rel B d v q ->
    rel (2 * (G * B)) (e + 2 * d + / 2 ^ 49) (SFadd 53 1024 (SFmul 53 1024 x y) (SFmul 53 1024 u v)) (r * s + p * q)).
  { intros. replace (2 * (G * B)) with (G * B + G * B) by ring. replace (e + 2 * d + / 2 ^ 49) with (e + 2 * d + / 2 ^ 50 + / 2 ^ 50) by lra. apply rel_add with (d := e + 2 * d + / 2 ^ 50); try lra; apply M; assumption. }
  assert (S2' : forall x y u v r s p q, rel G e x r -> rel B d y s -> rel G e u p -> rel B d v q ->
    rel (G * (3 * B)) (e + 2 * d + / 2 ^ 48) (SFadd 53 1024 (SFmul 53 1024 x y) (SFmul 53 1024 u v)) (r * s + p * q)).
  { intros. eapply rel_le; [| |apply S2; eassumption]; lra. }
  assert (S3 : forall x y u v i j r s p q k l, rel G e x r -> rel B d y s -> rel G e u p -> rel B d v q -> rel G e i k -> rel B d j l ->
    rel (G * (3 * B)) (e + 2 * d + / 2 ^ 48) (SFadd 53 1024 (SFadd 53 1024 (SFmul 53 1024 x y) (SFmul 53 1024 u v)) (SFmul 53 1024 i j)) (r * s + p * q + k * l)).
  { intros. replace (G * (3 * B)) with (2 * (G * B) + G * B) by ring.
    apply rel_le with (Y := 2 * (G * B) + G * B) (e := e + 2 * d + / 2 ^ 49 + / 2 ^ 50); [lra|lra|]. apply rel_add with (d := e + 2 * d + / 2 ^ 50); try lra; [apply S2|apply M]; assumption. }
  unfold mMult. cbn [mA mB mC mD mE mF]. split; [apply S2'; assumption|]. split; [apply S2'; assumption|]. split; [apply S2'; assumption|]. split; [apply S2'; assumption|]. split; [apply S3; assumption|apply S3; assumption].
Qed.

(** ** One function *)
Notation rd := (ProofsReadPath.rd O Q).
Lemma rd_rel L w v : 1 <= L -> Rabs v <= L -> rd w v -> rel L (/ 2 ^ 53) w v.
Proof using. intros HL Hv (H1 & H2 & H3). split; [exact H1|]. split; [|exact Hv]. rewrite H2. now apply rnd_rel. Qed.
Lemma zero_rel L d : 0 <= L -> 0 <= d -> rel L d (fnum E 0) (fnum X 0).
Proof using.
  intros HL Hd. rewrite !fnum_real. split; [split; [reflexivity|exact I]|]. change (val (fnum E 0)) with 0. rewrite Rminus_0_r, Rabs_R0. split; [apply Rmult_le_pos; lra|lra].
Qed.
Lemma one_rel L d : 1 <= L -> 0 <= d -> rel L d (fnum E 1) (fnum X 1).
Proof using.
  intros HL Hd. rewrite !fnum_real. destruct (num_val O 1 ltac:(lia)) as [F1 V1]. split; [exact F1|]. rewrite V1. replace (1 - 1) with 0 by ring. rewrite Rabs_R0, Rabs_pos_eq by lra. split; [apply Rmult_le_pos; lra|lra].
Qed.
Lemma radians_near w v : rd w v -> Rabs v <= 450 -> finite64 (radians E w) /\ Rabs (val (radians E w) - rad v) <= / 2 ^ 45.
Proof using.
  intros (H1 & H2 & _) Hv. assert (V9 : Rabs v <= pow 9) by (change (pow 9) with 512; lra).
  assert (A : ap 9 (2 ^ 56) w v).
  { split; [split; [apply H1|split; [apply H1|]]|split; [|exact V9]]; rewrite H2; [|exact (rnd_err 9 v ltac:(lia) V9)]. apply rnd_up; [lia|exact V9]. }
  pose proof (ap_mul 9 2 _ _ _ _ _ _ ltac:(lia) ltac:(lia) ltac:(lia) A pi_ap) as B.
  destruct (num_val O 180 ltac:(lia)) as [F1 V1].
  assert (C : ap 4 (2 ^ 54 + 2 ^ 51) (radians E w) (v * PI / 180)).
  { apply (ap_over 11 4 (2 ^ 9 * 2 ^ 52 + 2 ^ 2 * 2 ^ 56 + 2 ^ (9 + 2 + 47)) (2 ^ 54) _ _ _ 180); [lia|exact F1|exact V1|lra|change (pow 11) with 2048; change (pow 4) with 16; lra| |exact B].
    rewrite <- mult_IZR. apply IZR_le. vm_compute. discriminate. }
  destruct C as ((V & Fi & _) & C & _). split; [split; assumption|]. apply Rle_trans with (1 := C). apply Rle_trans with (IZR (2 ^ 55) * u100).
  - apply Rmult_le_compat_r; [apply Rlt_le, u_pos|]. apply IZR_le. vm_compute. discriminate.
  - rewrite pow_Z by lia. rewrite <- bpow_plus. change (pow (55 + -100)) with (/ 35184372088832). lra.
Qed.
Lemma rad_le v b : Rabs v <= b -> Rabs (rad v) <= b * (3141592653589794 / 10 ^ 15) / 180.
Proof using.
  intros H. pose proof pi_bounds. assert (0 <= b) by (pose proof (Rabs_pos v); lra). unfold rad, Rdiv. rewrite !Rabs_mult, (Rabs_pos_eq PI) by lra. rewrite (Rabs_pos_eq (/ 180)) by lra.
  apply Rmult_le_compat_r; [lra|]. apply Rmult_le_compat; try lra. apply Rabs_pos.
Qed.
Lemma angle_near w v : rd w v -> Rabs v <= 450 -> rel 1 (/ 2 ^ 39) (fsin E (radians E w)) (sin (rad v)) /\ rel 1 (/ 2 ^ 39) (fcos E (radians E w)) (cos (rad v)).
Proof using HF.
  intros H Hv. destruct (radians_near w v H Hv) as [K1 K2]. pose proof (rad_le v 450 Hv) as B.
  assert (B8 : Rabs (val (radians E w)) <= 8). { pose proof (Rabs_triang (val (radians E w) - rad v) (rad v)) as T. replace (val (radians E w) - rad v + rad v) with (val (radians E w)) in T by ring. lra. }
  destruct (fair_sin O HF _ K1 B8) as [S1 S2]. destruct (fair_cos O HF _ K1 B8) as [C1 C2].
  pose proof (sin_lip (val (radians E w)) (rad v)) as L1. pose proof (cos_lip (val (radians E w)) (rad v)) as L2.
  pose proof (SIN_bound (rad v)). pose proof (COS_bound (rad v)). split.
  - split; [exact S1|]. split; [|apply Rabs_le; lra]. change (fsin E (radians E w)) with (o_sin O (radians E w)).
    replace (val (o_sin O (radians E w)) - sin (rad v)) with ((val (o_sin O (radians E w)) - sin (val (radians E w))) + (sin (val (radians E w)) - sin (rad v))) by ring.
    eapply Rle_trans; [apply Rabs_triang|]. lra.
  - split; [exact C1|]. split; [|apply Rabs_le; lra]. change (fcos E (radians E w)) with (o_cos O (radians E w)).
    replace (val (o_cos O (radians E w)) - cos (rad v)) with ((val (o_cos O (radians E w)) - cos (val (radians E w))) + (cos (val (radians E w)) - cos (rad v))) by ring.
    eapply Rle_trans; [apply Rabs_triang|]. lra.
Qed.
Lemma tan_one v : Rabs v <= 45 -> Rabs (tan (rad v)) <= 1.
Proof using.
  intros H. apply Rabs_le_inv in H. pose proof PI_RGT_0 as P. assert (T : tan (PI / 4) = 1) by apply tan_PI4.
  assert (L : rad v <= PI / 4). { unfold rad. apply Rle_trans with (45 * PI / 180); [|lra]. unfold Rdiv. apply Rmult_le_compat_r; [lra|]. apply Rmult_le_compat_r; lra. }
  assert (G : - (PI / 4) <= rad v). { unfold rad. apply Rle_trans with (- 45 * PI / 180); [lra|]. unfold Rdiv. apply Rmult_le_compat_r; [lra|]. apply Rmult_le_compat_r; lra. }
  assert (M : forall a b, - (PI / 2) < a -> b < PI / 2 -> a <= b -> tan a <= tan b). { intros a b Ha Hb [Hab| ->]; [left; apply tan_increasing; lra|right; reflexivity]. }
  apply Rabs_le. split.
  - rewrite <- T, <- tan_neg. apply M; lra.
  - rewrite <- T. apply M; lra.
Qed.
Lemma slant_near w v : rd w v -> Rabs v <= 45 -> rel 1 (/ 2 ^ 39) (ftan E (radians E w)) (tan (rad v)).
Proof using HF.
  intros H Hv. destruct (radians_near w v H ltac:(lra)) as [K1 K2]. pose proof (rad_le v 45 Hv) as B.
  assert (B1 : Rabs (val (radians E w)) <= 1). { pose proof (Rabs_triang (val (radians E w) - rad v) (rad v)) as T. replace (val (radians E w) - rad v + rad v) with (val (radians E w)) in T by ring. lra. }
  destruct (fair_tan O HF _ K1 B1) as [S1 S2]. pose proof (tan_lip (val (radians E w)) (rad v) B1 ltac:(lra)) as L1.
  split; [exact S1|]. split; [|apply tan_one, Hv]. change (ftan E (radians E w)) with (o_tan O (radians E w)).
  replace (val (o_tan O (radians E w)) - tan (rad v)) with ((val (o_tan O (radians E w)) - tan (val (radians E w))) + (tan (val (radians E w)) - tan (rad v))) by ring.
  eapply Rle_trans; [apply Rabs_triang|]. lra.
Qed.
Inductive alike_fun : tfun E -> tfun X -> Prop :=
| af_translate x y x' y' : rd x x' -> rd y y' -> alike_fun (Translate E x y) (Translate X x' y')
| af_scale x y x' y' : rd x x' -> rd y y' -> alike_fun (Scale E x y) (Scale X x' y')
| af_rotate a a' : rd a a' -> alike_fun (Rotate E a) (Rotate X a')
| af_skewx a a' : rd a a' -> alike_fun (SkewX E a) (SkewX X a')
| af_skewy a a' : rd a a' -> alike_fun (SkewY E a) (SkewY X a')
| af_matrix m m' : rd (mA m) (mA m') -> rd (mB m) (mB m') -> rd (mC m) (mC m') -> rd (mD m) (mD m') -> rd (mE m) (mE m') -> rd (mF m) (mF m') ->
    alike_fun (MatrixFn E m) (MatrixFn X m').
Lemma largest_one l : 1 <= largest l.
Proof using. induction l as [|x l IH]; cbn [largest fold_right]; [lra|]. apply Rle_trans with (1 := IH), Rmax_r. Qed.
Lemma largest_in x l : List.In x l -> Rabs x <= largest l.
Proof using. induction l as [|y l IH]; intros []; cbn [largest fold_right]; [subst; apply Rmax_l|]. apply Rle_trans with (largest l); [now apply IH|apply Rmax_r]. Qed.
Lemma growth_one f : 1 <= growth (Q := Q) f.
Proof using. destruct f; cbn [growth]; try lra; match goal with |- context [largest ?l] => pose proof (largest_one l) end; lra. Qed.
Lemma turn_step G e m m' f f' : 1 <= G -> 0 <= e <= 1 / 2 -> G * growth f' <= pow 700 -> mrel G e m m' -> alike_fun f f' -> measured f' ->
  mrel (G * growth f') (e + / 2 ^ 37) (tfun_apply E m f) (tfun_apply X m' f').
Proof using HF.
  intros HG He Hfit Hm Hf Hk. assert (P : pow 700 <= pow 800) by (apply bpow_le; lia).
  assert (MU : forall B b b', 1 <= B -> G * (3 * B) <= pow 700 -> mrel B (/ 2 ^ 39) b b' -> mrel (G * (3 * B)) (e + / 2 ^ 37) (mMult m b) (mMult m' b')).
  { intros B b b' HB HGB Hb. apply mrel_le with (G := G * (3 * B)) (e := e + 2 * / 2 ^ 39 + / 2 ^ 48); [lra|split; [apply Rmult_le_pos; lra|lra]|]. apply mrel_mult; try assumption; lra. }
  destruct Hf as [x y x' y' Hx Hy|x y x' y' Hx Hy|a a' Ha|a a' Ha|a a' Ha|b b' H1 H2 H3 H4 H5 H6]; cbn [growth tfun_apply] in *.
  - pose proof (largest_one [x'; y']) as L1. assert (Lx : Rabs x' <= largest [x'; y']) by (apply largest_in; cbn; auto). assert (Ly : Rabs y' <= largest [x'; y']) by (apply largest_in; cbn; auto).
    set (L := largest [x'; y']) in *. clearbody L. assert (GL : G + L <= G * (1 + L)). { rewrite Rmult_plus_distr_l, Rmult_1_r. apply Rplus_le_compat_l. rewrite <- (Rmult_1_l L) at 1. apply Rmult_le_compat_r; lra. }
    assert (K : forall u r z s, rel G e u r -> rd z s -> Rabs s <= L -> rel (G * (1 + L)) (e + / 2 ^ 37) (SFadd 53 1024 u z) (r + s)).
    { intros u r z s Hu Hz Hs. apply rel_le with (Y := G + L) (e := e + / 2 ^ 53 + / 2 ^ 50); [lra|lra|]. apply rel_add with (d := / 2 ^ 53); try lra; [|apply rd_rel; lra || assumption]. revert Hu. apply rel_le; lra. }
    destruct Hm as (M1 & M2 & M3 & M4 & M5 & M6). pose proof (fun u r => rel_le G (G * (1 + L)) e (e + / 2 ^ 37) u r ltac:(lra) ltac:(lra)) as W.
    exact (conj (W _ _ M1) (conj (W _ _ M2) (conj (W _ _ M3) (conj (W _ _ M4) (conj (K _ _ _ _ M5 Hx Lx) (K _ _ _ _ M6 Hy Ly)))))).
  - pose proof (largest_one [x'; y']) as L1. assert (Lx : Rabs x' <= largest [x'; y']) by (apply largest_in; cbn; auto). assert (Ly : Rabs y' <= largest [x'; y']) by (apply largest_in; cbn; auto).
    set (L := largest [x'; y']) in *. clearbody L.
    assert (K : forall u r z s, rel G e u r -> rd z s -> Rabs s <= L -> rel (G * L) (e + / 2 ^ 37) (SFmul 53 1024 u z) (r * s)).
    { intros u r z s Hu Hz Hs. apply rel_le with (Y := G * L) (e := e + 2 * / 2 ^ 53 + / 2 ^ 50); [lra|split; [apply Rmult_le_pos; lra|lra]|]. apply rel_mul; try lra; [exact Hu|apply rd_rel; lra || assumption]. }
    destruct Hm as (M1 & M2 & M3 & M4 & M5 & M6).
    exact (conj (K _ _ _ _ M1 Hx Lx) (conj (K _ _ _ _ M2 Hy Ly) (conj (K _ _ _ _ M3 Hx Lx) (conj (K _ _ _ _ M4 Hy Ly) (conj (K _ _ _ _ M5 Hx Lx) (K _ _ _ _ M6 Hy Ly)))))).
  - destruct (angle_near a a' Ha Hk) as [S C]. replace (G * 3) with (G * (3 * 1)) in * by ring. unfold mRotate. apply MU; [lra|exact Hfit|]. rewrite rad_radians.
    pose proof (zero_rel 1 (/ 2 ^ 39) ltac:(lra) ltac:(lra)) as Z.
    assert (N : rel 1 (/ 2 ^ 39) (fneg E (fsin E (radians E a))) (- sin (rad a'))).
    { destruct S as ([V Fi] & S1 & S2). change (fneg E ?x) with (SFopp x). split; [split; [apply opp_valid, V|apply opp_finite, Fi]|]. rewrite opp_val, Rabs_Ropp. split; [|exact S2].
      replace (- val (fsin E (radians E a)) - - sin (rad a')) with (- (val (fsin E (radians E a)) - sin (rad a'))) by ring. rewrite Rabs_Ropp. exact S1. }
    exact (conj C (conj S (conj N (conj C (conj Z Z))))).
  - pose proof (slant_near a a' Ha Hk) as S. replace (G * 3) with (G * (3 * 1)) in * by ring. unfold mSkewX. apply MU; [lra|exact Hfit|]. rewrite rad_radians.
    pose proof (zero_rel 1 (/ 2 ^ 39) ltac:(lra) ltac:(lra)) as Z. pose proof (one_rel 1 (/ 2 ^ 39) ltac:(lra) ltac:(lra)) as I1.
    exact (conj I1 (conj Z (conj S (conj I1 (conj Z Z))))).
  - pose proof (slant_near a a' Ha Hk) as S. replace (G * 3) with (G * (3 * 1)) in * by ring. unfold mSkewY. apply MU; [lra|exact Hfit|]. rewrite rad_radians.
    pose proof (zero_rel 1 (/ 2 ^ 39) ltac:(lra) ltac:(lra)) as Z. pose proof (one_rel 1 (/ 2 ^ 39) ltac:(lra) ltac:(lra)) as I1.
    exact (conj I1 (conj S (conj Z (conj I1 (conj Z Z))))).
  - apply MU; [apply largest_one|exact Hfit|].
    assert (K : forall z s, rd z s -> List.In s [mA b'; mB b'; mC b'; mD b'; mE b'; mF b'] -> rel (largest [mA b'; mB b'; mC b'; mD b'; mE b'; mF b']) (/ 2 ^ 39) z s).
    { intros z s Hz Hs. apply rel_le with (Y := largest [mA b'; mB b'; mC b'; mD b'; mE b'; mF b']) (e := / 2 ^ 53); [lra|pose proof (largest_one [mA b'; mB b'; mC b'; mD b'; mE b'; mF b']); lra|]. apply rd_rel; [apply largest_one|now apply largest_in|exact Hz]. }
    exact (conj (K _ _ H1 ltac:(cbn; auto)) (conj (K _ _ H2 ltac:(cbn; auto)) (conj (K _ _ H3 ltac:(cbn; auto)) (conj (K _ _ H4 ltac:(cbn; auto 6)) (conj (K _ _ H5 ltac:(cbn; auto 8)) (K _ _ H6 ltac:(cbn; auto 10))))))).
Qed.
(** ** Lists *)
Lemma growths_one fs : 1 <= growths (Q := Q) fs.
Proof using. induction fs as [|f fs IH]; cbn [growths fold_right]; [lra|]. pose proof (growth_one f). apply Rle_trans with (1 * 1); [lra|]. apply Rmult_le_compat; try lra. exact IH. Qed.
Lemma turn_list fs fs' : Forall2 alike_fun fs fs' -> Forall measured fs' -> forall G k m m', 1 <= G -> G * growths fs' <= pow 700 -> (Z.of_nat (k + List.length fs') <= 2 ^ 36)%Z ->
  mrel G (INR k / 2 ^ 37) m m' -> mrel (G * growths fs') (INR (k + List.length fs') / 2 ^ 37) (fold_left (tfun_apply E) (rev fs) m) (fold_left (tfun_apply X) (rev fs') m').
Proof using HF.
  induction 1 as [|f f' fs fs' Hf Hfs IH]; intros Hk G k m m' HG Hfit Hn Hm.
  - cbn [growths fold_right rev fold_left List.length]. rewrite Nat.add_0_r, Rmult_1_r. exact Hm.
  - inversion Hk as [|? ? K1 K2]; subst. cbn [rev List.length] in *. rewrite !fold_left_app. cbn [fold_left]. change (growths (f' :: fs')) with (growth f' * growths fs') in *.
    pose proof (growth_one f') as G1. pose proof (growths_one fs') as G2.
    assert (GG : G * growths fs' <= G * (growth f' * growths fs')). { apply Rmult_le_compat_l; [lra|]. rewrite <- (Rmult_1_l (growths fs')) at 1. apply Rmult_le_compat_r; lra. }
    specialize (IH K2 G k m m' HG ltac:(lra) ltac:(lia) Hm).
    replace (G * (growth f' * growths fs')) with (G * growths fs' * growth f') in * by ring.
    replace (INR (k + S (List.length fs')) / 2 ^ 37) with (INR (k + List.length fs') / 2 ^ 37 + / 2 ^ 37) by (rewrite Nat.add_succ_r, S_INR; lra).
    apply turn_step; try assumption.
    + apply Rle_trans with (1 * 1); [lra|]. apply Rmult_le_compat; lra.
    + pose proof (pos_INR (k + List.length fs')). assert (B : INR (k + List.length fs') <= IZR (2 ^ 36)) by (rewrite INR_IZR_INZ; apply IZR_le; lia). change (2 ^ 36)%Z with 68719476736%Z in B. lra.
Qed.
(** ** The text *)
Lemma numbers_rd s vs : reads_exactly Q -> spells_numbers X s vs -> Forall (fun v => Rabs v <= 2 ^ 17) vs -> exists ws, spells_numbers E s ws /\ Forall2 rd ws vs.
Proof using.
  intros HQ (l & trail & Es & Hl & Ht & Hv) Hb. destruct (items_read O Q l None vs HQ Hl Hv) as (ws & H1 & H2).
  { eapply Forall_impl; [|exact Hb]. cbn beta. intros v H. apply Rle_trans with (1 := H). replace (2 ^ 17) with (pow 17) by (cbn; lra). apply bpow_le. lia. }
  exists ws. split; [exists l, trail; auto|exact H2].
Qed.
Lemma function_near name vs f' : tfun_reads X name vs f' -> measured f' -> Forall (fun v => Rabs v <= 2 ^ 17) vs
  /\ forall ws, Forall2 rd ws vs -> exists f, tfun_reads E name ws f /\ alike_fun f f'.
Proof using.
  assert (W : forall a, Rabs a <= 450 -> Rabs a <= 2 ^ 17) by (intros; lra).
  intros H K. destruct f' as [x y|x y|a|a x y|a|a|m]; cbn [tfun_reads measured] in *; destruct H as [-> H]; [| | |contradiction| | |].
  - subst vs. destruct K. split; [repeat (apply Forall_cons; [assumption|]); apply Forall_nil|]. intros ws HW. inversion HW as [|x1 ? ? ? X1 HW1]; subst. inversion HW1 as [|y1 ? ? ? Y1 HW2]; subst. inversion HW2; subst.
    exists (Translate E x1 y1). split; [split; reflexivity|]. now constructor.
  - destruct K as [K1 K2], H as [->|[-> ->]].
    + split; [repeat (apply Forall_cons; [assumption|]); apply Forall_nil|]. intros ws HW. inversion HW as [|x1 ? ? ? X1 HW1]; subst. inversion HW1 as [|y1 ? ? ? Y1 HW2]; subst. inversion HW2; subst.
      exists (Scale E x1 y1). split; [split; [reflexivity|left; reflexivity]|]. now constructor.
    + split; [repeat (apply Forall_cons; [assumption|]); apply Forall_nil|]. intros ws HW. inversion HW as [|x1 ? ? ? X1 HW1]; subst. inversion HW1; subst.
      exists (Scale E x1 x1). split; [split; [reflexivity|right; split; reflexivity]|]. now constructor.
  - subst vs. split; [apply Forall_cons; [apply W; lra|apply Forall_nil]|]. intros ws HW. inversion HW as [|x1 ? ? ? X1 HW1]; subst. inversion HW1; subst. exists (Rotate E x1). split; [split; reflexivity|]. now constructor.
  - subst vs. split; [apply Forall_cons; [apply W; lra|apply Forall_nil]|]. intros ws HW. inversion HW as [|x1 ? ? ? X1 HW1]; subst. inversion HW1; subst. exists (SkewX E x1). split; [split; reflexivity|]. now constructor.
  - subst vs. split; [apply Forall_cons; [apply W; lra|apply Forall_nil]|]. intros ws HW. inversion HW as [|x1 ? ? ? X1 HW1]; subst. inversion HW1; subst. exists (SkewY E x1). split; [split; reflexivity|]. now constructor.
  - subst vs. destruct K as (K1 & K2 & K3 & K4 & K5 & K6). split; [repeat (apply Forall_cons; [assumption|]); apply Forall_nil|]. intros ws HW. inversion HW as [|x1 ? ? ? X1 HW1]; subst. inversion HW1 as [|x2 ? ? ? X2 HW2]; subst.
    inversion HW2 as [|x3 ? ? ? X3 HW3]; subst. inversion HW3 as [|x4 ? ? ? X4 HW4]; subst. inversion HW4 as [|x5 ? ? ? X5 HW5]; subst. inversion HW5 as [|x6 ? ? ? X6 HW6]; subst. inversion HW6; subst.
    exists (MatrixFn E (mkM (E := E) x1 x2 x3 x4 x5 x6)). split; [split; reflexivity|]. now constructor.
Qed.
Lemma text_near v fs' : reads_exactly Q -> transform_text X v fs' -> Forall measured fs' -> exists fs, transform_text E v fs /\ Forall2 alike_fun fs fs'.
Proof using.
  intros HQ. induction 1 as [s Hs|l name b args vs f s fs' Hl Hb Hf Ha Hne Ht IH]; intros Hm.
  - exists []. split; [now constructor|constructor].
  - inversion Hm as [|? ? M1 M2]; subst. destruct (IH M2) as (fs & H1 & H2). destruct (function_near _ _ _ Hf M1) as [K1 K2]. destruct (numbers_rd _ _ HQ Ha K1) as (ws & W1 & W2). destruct (K2 _ W2) as (f1 & F1 & F2).
    exists (f1 :: fs). split; [econstructor; eassumption|]. constructor; assumption.
Qed.
Lemma mrel_off n G m m' : mrel G (INR n / 2 ^ 37) m m' <-> off_by O Q n G m m'.
Proof using.
  unfold mrel, off_by, matrix_near, matrix_upto, num_near, rel. tauto.
Qed.
Lemma off_identity : off_by O Q 0 1 identity identity.
Proof using.
  apply mrel_off. pose proof (zero_rel 1 (INR 0 / 2 ^ 37) ltac:(lra) ltac:(cbn; lra)) as Z. pose proof (one_rel 1 (INR 0 / 2 ^ 37) ltac:(lra) ltac:(cbn; lra)) as I1. exact (conj I1 (conj Z (conj Z (conj I1 (conj Z Z))))).
Qed.
(** the matrix of the text in float64, after that of the parent, against the exact one *)
Lemma text_matrix v fs' G k par par' : reads_exactly Q -> transform_text X v fs' -> measured_list fs' -> 1 <= G <= 2 ^ 150 -> (Z.of_nat k < 2 ^ 30)%Z -> off_by O Q k G par par' ->
  exists fs, transform_text E v fs /\ off_by O Q (k + List.length fs') (G * growths fs') (fold_left (tfun_apply E) (rev fs) par) (fold_left (tfun_apply X) (rev fs') par').
Proof using HF.
  intros HQ Ht (Hm & Hg & Hn) HG Hk Hp. destruct (text_near v fs' HQ Ht Hm) as (fs & H1 & H2). exists fs. split; [exact H1|]. apply mrel_off, turn_list; [exact H2|exact Hm|lra| |lia|apply mrel_off, Hp].
  assert (B : forall n, 2 ^ n = pow (Z.of_nat n)). { intros n. rewrite <- (pow_Z (Z.of_nat n)) by lia. apply pow_IZR. }
  rewrite (B 150%nat) in HG. rewrite (B 500%nat) in Hg. apply Rle_trans with (pow (Z.of_nat 150) * pow (Z.of_nat 500)); [|rewrite <- bpow_plus; apply bpow_le; lia].
  pose proof (growths_one fs'). apply Rmult_le_compat; lra.
Qed.
Theorem text_reads v fs' G k (st : style E) (c : cursor E) par par' rest : reads_exactly Q -> transform_text X v fs' -> measured_list fs' ->
  c_stack c = par :: rest -> 1 <= G <= 2 ^ 150 -> (Z.of_nat k < 2 ^ 30)%Z -> off_by O Q k G (st_transform par) par' ->
  exists c' m, readStyleAttr st "transform" v c = (c', Ret (put_part Transform m st)) /\ same_but_points c c'
  /\ off_by O Q (k + List.length fs') (G * growths fs') m (fold_left (tfun_apply X) (rev fs') par').
Proof using HF.
  intros HQ Ht Hm Hs HG Hk Hp. destruct (text_matrix v fs' G k _ _ HQ Ht Hm HG Hk Hp) as (fs & H1 & H2). destruct (parseTransform_text v fs c par rest H1 Hs) as (c' & Hc & Hb).
  exists c', (fold_left (tfun_apply E) (rev fs) (st_transform par)). split; [|split; [exact Hb|exact H2]].
  unfold readStyleAttr. cbn [String.eqb Ascii.eqb Bool.eqb orb negb]. erewrite bind_step by exact Hc. destruct st, st_join; reflexivity.
Qed.
End Turn.

(** * ProofsArcNear: the centre and the angles of arcs in binary64 *)
From Coq Require Import ZArith Lia Reals Lra Psatz Floats.SpecFloat.
From Flocq Require Import Core.Core Relative IEEE754.BinarySingleNaN.
From Verif Require Import F64 RealEnv SpecArc ProofsArc ProofsArc2 ProofsAngle ProofsSize3 ProofsArc64 ProofsDec ProofsScale ProofsClose ProofsF64 SpecClose SpecArcNear ProofsCircle ProofsFlocq.
Local Open Scope R_scope.
Local Existing Instance ProofsFlocq.Hprec.
Local Existing Instance ProofsFlocq.Hmax.
Local Notation pow := (bpow radix2).
Ltac absl := repeat match goal with H : Rabs _ <= _ |- _ => apply Rabs_le_inv in H end.

(** ** Errors relative to a scale *)
Local Notation u := (/ 17592186044416).
Local Notation eps := (/ 9007199254740992).
Definition tn : R := pow (-1000).
Lemma tn_small : 0 < tn <= / 2 ^ 300.
Proof.
  split; [apply bpow_gt_0|]. apply Rle_trans with (pow (-300)); [apply bpow_le; lia|]. change (-300)%Z with (- (300))%Z. rewrite bpow_opp. apply Req_le. f_equal. cbn. lra.
Qed.
Lemma rnd_rel' z : Rabs (rnd z - z) <= eps * Rabs z + tn.
Proof. pose proof (rnd_rel z) as H. change (pow (-53)) with eps in H. exact H. Qed.
Lemma big_ok z : Rabs z <= 2 ^ 70 -> Rabs (rnd z) < pow 1024.
Proof. intros H. apply (no_over 70); [lia|]. replace (pow 70) with (2 ^ 70) by (cbn; lra). exact H. Qed.
Definition ms (M : R) : Prop := / 2 ^ 60 <= M <= 2 ^ 60.
Definition er (k M : R) (x : sf) (r : R) : Prop := finite64 x /\ Rabs (val x - r) <= k * u * M /\ Rabs r <= M.
Lemma er_le k k' M M' x r : 0 <= k <= k' -> 0 <= M <= M' -> er k M x r -> er k' M' x r.
Proof. intros H1 H2 (H3 & H4 & H5). split; [exact H3|]. split; [|lra]. apply Rle_trans with (1 := H4). apply Rmult_le_compat; lra. Qed.
Lemma tn_ms M : ms M -> 1000000 * tn <= u * M.
Proof.
  intros [H _]. pose proof tn_small as [_ T]. apply Rle_trans with (1000000 * / 2 ^ 300); [lra|]. apply Rle_trans with (u * / 2 ^ 60); [|nra]. lra.
Qed.
Lemma er_round k M x z r : finite64 x -> val x = rnd z -> ms M -> 0 <= k <= 1048576 -> Rabs (z - r) <= k * u * M -> Rabs r <= M -> er (k + / 16) M x r.
Proof.
  intros Hx E HM Hk Hz Hr. split; [exact Hx|]. split; [|exact Hr]. rewrite E. pose proof (rnd_rel' z) as H. pose proof (tn_ms _ HM) as Ht. pose proof HM as [M1 M2].
  assert (0 < M) by (apply Rlt_le_trans with (2 := M1); apply Rinv_0_lt_compat; lra).
  assert (Hz2 : Rabs z <= 2 * M). { pose proof (Rabs_triang (z - r) r) as T. replace (z - r + r) with z in T by ring. assert (k * u * M <= M) by nra. lra. }
  pose proof (Rabs_triang (rnd z - z) (z - r)) as T. replace (rnd z - z + (z - r)) with (rnd z - r) in T by ring. lra.
Qed.
Lemma er_fin k M x r : er k M x r -> finite64 x. Proof. intros H. apply H. Qed.
Lemma er_size k M x r : 0 <= k <= 1048576 -> er k M x r -> Rabs (val x) <= (1 + k * u) * M.
Proof. intros Hk (_ & H & Hr). pose proof (Rabs_triang (val x - r) r) as T. replace (val x - r + r) with (val x) in T by ring. lra. Qed.
Lemma er_val M x : finite64 x -> Rabs (val x) <= M -> er 0 M x (val x).
Proof. intros H1 H2. split; [exact H1|]. split; [|exact H2]. replace (val x - val x) with 0 by ring. rewrite Rabs_R0. lra. Qed.
Lemma er_mul k1 k2 M1 M2 x y r s : ms (M1 * M2) -> 0 <= k1 <= 1000000 -> 0 <= k2 <= 1000000 -> k1 + k2 <= 1000000 -> 0 < M1 -> 0 < M2 ->
  er k1 M1 x r -> er k2 M2 y s -> er (k1 + k2 + 1) (M1 * M2) (SFmul 53 1024 x y) (r * s).
Proof.
  intros HM Hk1 Hk2 Hk P1 P2 Hx Hy. pose proof (er_size k1 _ _ _ ltac:(lra) Hx) as Sx. pose proof (er_size k2 _ _ _ ltac:(lra) Hy) as Sy.
  destruct Hx as ([Vx Fx] & Ex & Rx), Hy as ([Vy Fy] & Ey & Ry).
  assert (Hz : Rabs (val x * val y - r * s) <= (k1 + k2 + / 2) * u * (M1 * M2)).
  { replace (val x * val y - r * s) with ((val x - r) * val y + r * (val y - s)) by ring. 
    apply Rle_trans with (1 := Rabs_triang _ _). rewrite !Rabs_mult.
    assert (A : Rabs (val x - r) * Rabs (val y) <= k1 * u * M1 * ((1 + k2 * u) * M2)) by (apply Rmult_le_compat; try apply Rabs_pos; assumption).
    assert (B : Rabs r * Rabs (val y - s) <= M1 * (k2 * u * M2)) by (apply Rmult_le_compat; try apply Rabs_pos; assumption).
    assert (0 < M1 * M2) by nra. assert (Cc : k1 * k2 * u <= / 2) by (assert (k1 * k2 <= 1000000 * 1000000) by nra; lra).
    replace (k1 * u * M1 * ((1 + k2 * u) * M2)) with ((k1 + k1 * k2 * u) * u * (M1 * M2)) in A by ring.
    replace (M1 * (k2 * u * M2)) with (k2 * u * (M1 * M2)) in B by ring. nra. }
  assert (Hr : Rabs (r * s) <= M1 * M2) by (rewrite Rabs_mult; apply Rmult_le_compat; try apply Rabs_pos; assumption).
  assert (Hb : Rabs (val x * val y) <= 2 ^ 70).
  { pose proof (Rabs_triang (val x * val y - r * s) (r * s)) as T. replace (val x * val y - r * s + r * s) with (val x * val y) in T by ring.
    destruct HM as [_ HM]. assert ((k1 + k2 + / 2) * u * (M1 * M2) <= M1 * M2) by (assert (0 < M1 * M2) by nra; nra). lra. }
  destruct (mul_round x y Vx Vy Fx Fy (big_ok _ Hb)) as [K1 K2].
  apply (er_le (k1 + k2 + / 2 + / 16) _ (M1 * M2)); [lra|split; [nra|lra]|]. apply er_round with (z := val x * val y); try assumption; [split; [apply mul_valid; assumption|exact K1]|lra].
Qed.
Lemma er_add k1 k2 M x y r s : ms (2 * M) -> 0 <= k1 <= 1000000 -> 0 <= k2 <= 1000000 -> k1 + k2 <= 1000000 -> 0 < M ->
  er k1 M x r -> er k2 M y s -> er ((k1 + k2) / 2 + 1) (2 * M) (SFadd 53 1024 x y) (r + s).
Proof.
  intros HM Hk1 Hk2 Hk P1 Hx Hy. 
  destruct Hx as ([Vx Fx] & Ex & Rx), Hy as ([Vy Fy] & Ey & Ry).
  assert (Hz : Rabs (val x + val y - (r + s)) <= ((k1 + k2) / 2) * u * (2 * M)).
  { replace (val x + val y - (r + s)) with ((val x - r) + (val y - s)) by ring. apply Rle_trans with (1 := Rabs_triang _ _). lra. }
  assert (Hr : Rabs (r + s) <= 2 * M) by (apply Rle_trans with (1 := Rabs_triang _ _); lra).
  assert (Hb : Rabs (val x + val y) <= 2 ^ 70).
  { pose proof (Rabs_triang (val x + val y - (r + s)) (r + s)) as T. replace (val x + val y - (r + s) + (r + s)) with (val x + val y) in T by ring.
    destruct HM as [_ HM]. assert (((k1 + k2) / 2) * u * (2 * M) <= 2 * M) by nra. lra. }
  destruct (add_round x y Vx Vy Fx Fy (big_ok _ Hb)) as [K1 K2].
  apply (er_le ((k1 + k2) / 2 + / 16) _ (2 * M)); [lra|lra|]. apply er_round with (z := val x + val y); try assumption; [split; [apply add_valid; assumption|exact K1]|lra].
Qed.
Lemma er_opp k M x r : er k M x r -> er k M (SFopp x) (- r).
Proof.
  intros ([V Fi] & H & Hr). split; [split; [apply opp_valid, V|apply opp_finite, Fi]|]. rewrite opp_val, Rabs_Ropp. replace (- val x - - r) with (- (val x - r)) by ring. rewrite Rabs_Ropp. auto.
Qed.
Lemma er_sub k1 k2 M x y r s : ms (2 * M) -> 0 <= k1 <= 1000000 -> 0 <= k2 <= 1000000 -> k1 + k2 <= 1000000 -> 0 < M ->
  er k1 M x r -> er k2 M y s -> er ((k1 + k2) / 2 + 1) (2 * M) (SFsub 53 1024 x y) (r - s).
Proof. intros. rewrite sub_add. apply er_add; try assumption. apply er_opp. assumption. Qed.
(** an operation on exact values *)
Lemma er_div0 M x y : ms M -> finite64 x -> finite64 y -> val y <> 0 -> Rabs (val x / val y) <= M -> er (/ 16) M (SFdiv 53 1024 x y) (val x / val y).
Proof.
  intros HM [Vx Fx] [Vy Fy] Hy Hb. destruct (div_round x y Vx Vy Fx Fy Hy) as [K1 K2]; [apply big_ok; destruct HM; lra|].
  replace (/ 16) with (0 + / 16) by ring. apply er_round with (z := val x / val y); try assumption; [split; [apply div_valid; assumption|exact K1]|lra|].
  replace (val x / val y - val x / val y) with 0 by ring. rewrite Rabs_R0. destruct HM. lra.
Qed.
Lemma er_mul0 M x y : ms M -> finite64 x -> finite64 y -> Rabs (val x * val y) <= M -> er (/ 16) M (SFmul 53 1024 x y) (val x * val y).
Proof.
  intros HM [Vx Fx] [Vy Fy] Hb. destruct (mul_round x y Vx Vy Fx Fy) as [K1 K2]; [apply big_ok; destruct HM; lra|].
  replace (/ 16) with (0 + / 16) by ring. apply er_round with (z := val x * val y); try assumption; [split; [apply mul_valid; assumption|exact K1]|lra|].
  replace (val x * val y - val x * val y) with 0 by ring. rewrite Rabs_R0. destruct HM. lra.
Qed.
Lemma er_sub0 M x y : ms M -> finite64 x -> finite64 y -> Rabs (val x - val y) <= M -> er (/ 16) M (SFsub 53 1024 x y) (val x - val y).
Proof.
  intros HM [Vx Fx] [Vy Fy] Hb. rewrite sub_add. destruct (add_round x (SFopp y) Vx (opp_valid _ Vy) Fx (opp_finite _ Fy)) as [K1 K2]; [rewrite opp_val; apply big_ok; change (val x + - val y) with (val x - val y); destruct HM; lra|].
  rewrite opp_val in K2. replace (/ 16) with (0 + / 16) by ring. apply er_round with (z := val x + - val y); try assumption; [split; [apply add_valid; [|apply opp_valid]; assumption|exact K1]|lra|].
  replace (val x + - val y - (val x - val y)) with 0 by ring. rewrite Rabs_R0. destruct HM. lra.
Qed.
(** division by a number known up to an error *)
Lemma er_div k M m x y r s : ms (M / m) -> 0 <= k <= 1000000 -> 0 < M -> 0 < m -> m <= s -> finite64 y -> Rabs (val y - s) <= / 4 * u * s ->
  er k M x r -> er (k + 1) (M / m) (SFdiv 53 1024 x y) (r / s).
Proof.
  intros HM Hk P1 Pm Hs [Vy Fy] Ey ([Vx Fx] & Ex & Rx).
  assert (Y : s * (1 - / 4 * u) <= val y) by (absl; lra). assert (0 < val y) by nra.
  assert (Hz : Rabs (val x / val y - r / s) <= (k + / 2) * u * (M / m)).
  { replace (val x / val y - r / s) with (((val x - r) - r * ((val y - s) / s)) / val y) by (field; lra).
    assert (A : Rabs (r * ((val y - s) / s)) <= M * (/ 4 * u)).
    { rewrite Rabs_mult. apply Rmult_le_compat; try apply Rabs_pos; [exact Rx|]. unfold Rdiv. rewrite Rabs_mult, (Rabs_pos_eq (/ s)) by (apply Rlt_le, Rinv_0_lt_compat; lra).
      apply Rmult_le_reg_r with s; [lra|]. rewrite Rmult_assoc, Rinv_l by lra. lra. }
    unfold Rdiv at 1. rewrite Rabs_mult, (Rabs_pos_eq (/ val y)) by (apply Rlt_le, Rinv_0_lt_compat; lra).
    apply Rmult_le_reg_r with (val y); [lra|]. rewrite Rmult_assoc, Rinv_l, Rmult_1_r by lra.
    apply Rle_trans with (k * u * M + M * (/ 4 * u)). { pose proof (Rabs_triang (val x - r) (- (r * ((val y - s) / s)))) as T. rewrite Rabs_Ropp in T. unfold Rminus at 1. lra. }
    apply Rle_trans with ((k + / 2) * u * (M / m) * (s * (1 - / 4 * u))); [|apply Rmult_le_compat_l; [|exact Y]; apply Rmult_le_pos; [lra|apply Rlt_le, Rdiv_lt_0_compat; lra]].
    apply Rle_trans with ((k + / 2) * u * M * (1 - / 4 * u)).
    - assert (k * (/ 4 * u) <= / 8) by lra. replace ((k + / 2) * u * M * (1 - / 4 * u)) with (u * M * ((k + / 2) * (1 - / 4 * u))) by ring. replace (k * u * M + M * (/ 4 * u)) with (u * M * (k + / 4)) by ring.
      apply Rmult_le_compat_l; [nra|]. lra.
    - replace ((k + / 2) * u * (M / m) * (s * (1 - / 4 * u))) with ((k + / 2) * u * M * (1 - / 4 * u) * (s / m)) by (field; lra).
      rewrite <- (Rmult_1_r ((k + / 2) * u * M * (1 - / 4 * u))) at 1. apply Rmult_le_compat_l; [assert (0 < u * M) by nra; nra|]. apply Rmult_le_reg_r with m; [lra|]. unfold Rdiv. rewrite Rmult_assoc, Rinv_l by lra. lra. }
  assert (Hr : Rabs (r / s) <= M / m).
  { unfold Rdiv. rewrite Rabs_mult, (Rabs_pos_eq (/ s)) by (apply Rlt_le, Rinv_0_lt_compat; lra). apply Rmult_le_compat; [apply Rabs_pos|apply Rlt_le, Rinv_0_lt_compat; lra|exact Rx|apply Rinv_le; lra]. }
  assert (0 < M / m) by (apply Rdiv_lt_0_compat; lra).
  assert (Hb : Rabs (val x / val y) <= 2 ^ 70).
  { pose proof (Rabs_triang (val x / val y - r / s) (r / s)) as T. replace (val x / val y - r / s + r / s) with (val x / val y) in T by ring.
    destruct HM as [_ HM]. assert ((k + / 2) * u * (M / m) <= M / m) by nra. lra. }
  destruct (div_round x y Vx Vy Fx Fy ltac:(lra) (big_ok _ Hb)) as [K1 K2].
  apply (er_le (k + / 2 + / 16) _ (M / m)); [lra|lra|]. apply er_round with (z := val x / val y); try assumption; [split; [apply div_valid; assumption|exact K1]|lra].
Qed.

(** * ProofsArcNear3: the centre of arcs in binary64, continued *)
From Coq Require Import ZArith Lia Reals Lra Psatz Floats.SpecFloat.
From Flocq Require Import Core.Core Relative IEEE754.BinarySingleNaN.
From Verif Require Import F64 RealEnv SpecArc ProofsArc ProofsArc2 ProofsAngle ProofsSize3 ProofsArc64 ProofsDec ProofsScale ProofsClose ProofsF64 SpecClose SpecArcNear ProofsCircle ProofsArcNear ProofsArcNear2 ProofsFlocq.
Local Open Scope R_scope.
Local Existing Instance ProofsFlocq.Hprec.
Local Existing Instance ProofsFlocq.Hmax.
Local Notation pow := (bpow radix2).
Local Notation u := (/ 17592186044416).
Local Notation eps := (/ 9007199254740992).
Lemma ms_lit M : / 1000000000 <= M <= 1000000000 -> ms M.
Proof. intros H. split; [apply Rle_trans with (/ 1000000000); [|lra]|apply Rle_trans with 1000000000; [lra|]]; clear; lra. Qed.

(** the last part of [findEllipseCenter] *)
Definition tail64 (first : bool) (midX midY hr ra rb C S sx sy : sf) : sf * sf :=
  let '(x, y) := if first then (SFadd 53 1024 midX (SFmul 53 1024 midY hr), SFsub 53 1024 midY (SFmul 53 1024 midX hr))
                 else (SFsub 53 1024 midX (SFmul 53 1024 midY hr), SFadd 53 1024 midY (SFmul 53 1024 midX hr)) in
  let x := SFmul 53 1024 x (SFdiv 53 1024 ra rb) in
  (SFadd 53 1024 (SFsub 53 1024 (SFmul 53 1024 x C) (SFmul 53 1024 y S)) sx, SFadd 53 1024 (SFadd 53 1024 (SFmul 53 1024 x S) (SFmul 53 1024 y C)) sy).
Section Tail.
Context (midX midY hr ra rb C S sx sy : sf) (be r c s : R) (first : bool).
Notation M1 := (val midX). Notation M2 := (val midY). Notation h := (val hr).
Notation g := (if first then 1 else -1).
Context (F1 : finite64 midX) (F2 : finite64 midY) (Fh : finite64 hr) (Fa : finite64 ra) (Fb : finite64 rb) (Fx : finite64 sx) (Fy : finite64 sy).
Context (Hb : / 17 <= be <= 131072) (Hr : / 16 <= r <= 16) (Hbe : val rb = be) (Hra : Rabs (val ra - be / r) <= / 4 * u * (be / r)).
Context (HD : (h * h + 1) * (M1 * M1 + M2 * M2) <= 2 * (be * be)).
Context (HC : er 2 1 C c) (HS : er 2 1 S s) (Sx : Rabs (val sx) <= 4096) (Sy : Rabs (val sy) <= 4096).
Notation c1 := (M1 + g * (M2 * h)). Notation c2 := (M2 - g * (M1 * h)).
Notation K := (be * Rmax 1 (/ r)).
Lemma inv_r : / 16 <= / r <= 16.
Proof using Hr. split; [apply Rinv_le; lra|]. replace 16 with (/ / 16) by field. apply Rinv_le; lra. Qed.
Lemma K_bounds : / 17 <= K <= 2097152 /\ be <= K /\ be * / r <= K.
Proof using Hb Hr.
  pose proof inv_r as I. pose proof (Rmax_l 1 (/ r)) as L1. pose proof (Rmax_r 1 (/ r)) as L2. assert (L3 : Rmax 1 (/ r) <= 16) by (apply Rmax_lub; lra).
  set (x := Rmax 1 (/ r)) in *. clearbody x. set (y := / r) in *. clearbody y. split; [split; nra|]. split; nra.
Qed.
Lemma small_sq x : x * x <= 4 * (be * be) -> Rabs x <= 2 * be.
Proof using Hb. intros H. apply Rsqr_incr_0_var; [rewrite <- Rsqr_abs; unfold Rsqr; lra|lra]. Qed.
Lemma parts : Rabs M1 <= 2 * be /\ Rabs M2 <= 2 * be /\ Rabs (M1 * h) <= 2 * be /\ Rabs (M2 * h) <= 2 * be.
Proof using Hb HD.
  assert (A : 0 <= M1 * M1) by apply Rle_0_sqr. assert (B : 0 <= M2 * M2) by apply Rle_0_sqr. assert (Ch : 0 <= h * h) by apply Rle_0_sqr.
  assert (A' : 0 <= h * h * (M1 * M1)) by (apply Rmult_le_pos; assumption). assert (B' : 0 <= h * h * (M2 * M2)) by (apply Rmult_le_pos; assumption). assert (P : 0 <= be * be) by apply Rle_0_sqr.
  repeat split; apply small_sq; [| |replace (M1 * h * (M1 * h)) with (h * h * (M1 * M1)) by ring|replace (M2 * h * (M2 * h)) with (h * h * (M2 * M2)) by ring]; lra.
Qed.
Lemma tail_mid : exists x y, (if first then (SFadd 53 1024 midX (SFmul 53 1024 midY hr), SFsub 53 1024 midY (SFmul 53 1024 midX hr))
                 else (SFsub 53 1024 midX (SFmul 53 1024 midY hr), SFadd 53 1024 midY (SFmul 53 1024 midX hr))) = (x, y) /\ er 2 (4 * be) x c1 /\ er 2 (4 * be) y c2.
Proof using F1 F2 Fh Hb HD.
  destruct parts as (P1 & P2 & P3 & P4). assert (Ms : ms (2 * be)) by (apply ms_lit; lra). assert (Ms2 : ms (2 * (2 * be))) by (apply ms_lit; lra).
  pose proof (er_mul0 _ _ _ Ms F2 Fh P4) as A. pose proof (er_mul0 _ _ _ Ms F1 Fh P3) as B. pose proof (er_val _ _ F1 P1) as V1. pose proof (er_val _ _ F2 P2) as V2.
  assert (S1 : forall a b a' b', er 0 (2 * be) a a' -> er (/ 16) (2 * be) b b' -> er 2 (4 * be) (SFadd 53 1024 a b) (a' + b') /\ er 2 (4 * be) (SFsub 53 1024 a b) (a' - b')).
  { intros a b a' b' H1 H2. replace (4 * be) with (2 * (2 * be)) by ring.
    split; (apply (er_le ((0 + / 16) / 2 + 1) _ (2 * (2 * be))); [lra|lra|]); [apply er_add|apply er_sub]; try assumption; lra. }
  destruct (S1 _ _ _ _ V1 A) as [A1 A2], (S1 _ _ _ _ V2 B) as [B1 B2].
  destruct first; eexists _, _; (split; [reflexivity|]).
  - replace (M1 + 1 * (M2 * h)) with (M1 + M2 * h) by ring. replace (M2 - 1 * (M1 * h)) with (M2 - M1 * h) by ring. auto.
  - replace (M1 + -1 * (M2 * h)) with (M1 - M2 * h) by ring. replace (M2 - -1 * (M1 * h)) with (M2 + M1 * h) by ring. auto.
Qed.
Lemma ratio_near : er (5 / 4) (/ r) (SFdiv 53 1024 ra rb) (/ r).
Proof using Fa Fb Hb Hr Hbe Hra.
  pose proof inv_r as I. assert (0 < be / r) by (apply Rdiv_lt_0_compat; lra). assert (E : be / r / be = / r) by (field; lra).
  assert (X : er (/ 4) (be / r) ra (be / r)). { split; [exact Fa|]. split; [exact Hra|]. rewrite Rabs_pos_eq by lra. lra. }
  pose proof (er_div (/ 4) (be / r) be ra rb (be / r) be) as HH. rewrite E in HH. replace (/ 4 + 1) with (5 / 4) in HH by field. apply HH; try assumption; try lra.
  - apply ms_lit. lra.
  - rewrite Hbe. replace (be - be) with 0 by ring. rewrite Rabs_R0. lra.
Qed.
(** adding the start point *)
Lemma start_near v z G : er 9 (2 * G) v z -> 4 / 17 <= G <= 16777216 -> forall x, finite64 x -> Rabs (val x) <= 4096 ->
  finite64 (SFadd 53 1024 v x) /\ Rabs (val (SFadd 53 1024 v x) - (z + val x)) <= 60 * u * G.
Proof using.
  clear Hra Sx Sy. intros Hv HG x [Vx Fx'] Hx. pose proof (er_size 9 (2 * G) v z ltac:(lra) Hv) as Sv. destruct Hv as ([Vv Fv] & Ev & Rv).
  assert (Hs : Rabs (val v + val x) <= 3 * G + 4096). { apply Rle_trans with (1 := Rabs_triang _ _). lra. }
  destruct (add_round v x Vv Vx Fv Fx') as [K1 K2]; [apply big_ok; apply Rle_trans with (1 := Hs); apply Rle_trans with 100000000; [lra|clear; lra]|].
  split; [split; [apply add_valid; assumption|exact K1]|]. rewrite K2. pose proof (rnd_rel' (val v + val x)) as Hr'. pose proof tn_small as [_ T]. 
  assert (T' : tn <= eps) by (apply Rle_trans with (1 := T); clear; lra). set (w := rnd _) in *. set (t0 := tn) in *. clearbody w t0. clear T K1 K2.
  assert (Rabs (w - (val v + val x)) <= eps * (3 * G + 4096) + eps) by lra. clear Hr' Hs Sv. absl. apply Rabs_le. lra.
Qed.
Lemma tail_near : let '(cx, cy) := tail64 first midX midY hr ra rb C S sx sy in finite64 cx /\ finite64 cy
  /\ Rabs (val cx - (c1 / r * c - c2 * s + val sx)) <= 240 * u * K /\ Rabs (val cy - (c1 / r * s + c2 * c + val sy)) <= 240 * u * K.
Proof using All.
  unfold tail64. destruct tail_mid as (x & y & -> & X & Y). pose proof K_bounds as (B1 & B2 & B3). pose proof inv_r as I.
  pose proof (er_mul 2 (5 / 4) (4 * be) (/ r) _ _ _ _ ltac:(apply ms_lit; nra) ltac:(lra) ltac:(lra) ltac:(lra) ltac:(lra) ltac:(lra) X ratio_near) as A.
  assert (A' : er 5 (4 * K) (SFmul 53 1024 x (SFdiv 53 1024 ra rb)) (c1 / r)) by (revert A; apply er_le; [lra|split; [nra|lra]]).
  assert (Y' : er 5 (4 * K) y c2) by (revert Y; apply er_le; [lra|lra]). clear A X Y. set (z := SFmul 53 1024 x _) in *. clearbody z.
  set (G := 4 * K) in *. assert (HG : 4 / 17 <= G <= 16777216) by (unfold G; lra). assert (M : ms (G * 1)) by (apply ms_lit; lra). assert (MM : ms (2 * (G * 1))) by (apply ms_lit; lra).
  assert (T : forall a b a' b', er 5 G a a' -> er 2 1 b b' -> er 8 (G * 1) (SFmul 53 1024 a b) (a' * b')).
  { intros a b a' b' H1 H2. apply (er_le (5 + 2 + 1) _ (G * 1)); [lra|lra|]. apply er_mul; try assumption; lra. }
  assert (H1 : er 9 (2 * G) (SFsub 53 1024 (SFmul 53 1024 z C) (SFmul 53 1024 y S)) (c1 / r * c - c2 * s)).
  { apply (er_le ((8 + 8) / 2 + 1) _ (2 * (G * 1))); [lra|lra|]. apply er_sub; try lra; try assumption; apply T; assumption. }
  assert (H2 : er 9 (2 * G) (SFadd 53 1024 (SFmul 53 1024 z S) (SFmul 53 1024 y C)) (c1 / r * s + c2 * c)).
  { apply (er_le ((8 + 8) / 2 + 1) _ (2 * (G * 1))); [lra|lra|]. apply er_add; try lra; try assumption; apply T; assumption. }
  destruct (start_near _ _ _ H1 HG sx Fx Sx) as [E1 E2]. destruct (start_near _ _ _ H2 HG sy Fy Sy) as [E3 E4].
  split; [exact E1|]. split; [exact E3|]. unfold G in E2, E4. split; [apply Rle_trans with (1 := E2)|apply Rle_trans with (1 := E4)]; lra.
Qed.
End Tail.

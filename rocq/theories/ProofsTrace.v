(** * ProofsTrace: the points of the curves of an arc *)
From Coq Require Import ZArith Lia Reals Lra Psatz List.
From Flocq Require Import Core.Core.
From Verif Require Import F64 RealEnv SpecArc SpecRead SpecCurve ProofsFlocq ProofsClose ProofsCircle ProofsCurve.
Import ListNotations.
Local Open Scope R_scope.
Notation tiny := 0.00000125.

(** ** One piece of the unit circle, of at most Pi/7 *)
Section Unit.
Context (d : R) (Hd : Rabs d <= PI / 7).
Lemma d_range : - 0.4488 <= d <= 0.4488.
Proof. pose proof pi_bounds. apply Rabs_le_inv in Hd. lra. Qed.
Lemma x2_upper : x2 d <= 0.053.
Proof.
  pose proof d_range as D. unfold x2, tan. set (u := d / 2). assert (Hu : - 0.2244 <= u <= 0.2244) by (unfold u; lra).
  assert (Hs : - 0.2244 <= sin u <= 0.2244). { pose proof (sin_small u) as K. assert (Rabs u <= 0.2244) by (apply Rabs_le; lra). assert (K2 : Rabs (sin u) <= 0.2244) by lra. apply Rabs_le_inv in K2. lra. }
  assert (Hc : 0.9748 <= cos u). { replace u with (2 * (u / 2)) by field. rewrite cos_2a_sin. pose proof (sin_small (u / 2)) as K. assert (Rabs (u / 2) <= 0.1122) by (apply Rabs_le; lra). assert (K' : Rabs (sin (u / 2)) <= 0.1122) by lra. apply Rabs_le_inv in K'. nra. }
  assert (Hs2 : sin u * sin u <= 0.0503554) by nra. assert (Hc2 : 0.95 <= cos u * cos u) by nra.
  replace (sin u / cos u * (sin u / cos u)) with (sin u * sin u / (cos u * cos u)) by (field; lra). apply Rmult_le_reg_r with (cos u * cos u); [lra|].
  replace (sin u * sin u / (cos u * cos u) * (cos u * cos u)) with (sin u * sin u) by (field; lra). assert (0.9502 <= cos u * cos u) by nra. lra.
Qed.
Lemma half_cos : cos (d / 2) <> 0.
Proof. pose proof d_range. pose proof pi_bounds. apply Rgt_not_eq, cos_gt_0; lra. Qed.
Lemma radius s : 0 <= s <= 1 -> exists r, 0 <= 1 - r <= tiny /\ r * r = px d s * px d s + py d s * py d s.
Proof.
  intros Hs. pose proof (norm_piece d half_cos s) as Hn. pose proof (mm_range s Hs) as Hm. pose proof (bend_small d) as Hb. pose proof x2_upper as Hx. pose proof (x2_pos d) as H0.
  assert (Hx3 : x2 d * x2 d * x2 d <= 0.000148877). { set (x := x2 d) in *. clearbody x. assert (x * x <= 0.053 * 0.053) by nra. nra. }
  assert (Hm3 : 0 <= mm s * mm s * mm s <= / 64). { set (m := mm s) in *. clearbody m. assert (0 <= m * m <= / 16) by nra. nra. }
  set (N := px d s * px d s + py d s * py d s) in *. set (b := bend d) in *. set (m3 := mm s * mm s * mm s) in *. clearbody N b m3.
  exists (sqrt N). assert (H9 : 0 <= m3 * b <= 0.000148877 / 64) by nra. assert (HN : 0.9999976 <= N <= 1) by lra. assert (Hr2 : sqrt N * sqrt N = N) by (apply sqrt_sqrt; lra). split; [|exact Hr2].
  pose proof (sqrt_pos N) as Hr0. set (r := sqrt N) in *. clearbody r. assert (Hr1 : r <= 1) by nra. assert (0.99 <= r) by nra.
  split; [lra|]. assert ((1 - r) * (1 + r) = m3 * b) by (transitivity (1 - r * r); [ring|lra]). nra.
Qed.
Definition kappa : R := (q2 d - 1) / 3.
Lemma kappa_range : / 3 <= kappa <= / 2 /\ 0 <= cos d <= 1.
Proof.
  pose proof x2_upper. pose proof (x2_pos d). pose proof (q2_ge d). pose proof (q2_sq d). assert (q2 d <= 2.1) by nra. unfold kappa. split; [lra|].
  pose proof d_range. pose proof pi_bounds. split; [apply cos_ge_0; lra|apply COS_bound].
Qed.
Lemma handle_kappa : handle d = sin d * kappa.
Proof. rewrite handle_eq. unfold kappa. field. Qed.
Lemma px_pos s : 0 <= s <= 1 -> 0 < px d s.
Proof.
  intros Hs. pose proof (weights s Hs) as (W0 & W1 & W2 & W3). destruct kappa_range as [K C]. pose proof d_range. pose proof pi_bounds. assert (C0 : 0 < cos d) by (apply cos_gt_0; lra).
  unfold px, bezier3. rewrite handle_kappa. assert (Hq : 0 <= sin d * kappa * sin d) by (replace (sin d * kappa * sin d) with (kappa * (sin d * sin d)) by ring; apply Rmult_le_pos; [lra|nra]).
  set (z := sin d * kappa * sin d) in *. set (c := cos d) in *.
  set (w0 := (1 - s) ^ 3) in *. set (w1 := 3 * s * (1 - s) ^ 2) in *. set (w2 := 3 * s ^ 2 * (1 - s)) in *. set (w3 := s ^ 3) in *. assert (W : w0 + w1 + w2 + w3 = 1) by (unfold w0, w1, w2, w3; ring). clearbody w0 w1 w2 w3 z c.
  assert (w0 * c <= w0 * 1) by (apply Rmult_le_compat_l; lra). assert (w1 * c <= w1 * 1) by (apply Rmult_le_compat_l; lra). assert (w2 * c <= w2 * (c + z)) by (apply Rmult_le_compat_l; lra).
  assert (c = w0 * c + w1 * c + w2 * c + w3 * c) by (transitivity ((w0 + w1 + w2 + w3) * c); [rewrite W; ring|ring]). lra.
Qed.
(** the direction of a point is between those of the ends *)
Lemma py_side s : 0 <= s <= 1 -> exists y, 0 <= y /\ py d s = sin d * y.
Proof.
  intros Hs. pose proof (weights s Hs) as (W0 & W1 & W2 & W3). destruct kappa_range as [K C].
  exists (3 * s * (1 - s) ^ 2 * kappa + 3 * s ^ 2 * (1 - s) * (1 - kappa * cos d) + s ^ 3). split; [|unfold py, bezier3; rewrite handle_kappa; ring].
  assert (0 <= 1 - kappa * cos d) by nra. repeat apply Rplus_le_le_0_compat; try exact W3; apply Rmult_le_pos; lra.
Qed.
Lemma end_side s : 0 <= s <= 1 -> exists y, 0 <= y /\ px d s * sin d - py d s * cos d = sin d * y.
Proof.
  intros Hs. pose proof (weights s Hs) as (W0 & W1 & W2 & W3). destruct kappa_range as [K C].
  exists ((1 - s) ^ 3 + 3 * s * (1 - s) ^ 2 * (1 - kappa * cos d) + 3 * s ^ 2 * (1 - s) * kappa). split.
  - assert (0 <= 1 - kappa * cos d) by nra. repeat apply Rplus_le_le_0_compat; try exact W0; apply Rmult_le_pos; lra.
  - unfold px, py, bezier3. rewrite handle_kappa. pose proof (sin2_cos2 d) as H. unfold Rsqr in H.
    replace (3 * s ^ 2 * (1 - s) * kappa) with (3 * s ^ 2 * (1 - s) * kappa * (sin d * sin d + cos d * cos d)) by (rewrite H; ring). ring.
Qed.
Lemma aligned p q r v : 0 < p -> 0 < cos v -> 0 <= 1 - r <= tiny -> r * r = p * p + q * q -> p * sin v - q * cos v = 0 -> p = r * cos v /\ q = r * sin v.
Proof.
  intros Pp Cv Hr Hr2 Hz. pose proof (sin2_cos2 v) as Sv. unfold Rsqr in Sv.
  assert (Hl : p = (p * cos v + q * sin v) * cos v /\ q = (p * cos v + q * sin v) * sin v).
  { assert (Hz' : p * sin v = q * cos v) by lra. split.
    - transitivity (p * (sin v * sin v + cos v * cos v)); [rewrite Sv; ring|]. transitivity (p * sin v * sin v + p * cos v * cos v); [ring|]. rewrite Hz'. ring.
    - transitivity (q * (sin v * sin v + cos v * cos v)); [rewrite Sv; ring|]. transitivity (q * cos v * cos v + q * sin v * sin v); [ring|]. rewrite <- Hz'. ring. }
  set (l := p * cos v + q * sin v) in *. destruct Hl as [Hp1 Hq1]. assert (L0 : 0 < l) by nra.
  assert (Lr : l = r). { assert (l * l = r * r). { rewrite Hr2, Hp1, Hq1. transitivity (l * l * (sin v * sin v + cos v * cos v)); [rewrite Sv; ring|ring]. } clearbody l. assert ((l - r) * (l + r) = 0) by lra. assert (0 < l + r) by lra. nra. }
  rewrite <- Lr. split; assumption.
Qed.
(** the point of the piece that starts at the angle [t] *)
Definition wx t s : R := cos t * px d s - sin t * py d s.
Definition wy t s : R := sin t * px d s + cos t * py d s.
Lemma turn_aligned t s r v : 0 <= 1 - r <= tiny -> px d s = r * cos v -> py d s = r * sin v -> Rabs (wx t s - cos (t + v)) <= tiny /\ Rabs (wy t s - sin (t + v)) <= tiny.
Proof.
  intros Hr Hp Hq. assert (K : forall y, -1 <= y <= 1 -> Rabs (r * y - y) <= tiny).
  { intros y Hy. replace (r * y - y) with (y * (r - 1)) by ring. rewrite Rabs_mult. assert (Rabs y <= 1) by (apply Rabs_le; lra). rewrite (Rabs_left1 (r - 1)) by lra. pose proof (Rabs_pos y). nra. }
  unfold wx, wy. rewrite Hp, Hq. split.
  - replace (cos t * (r * cos v) - sin t * (r * sin v)) with (r * cos (t + v)) by (rewrite cos_plus; ring). apply K, COS_bound.
  - replace (sin t * (r * cos v) + cos t * (r * sin v)) with (r * sin (t + v)) by (rewrite sin_plus; ring). apply K, SIN_bound.
Qed.
Lemma between w : 0 <= w <= 1 -> 0 < cos (w * d).
Proof. intros Hw. pose proof d_range. pose proof pi_bounds. assert (-1 <= w * d <= 1) by nra. apply cos_gt_0; lra. Qed.
Lemma piece_on t s : 0 <= s <= 1 -> exists w, 0 <= w <= 1 /\ Rabs (wx t s - cos (t + w * d)) <= tiny /\ Rabs (wy t s - sin (t + w * d)) <= tiny.
Proof.
  intros Hs. destruct (py_side s Hs) as (y & Hy & Ey). destruct (end_side s Hs) as (z & Hz & Ez). destruct (radius s Hs) as (r & Hr & Hr2).
  destruct (IVT_cor (fun w => px d s * sin (w * d) - py d s * cos (w * d)) 0 1) as (w & Hw & Hw0).
  - reg.
  - lra.
  - rewrite !Rmult_0_l, sin_0, cos_0, !Rmult_1_l, Ez. replace (px d s * 0 - py d s * 1) with (- py d s) by ring. rewrite Ey.
    replace (- (sin d * y) * (sin d * z)) with (- (sin d * sin d * (y * z))) by ring. assert (0 <= sin d * sin d) by nra. assert (0 <= y * z) by (apply Rmult_le_pos; assumption). assert (0 <= sin d * sin d * (y * z)) by (apply Rmult_le_pos; assumption). lra.
  - exists w. split; [exact Hw|]. destruct (aligned _ _ _ (w * d) (px_pos s Hs) (between w Hw) Hr Hr2 Hw0) as [P Q]. apply (turn_aligned t s r (w * d) Hr P Q).
Qed.
Lemma piece_all t w : 0 <= w <= 1 -> exists s, 0 <= s <= 1 /\ Rabs (wx t s - cos (t + w * d)) <= tiny /\ Rabs (wy t s - sin (t + w * d)) <= tiny.
Proof.
  intros Hw. pose proof d_range as D. pose proof pi_bounds as Hp. set (v := w * d).
  destruct (IVT_cor (fun s => px d s * sin v - py d s * cos v) 0 1) as (s & Hs & Hz).
  - unfold px, py, bezier3. reg.
  - lra.
  - assert (P0 : px d 0 = 1) by (unfold px, bezier3; ring). assert (P1 : px d 1 = cos d) by (unfold px, bezier3; ring).
    assert (Q0 : py d 0 = 0) by (unfold py, bezier3; ring). assert (Q1 : py d 1 = sin d) by (unfold py, bezier3; ring). rewrite P0, P1, Q0, Q1.
    replace (cos d * sin v - sin d * cos v) with (- sin (d - v)) by (rewrite sin_minus; ring). 
    assert (0 <= sin v * sin (d - v)).
    { destruct (Rle_or_lt 0 d) as [S|S].
      - assert (0 <= v <= d) by (unfold v; nra). apply Rmult_le_pos; apply sin_ge_0; lra.
      - assert (d <= v <= 0) by (unfold v; nra). replace (sin v * sin (d - v)) with (sin (- v) * sin (- (d - v))) by (rewrite !sin_neg; ring). apply Rmult_le_pos; apply sin_ge_0; lra. }
    lra.
  - exists s. split; [exact Hs|]. destruct (radius s Hs) as (r & Hr & Hr2). destruct (aligned _ _ _ v (px_pos s Hs) (between w Hw) Hr Hr2 Hz) as [P Q]. apply (turn_aligned t s r v Hr P Q).
Qed.
End Unit.

(** ** The pieces of an arc *)
Section Pieces.
Context (cx cy al be rot : R) (Bcx : Rabs cx <= 250000) (Bcy : Rabs cy <= 250000) (Bal : 0 <= al <= 100000) (Bbe : 0 <= be <= 100000).
Notation ell := (ell_at cx cy al be rot).
Notation dir := (ell_dir al be rot).
Definition loose : R := / 32 + (al + be) / 800000.
Lemma roundness u v th z : Rabs (u - cos th) <= tiny -> Rabs (v - sin th) <= tiny ->
  beside (/ 32) (/ 32) z (cx + al * u * cos rot - be * v * sin rot, cy + al * u * sin rot + be * v * cos rot) -> beside loose loose z (ell th).
Proof using Bal Bbe.
  intros Hu Hv [Hx Hy]. unfold ell_at, loose. cbn [fst snd] in *. 
  assert (K : forall r m w a, 0 <= r -> Rabs m <= 1 -> Rabs (w - a) <= tiny -> Rabs (r * w * m - r * a * m) <= r * tiny).
  { intros r m w a Hr Hm Hw. replace (r * w * m - r * a * m) with (r * ((w - a) * m)) by ring. rewrite Rabs_mult, (Rabs_pos_eq r) by lra. apply Rmult_le_compat_l; [lra|]. rewrite Rabs_mult.
    replace tiny with (tiny * 1) by ring. apply Rmult_le_compat; try apply Rabs_pos; assumption. }
  assert (Bc : Rabs (cos rot) <= 1) by (pose proof (COS_bound rot); apply Rabs_le; lra). assert (Bs : Rabs (sin rot) <= 1) by (pose proof (SIN_bound rot); apply Rabs_le; lra).
  assert (A0 : 0 <= al) by lra. assert (B0 : 0 <= be) by lra.
  pose proof (K al _ _ _ A0 Bc Hu) as K1. pose proof (K be _ _ _ B0 Bs Hv) as K2. pose proof (K al _ _ _ A0 Bs Hu) as K3. pose proof (K be _ _ _ B0 Bc Hv) as K4.
  apply Rabs_le_inv in K1, K2, K3, K4, Hx, Hy. split; cbn [fst snd]; apply Rabs_le; lra.
Qed.
Section One.
Context (d : R) (Hd : Rabs d <= PI / 7).
Lemma handle_le : Rabs (handle d) <= 1.
Proof using Hd.
  rewrite (handle_kappa d). destruct (kappa_range d Hd) as [K _]. pose proof (SIN_bound d). rewrite Rabs_mult. assert (Rabs (sin d) <= 1) by (apply Rabs_le; lra). rewrite (Rabs_pos_eq (kappa d)) by lra.
  replace 1 with (1 * 1) by ring. apply Rmult_le_compat; try lra. apply Rabs_pos.
Qed.
Lemma wave_le p q m n : Rabs m <= 1 -> Rabs n <= 1 -> 0 <= p <= 100000 -> 0 <= q <= 100000 -> Rabs (p * m - q * n) <= 200000 /\ Rabs (p * m + q * n) <= 200000.
Proof.
  intros Hm Hn Hp Hq. apply Rabs_le_inv in Hm, Hn. assert (- 100000 <= p * m <= 100000) by nra. assert (- 100000 <= q * n <= 100000) by nra. split; apply Rabs_le; lra.
Qed.
Lemma one_le m n : Rabs m <= 1 -> Rabs n <= 1 -> Rabs (m * n) <= 1.
Proof. intros. rewrite Rabs_mult. replace 1 with (1 * 1) by ring. apply Rmult_le_compat; try apply Rabs_pos; assumption. Qed.
Lemma cs_le x : Rabs (cos x) <= 1 /\ Rabs (sin x) <= 1.
Proof. pose proof (COS_bound x). pose proof (SIN_bound x). split; apply Rabs_le; lra. Qed.
Lemma ell_user t : Rabs (fst (ell t)) <= 450000 /\ Rabs (snd (ell t)) <= 450000 /\ Rabs (fst (dir t)) <= 200000 /\ Rabs (snd (dir t)) <= 200000.
Proof using Bcx Bcy Bal Bbe.
  destruct (cs_le t) as [Ct St], (cs_le rot) as [Cr Sr]. unfold ell_at, ell_dir. cbn [fst snd].
  destruct (wave_le al be (cos t * cos rot) (sin t * sin rot) (one_le _ _ Ct Cr) (one_le _ _ St Sr) Bal Bbe) as [W1 _].
  destruct (wave_le al be (cos t * sin rot) (sin t * cos rot) (one_le _ _ Ct Sr) (one_le _ _ St Cr) Bal Bbe) as [_ W2].
  destruct (wave_le al be (sin t * cos rot) (cos t * sin rot) (one_le _ _ St Cr) (one_le _ _ Ct Sr) Bal Bbe) as [_ W3].
  destruct (wave_le al be (sin t * sin rot) (cos t * cos rot) (one_le _ _ St Sr) (one_le _ _ Ct Cr) Bal Bbe) as [W4 _].
  apply Rabs_le_inv in W1, W2, W3, W4. apply Rabs_le_inv in Bcx, Bcy. repeat split; apply Rabs_le; lra.
Qed.
Lemma user_near a p : pt_within 1 a (grid_R p) -> Rabs (fst p) <= 700000 -> Rabs (snd p) <= 700000 -> beside (/ 32) (/ 32) (user a) p.
Proof.
  intros [Z1 Z2] B1 B2. destruct (user_grid p) as [G1 G2]; [split; change (bpow radix2 24) with 16777216; lra|]. unfold user in *. cbn [fst snd] in *. apply IZR_le in Z1, Z2. rewrite <- Rabs_Zabs, minus_IZR in Z1, Z2. apply Rabs_le_inv in Z1, Z2, G1, G2. split; cbn [fst snd]; apply Rabs_le; lra.
Qed.
Lemma piece_points t x : op_within 1 x (piece cx cy al be rot t d) -> exists p q r, x = OpCubicTo p q r
  /\ beside (/ 32) (/ 32) (user p) (fst (ell t) + handle d * fst (dir t), snd (ell t) + handle d * snd (dir t))
  /\ beside (/ 32) (/ 32) (user q) (fst (ell (t + d)) - handle d * fst (dir (t + d)), snd (ell (t + d)) - handle d * snd (dir (t + d)))
  /\ beside (/ 32) (/ 32) (user r) (ell (t + d)).
Proof using Bcx Bcy Bal Bbe Hd.
  intros H. unfold piece in H. inversion H as [| | |p q r p' q' r' Hp Hq Hr|]; subst. exists p, q, r. split; [reflexivity|].
  destruct (ell_user t) as (E1 & E2 & D1 & D2), (ell_user (t + d)) as (E3 & E4 & D3 & D4). pose proof handle_le as Hh.
  assert (M : forall v, Rabs v <= 200000 -> Rabs (handle d * v) <= 200000). { intros v Hv. rewrite Rabs_mult. replace 200000 with (1 * 200000) by ring. apply Rmult_le_compat; try apply Rabs_pos; assumption. }
  apply M in D1, D2, D3, D4. apply Rabs_le_inv in E1, E2, D1, D2, E3, E4, D3, D4.
  split; [|split]; (apply user_near; [assumption| |]); cbn [fst snd]; apply Rabs_le; lra.
Qed.
Lemma piece_bezier t s : let p := (fst (ell t) + handle d * fst (dir t), snd (ell t) + handle d * snd (dir t)) in
  let q := (fst (ell (t + d)) - handle d * fst (dir (t + d)), snd (ell (t + d)) - handle d * snd (dir (t + d))) in
  (cx + al * wx d t s * cos rot - be * wy d t s * sin rot, cy + al * wx d t s * sin rot + be * wy d t s * cos rot)
  = (bezier3 s (fst (ell t)) (fst p) (fst q) (fst (ell (t + d))), bezier3 s (snd (ell t)) (snd p) (snd q) (snd (ell (t + d)))).
Proof. cbv zeta. unfold ell_at, ell_dir, wx, wy, px, py, bezier3. cbn [fst snd]. rewrite cos_plus, sin_plus. f_equal; ring. Qed.
Lemma piece_drawn t x a : op_within 1 x (piece cx cy al be rot t d) -> beside (/ 32) (/ 32) a (ell t) -> exists p q r, x = OpCubicTo p q r /\ beside (/ 32) (/ 32) (user r) (ell (t + d))
  /\ (let at_ s := (bezier3 s (fst a) (fst (user p)) (fst (user q)) (fst (user r)), bezier3 s (snd a) (snd (user p)) (snd (user q)) (snd (user r))) in
      (forall s, 0 <= s <= 1 -> exists w, 0 <= w <= 1 /\ beside loose loose (at_ s) (ell (t + w * d)))
      /\ (forall w, 0 <= w <= 1 -> exists s, 0 <= s <= 1 /\ beside loose loose (at_ s) (ell (t + w * d)))).
Proof using Bcx Bcy Bal Bbe Hd.
  intros H Ha. destruct (piece_points t x H) as (p & q & r & -> & Hp & Hq & Hr). exists p, q, r. split; [reflexivity|]. split; [exact Hr|]. cbv zeta.
  assert (N : forall s, 0 <= s <= 1 -> beside (/ 32) (/ 32) (bezier3 s (fst a) (fst (user p)) (fst (user q)) (fst (user r)), bezier3 s (snd a) (snd (user p)) (snd (user q)) (snd (user r)))
    (cx + al * wx d t s * cos rot - be * wy d t s * sin rot, cy + al * wx d t s * sin rot + be * wy d t s * cos rot)).
  { intros s Hs. rewrite piece_bezier. destruct Ha, Hp, Hq, Hr. split; cbn [fst snd]; apply bez3_near; assumption. }
  split.
  - intros s Hs. destruct (piece_on d Hd t s Hs) as (w & Hw & H1 & H2). exists w. split; [exact Hw|]. exact (roundness _ _ _ _ H1 H2 (N s Hs)).
  - intros w Hw. destruct (piece_all d Hd t w Hw) as (s & Hs & H1 & H2). exists s. split; [exact Hs|]. exact (roundness _ _ _ _ H1 H2 (N s Hs)).
Qed.
(** a chain of pieces *)
Lemma chain_drawn t f : forall n m o a, Forall2 (op_within 1) o (map (fun i => piece cx cy al be rot (t + INR i * d) d) (seq m n)) -> beside (/ 32) (/ 32) a (ell (t + INR m * d)) ->
  (forall z, runs_through f a (map bow_of o) z -> exists i w, (m <= i < m + n)%nat /\ 0 <= w <= 1 /\ beside loose loose z (ell (t + (INR i + w) * d)))
  /\ (forall i w, (m <= i < m + n)%nat -> 0 <= w <= 1 -> exists z, runs_through f a (map bow_of o) z /\ beside loose loose z (ell (t + (INR i + w) * d))).
Proof using Bcx Bcy Bal Bbe Hd.
  induction n as [|n IH]; intros m o a H Ha; cbn [seq map] in H; inversion H as [|x y l l' Hx Hl]; subst; clear H.
  { split; [intros z Hz; inversion Hz|intros; lia]. }
  destruct (piece_drawn _ x a Hx Ha) as (p & q & r & -> & Hr & On & All). clear Hx.
  assert (Em : t + INR m * d + d = t + INR (S m) * d) by (rewrite S_INR; ring). rewrite Em in Hr. destruct (IH (S m) l (user r) Hl Hr) as [I1 I2]. cbn [map bow_of].
  assert (Ew : forall w, t + INR m * d + w * d = t + (INR m + w) * d) by (intros; ring).
  split.
  - intros z Hz. inversion Hz; subst.
    + match goal with K : 0 <= ?s <= 1 |- _ => destruct (On s K) as (w & Hw & Hb) end. exists m, w. split; [lia|]. split; [exact Hw|]. rewrite Ew in Hb. exact Hb.
    + match goal with K : runs_through _ _ _ z |- _ => destruct (I1 z K) as (i & w & Hi & Hw & Hb) end. exists i, w. split; [lia|]. split; assumption.
  - intros i w Hi Hw. destruct (Nat.eq_dec i m) as [->|Hn].
    + destruct (All w Hw) as (s & Hs & Hb). eexists. split; [apply rt_cubic; exact Hs|]. rewrite Ew in Hb. exact Hb.
    + destruct (I2 i w ltac:(lia) Hw) as (z & Hz & Hb). exists z. split; [apply rt_after_cubic, Hz|exact Hb].
Qed.
End One.
(** the whole arc *)
Lemma arc_drawn t d n o f a : (1 <= n)%nat -> Rabs d <= INR n * (PI / 7) -> Forall2 (op_within 1) o (pieces cx cy al be rot t d n) -> beside (/ 32) (/ 32) a (ell t) ->
  (forall z, runs_through f a (map bow_of o) z -> exists w, 0 <= w <= 1 /\ beside loose loose z (ell (t + w * d)))
  /\ (forall w, 0 <= w <= 1 -> exists z, runs_through f a (map bow_of o) z /\ beside loose loose z (ell (t + w * d))).
Proof using Bcx Bcy Bal Bbe.
  intros Hn Hd H Ha. assert (N1 : 1 <= INR n) by (apply (le_INR 1); exact Hn).
  assert (Hs : Rabs (d / INR n) <= PI / 7). { unfold Rdiv at 1. rewrite Rabs_mult, (Rabs_pos_eq (/ INR n)) by (apply Rlt_le, Rinv_0_lt_compat; lra). apply Rmult_le_reg_r with (INR n); [lra|]. rewrite Rmult_assoc, Rinv_l by lra. lra. }
  destruct (chain_drawn (d / INR n) Hs t f n 0 o a) as [C1 C2].
  - exact H.
  - cbn [INR]. replace (t + 0 * (d / INR n)) with t by ring. exact Ha.
  - split.
    + intros z Hz. destruct (C1 z Hz) as (i & w & Hi & Hw & Hb). exists ((INR i + w) / INR n). assert (Hi' : INR i <= INR n - 1) by (replace (INR n - 1) with (INR (n - 1)) by (rewrite minus_INR by exact Hn; reflexivity); apply le_INR; lia). pose proof (pos_INR i).
      split.
      * split; [unfold Rdiv; apply Rmult_le_pos; [lra|apply Rlt_le, Rinv_0_lt_compat; lra]|]. apply Rmult_le_reg_r with (INR n); [lra|]. unfold Rdiv. rewrite Rmult_assoc, Rinv_l by lra. lra.
      * replace ((INR i + w) / INR n * d) with ((INR i + w) * (d / INR n)) by (field; lra). exact Hb.
    + intros w Hw. set (x := w * INR n). assert (Hx : 0 <= x <= INR n) by (unfold x; nra).
      assert (Ex : exists i v, (i < n)%nat /\ 0 <= v <= 1 /\ x = INR i + v).
      { destruct (Rle_or_lt (INR n - 1) x) as [L|L].
        - exists (n - 1)%nat, (x - (INR n - 1)). split; [lia|]. rewrite minus_INR by exact Hn. cbn [INR]. lra.
        - pose proof (Zfloor_lb x). pose proof (Zfloor_ub x). assert (0 <= Zfloor x)%Z by (apply Zfloor_lub; lra). exists (Z.to_nat (Zfloor x)), (x - IZR (Zfloor x)).
          assert (Ez : INR (Z.to_nat (Zfloor x)) = IZR (Zfloor x)) by (rewrite INR_IZR_INZ, Z2Nat.id by assumption; reflexivity). split; [|rewrite Ez; lra].
          apply INR_lt. rewrite Ez. lra. }
      destruct Ex as (i & v & Hi & Hv & E). destruct (C2 i v ltac:(lia) Hv) as (z & Hz & Hb). exists z. split; [exact Hz|]. rewrite <- E in Hb. unfold x in Hb. replace (w * INR n * (d / INR n)) with (w * d) in Hb by (field; lra). exact Hb.
Qed.
End Pieces.

(** * ProofsCorner: the curves of a rounded corner *)
From Coq Require Import ZArith Lia Reals Lra Psatz.
From Flocq Require Import Core.Core.
From Verif Require Import F64 RealEnv SpecArc SpecCurve SpecCorner ProofsCircle ProofsCurve.
Local Open Scope R_scope.

(** ** A piece of the unit circle with handles of length [h] *)
Section Gore.
Context (d h : R).
Notation c := (cos d). Notation g := (sin d).
Definition gx s : R := bezier3 s 1 1 (c + h * g) c.
Definition gy s : R := bezier3 s 0 h (g - h * c) g.
Lemma gore_norm s : gx s * gx s + gy s * gy s - 1 = mm s * mm s * ((1 - 2 * mm s) * (9 * (h * h) + 6 * (c + h * g - 1)) + mm s * (20 * (c - 1) + 36 * (h * g) - 18 * (h * h) * c)).
Proof using.
  assert (H : g * g + c * c - 1 = 0) by (pose proof (sin2_cos2 d) as H; unfold Rsqr in H; lra).
  transitivity (mm s * mm s * ((1 - 2 * mm s) * (9 * (h * h) + 6 * (c + h * g - 1)) + mm s * (20 * (c - 1) + 36 * (h * g) - 18 * (h * h) * c))
    + (g * g + c * c - 1) * ((3 * s ^ 2 * (1 - s)) ^ 2 * (1 + h * h) + (s ^ 3) ^ 2 + 2 * (3 * s ^ 2 * (1 - s)) * s ^ 3)); [|rewrite H; ring].
  unfold gx, gy, mm, bezier3. ring.
Qed.
(** good handles *)
Definition flat_gore : Prop := 0 < d < PI / 2 /\ 0 <= h /\ h * c <= g
  /\ - 0.0410 <= 9 * (h * h) + 6 * (c + h * g - 1) <= 0 /\ - 0.0870 <= 20 * (c - 1) + 36 * (h * g) - 18 * (h * h) * c <= 0.
Context (Hf : flat_gore).
Lemma gore_radius s : 0 <= s <= 1 -> let r := sqrt (gx s * gx s + gy s * gy s) in 0 <= 1 - r <= 0.0014 /\ r * r = gx s * gx s + gy s * gy s.
Proof using Hf.
  intros Hs r. destruct Hf as (_ & _ & _ & H1 & H2). pose proof (gore_norm s) as Hn. pose proof (mm_range s Hs) as Hm. set (k1 := 9 * (h * h) + _) in *. set (k2 := 20 * (c - 1) + _ - _) in *.
  set (N := gx s * gx s + gy s * gy s) in *. set (m := mm s) in *. clearbody N m k1 k2.
  assert (Hk : - 0.04225 <= (1 - 2 * m) * k1 + m * k2 <= 0) by nra. set (k := (1 - 2 * m) * k1 + m * k2) in *. clearbody k.
  assert (Hq : 0 <= m * m <= / 16) by nra. assert (HN : 0.99735 <= N <= 1) by nra.
  assert (Hr2 : r * r = N) by (apply sqrt_sqrt; lra). split; [|exact Hr2]. pose proof (sqrt_pos N) as Hr0. fold r in Hr0. clearbody r.
  assert (Hr1 : r <= 1) by nra. assert (0.99 <= r) by nra. split; [lra|]. assert ((1 - r) * (1 + r) = 1 - N) by (rewrite <- Hr2; ring). nra.
Qed.
Lemma gore_cone s : 0 <= s <= 1 -> 0 < gx s /\ 0 <= gy s /\ 0 <= gx s * g - gy s * c.
Proof using Hf.
  intros Hs. destruct Hf as (Hd & Hh & Hhc & _). destruct (weights s Hs) as (W0 & W1 & W2 & W3).
  assert (Hc : 0 < c) by (apply cos_gt_0; lra). assert (Hg : 0 < g) by (apply sin_gt_0; lra). assert (Hc1 : c <= 1) by apply COS_bound. pose proof (sin2_cos2 d) as Hq. unfold Rsqr in Hq.
  assert (E3 : gx s * g - gy s * c = (1 - s) ^ 3 * g + 3 * s * (1 - s) ^ 2 * (g - h * c) + 3 * s ^ 2 * (1 - s) * h).
  { unfold gx, gy, bezier3. transitivity ((1 - s) ^ 3 * g + 3 * s * (1 - s) ^ 2 * (g - h * c) + 3 * s ^ 2 * (1 - s) * (h * (g * g + c * c))); [ring|]. rewrite Hq. ring. }
  rewrite E3. unfold gx, gy, bezier3. set (w0 := (1 - s) ^ 3) in *. set (w1 := 3 * s * (1 - s) ^ 2) in *. set (w2 := 3 * s ^ 2 * (1 - s)) in *. set (w3 := s ^ 3) in *.
  assert (W : w0 + w1 + w2 + w3 = 1) by (unfold w0, w1, w2, w3; ring). clearbody w0 w1 w2 w3. clear E3. split; [|split].
  - assert (0 <= h * g) by (apply Rmult_le_pos; lra). set (x := h * g) in *. clearbody x.
    assert (c <= w0 * 1 + w1 * 1 + w2 * (c + x) + w3 * c) by (replace c with ((w0 + w1 + w2 + w3) * c) at 1 by (rewrite W; ring); nra). lra.
  - rewrite Rmult_0_r, Rplus_0_l. repeat apply Rplus_le_le_0_compat; apply Rmult_le_pos; lra.
  - repeat apply Rplus_le_le_0_compat; apply Rmult_le_pos; lra.
Qed.
Lemma gore_on s : 0 <= s <= 1 -> exists v r, 0 <= v <= d /\ 0 <= 1 - r <= 0.0014 /\ gx s = r * cos v /\ gy s = r * sin v.
Proof using Hf.
  intros Hs. destruct (gore_radius s Hs) as [Hr Hr2]. set (r := sqrt _) in *. clearbody r. destruct (gore_cone s Hs) as (K1 & K2 & K3). destruct Hf as (Hd & _). assert (R0 : r <> 0) by lra.
  destruct (circle_point (gx s / r) (gy s / r)) as (v & Hv & Hc & Hsn). { transitivity ((gx s * gx s + gy s * gy s) / (r * r)); [field; exact R0|]. rewrite <- Hr2. field. exact R0. }
  assert (Ex : gx s = r * cos v) by (rewrite Hc; field; exact R0). assert (Ey : gy s = r * sin v) by (rewrite Hsn; field; exact R0).
  exists v, r. split; [|auto]. rewrite Ex in K1. rewrite Ey in K2. assert (Cv : 0 < cos v) by nra. assert (Sv : 0 <= sin v) by nra.
  assert (Sd : 0 <= sin (d - v)) by (rewrite sin_minus; rewrite Ex, Ey in K3; nra).
  assert (V1 : v <= PI / 2). { apply Rnot_lt_le. intros L. pose proof (cos_le_0 v ltac:(lra) ltac:(pose proof PI_RGT_0; lra)). lra. }
  assert (V0 : 0 <= v). { apply Rnot_lt_le. intros L. destruct (Req_dec v (- PI)) as [->|N]; [rewrite cos_neg, cos_PI in Cv; lra|]. pose proof (sin_lt_0_var v ltac:(lra) L). lra. }
  split; [exact V0|]. apply Rnot_lt_le. intros L. pose proof (sin_lt_0_var (d - v) ltac:(lra) ltac:(lra)). lra.
Qed.
Lemma gore_all v : 0 <= v <= d -> exists s r, 0 <= s <= 1 /\ 0 <= 1 - r <= 0.0014 /\ gx s = r * cos v /\ gy s = r * sin v.
Proof using Hf.
  intros Hv. destruct (IVT_cor (fun s => gx s * sin v - gy s * cos v) 0 1) as (s & Hs & Hz).
  - unfold gx, gy, bezier3. reg.
  - lra.
  - destruct Hf as (Hd & _). assert (P0 : gx 0 = 1) by (unfold gx, bezier3; ring). assert (P1 : gx 1 = c) by (unfold gx, bezier3; ring).
    assert (Q0 : gy 0 = 0) by (unfold gy, bezier3; ring). assert (Q1 : gy 1 = g) by (unfold gy, bezier3; ring). rewrite P0, P1, Q0, Q1.
    replace (c * sin v - g * cos v) with (- sin (d - v)) by (rewrite sin_minus; ring).
    assert (0 <= sin (d - v)) by (apply sin_ge_0; lra). assert (0 <= sin v) by (apply sin_ge_0; lra). nra.
  - cbv beta in Hz. destruct (gore_radius s Hs) as [Hr Hr2]. set (r := sqrt _) in *. clearbody r. destruct (gore_cone s Hs) as (K1 & K2 & _). destruct Hf as (Hd & _).
    exists s, r. split; [exact Hs|]. split; [exact Hr|]. assert (Cv : 0 < cos v) by (apply cos_gt_0; lra). assert (Sv : 0 <= sin v) by (apply sin_ge_0; lra).
    pose proof (sin2_cos2 v) as Hq. unfold Rsqr in Hq. set (p := gx s) in *. set (q := gy s) in *. set (a := cos v) in *. set (b := sin v) in *. clearbody p q a b.
    assert (El : p = (p * a + q * b) * a) by (transitivity (p * (b * b + a * a) - b * (p * b - q * a)); [rewrite Hq, Hz; ring|ring]).
    assert (Em : q = (p * a + q * b) * b) by (transitivity (q * (b * b + a * a) + a * (p * b - q * a)); [rewrite Hq, Hz; ring|ring]).
    set (k := p * a + q * b) in *. assert (Hk : 0 <= k) by (unfold k; nra). assert (k * k = r * r) by (rewrite Hr2; rewrite El at 2; rewrite El at 1; rewrite Em at 2; rewrite Em at 1; fold k; transitivity (k * k * (b * b + a * a)); [rewrite Hq; ring|ring]).
    assert (k = r) by (apply Rsqr_inj; unfold Rsqr; lra). subst k. clearbody r || idtac. rewrite <- H0. split; assumption.
Qed.
End Gore.

Lemma tenth : 0.30901 <= sin (PI / 10) <= 0.30902 /\ 0.951055 <= cos (PI / 10) <= 0.951060.
Proof.
  pose proof PI_RGT_0. set (x := PI / 10).
  assert (Hs : 0 < sin x) by (apply sin_gt_0; unfold x; lra). assert (Hc : 0 < cos x) by (apply cos_gt_0; unfold x; lra).
  assert (E : sin (2 * x) = cos (2 * x + x)) by (rewrite <- cos_shift; f_equal; unfold x; field).
  rewrite cos_plus, sin_2a, cos_2a in E. pose proof (sin2_cos2 x) as P. unfold Rsqr in P. set (s := sin x) in *. set (c := cos x) in *.
  assert (E2 : 2 * s = 1 - 4 * (s * s)).
  { apply (Rmult_eq_reg_r c); [|lra]. transitivity ((c * c - s * s) * c - 2 * s * c * s); [rewrite <- E; ring|]. replace (c * c) with (1 - s * s) by lra. ring. }
  assert (Hb : 0.30901 <= s <= 0.30902) by (split; nra). split; [exact Hb|]. clearbody s c. assert (C2 : c * c = 1 - s * s) by lra. split; nra.
Qed.
Lemma eighth : 0.38267 <= sin (PI / 8) <= 0.38270 /\ 0.92387 <= cos (PI / 8) <= 0.92389.
Proof.
  pose proof PI_RGT_0. set (x := PI / 8).
  assert (Hs : 0 < sin x) by (apply sin_gt_0; unfold x; lra). assert (Hc : 0 < cos x) by (apply cos_gt_0; unfold x; lra).
  assert (E : cos (2 * x) = 1 / sqrt 2) by (rewrite <- cos_PI4; f_equal; unfold x; field).
  rewrite cos_2a_sin in E. pose proof (sin2_cos2 x) as P. unfold Rsqr in P. set (s := sin x) in *. set (c := cos x) in *.
  assert (Q2 : 1.41421 <= sqrt 2 <= 1.41422). { pose proof (sqrt_sqrt 2 ltac:(lra)) as H2. pose proof (sqrt_pos 2). split; nra. }
  assert (I2 : 0.707103 <= 1 / sqrt 2 <= 0.70711).
  { set (q := sqrt 2) in *. assert (Hi : 1 / q * q = 1) by (field; lra). set (i := 1 / q) in *. clearbody i q. split; nra. }
  set (i := 1 / sqrt 2) in *. clearbody i s c. assert (S2 : s * s = (1 - i) / 2) by lra. assert (C2 : c * c = (1 + i) / 2) by lra. split; split; nra.
Qed.
Lemma flat_tenth : flat_gore (PI / 10) (6 / 64).
Proof.
  pose proof tenth as [Hs Hc]. pose proof PI_RGT_0. unfold flat_gore. set (s := sin (PI / 10)) in *. set (c := cos (PI / 10)) in *. clearbody s c. split; [lra|]. split; [lra|]. split; [lra|]. split; lra.
Qed.
Lemma flat_eighth : flat_gore (PI / 8) (8 / 64).
Proof.
  pose proof eighth as [Hs Hc]. pose proof PI_RGT_0. unfold flat_gore. set (s := sin (PI / 8)) in *. set (c := cos (PI / 8)) in *. clearbody s c. split; [lra|]. split; [lra|]. split; [lra|]. split; lra.
Qed.

(** ** A corner: [n] pieces of the angle [d] *)
Section Corner.
Context (cx cy r t0 d h : R) (Hf : flat_gore d h) (Hr : 0 <= r).
Notation at_t t := (ellipse_pt cx cy r r t).
Notation near := (beside (r * 0.0014) (r * 0.0014)).
Definition ray (i : nat) : R := t0 + INR i * d.
Lemma ray_next i : ray (S i) = ray i + d. Proof using. unfold ray. rewrite S_INR. ring. Qed.
Definition gore (i : nat) : bow :=
  let t := ray i in let t' := ray (S i) in
  Bend3 (cx + r * (cos t - h * sin t), cy + r * (sin t + h * cos t)) (cx + r * (cos t' + h * sin t'), cy + r * (sin t' - h * cos t')) (at_t t').
Lemma gore_pt i s : let t := ray i in let t' := ray (S i) in
  (bezier3 s (fst (at_t t)) (cx + r * (cos t - h * sin t)) (cx + r * (cos t' + h * sin t')) (fst (at_t t')),
   bezier3 s (snd (at_t t)) (cy + r * (sin t + h * cos t)) (cy + r * (sin t' - h * cos t')) (snd (at_t t')))
  = (cx + r * (cos t * gx d h s - sin t * gy d h s), cy + r * (sin t * gx d h s + cos t * gy d h s)).
Proof using.
  cbv zeta. rewrite ray_next. set (t := ray i). unfold ellipse_pt, gx, gy, bezier3. cbn [fst snd]. rewrite cos_plus, sin_plus. f_equal; ring.
Qed.
Lemma near_turn t v k a b : 0 <= 1 - k <= 0.0014 -> a = k * cos v -> b = k * sin v ->
  near (cx + r * (cos t * a - sin t * b), cy + r * (sin t * a + cos t * b)) (at_t (t + v)).
Proof using Hr.
  intros Hk -> ->. unfold beside, ellipse_pt. cbn [fst snd]. rewrite cos_plus, sin_plus.
  assert (K : forall u, -1 <= u <= 1 -> Rabs (r * ((k - 1) * u)) <= r * 0.0014).
  { intros u Hu. rewrite Rabs_mult, (Rabs_pos_eq r) by exact Hr. apply Rmult_le_compat_l; [exact Hr|]. apply Rabs_le. nra. }
  pose proof (COS_bound (t + v)) as B1. pose proof (SIN_bound (t + v)) as B2. rewrite cos_plus in B1. rewrite sin_plus in B2. apply K in B1, B2.
  split; [eapply Rle_trans; [|exact B1]|eapply Rle_trans; [|exact B2]]; apply Req_le; f_equal; ring.
Qed.
Lemma gores_on m : forall i f l z, runs_through f (at_t (ray i)) (map gore (seq i m) ++ l) z ->
  (exists v, ray i <= v <= ray (i + m) /\ near z (at_t v)) \/ runs_through f (at_t (ray (i + m))) l z.
Proof using Hf Hr.
  induction m as [|m IH]; intros i f l z Hz; cbn [seq map app] in Hz. { right. replace (i + 0)%nat with i by lia. exact Hz. }
  assert (Hd : 0 < d) by (destruct Hf as ((? & _) & _); assumption). unfold gore at 1 in Hz. inversion Hz as [| |? ? ? ? ? ? s Hs| | | | |? ? ? ? ? ? ? Hz'|]; subst.
  - left. cbn [fst snd]. pose proof (gore_pt i s) as Ep. cbv zeta in Ep. cbn [fst snd] in Ep. rewrite Ep. destruct (gore_on d h Hf s Hs) as (v & k & Hv & Hk & Ea & Eb).
    exists (ray i + v). split; [|now apply (near_turn _ v k)]. unfold ray. rewrite plus_INR, S_INR. pose proof (pos_INR m). nra.
  - apply IH in Hz' as [(v & Hv & Hn)|Hz'].
    + left. exists v. split; [|exact Hn]. rewrite ray_next in Hv. replace (i + S m)%nat with (S i + m)%nat by lia. lra.
    + right. replace (i + S m)%nat with (S i + m)%nat by lia. exact Hz'.
Qed.
Lemma gores_all m : forall i f l v, ray i <= v <= ray (i + m) -> (0 < m)%nat -> exists z, runs_through f (at_t (ray i)) (map gore (seq i m) ++ l) z /\ near z (at_t v).
Proof using Hf Hr.
  induction m as [|m IH]; intros i f l v Hv Hm; [lia|]. cbn [seq map app].
  destruct (Rle_or_lt v (ray (S i))) as [L|L].
  - rewrite ray_next in L. destruct (gore_all d h Hf (v - ray i)) as (s & k & Hs & Hk & Ea & Eb); [lra|]. eexists. split; [apply rt_cubic, Hs|]. cbn [fst snd].
    pose proof (gore_pt i s) as Ep. cbv zeta in Ep. cbn [fst snd] in Ep. rewrite Ep. replace v with (ray i + (v - ray i)) by ring. now apply (near_turn _ _ k).
  - assert (0 < m)%nat. { destruct m; [|lia]. replace (i + 1)%nat with (S i) in Hv by lia. lra. }
    destruct (IH (S i) f l v) as (z & Hz & Hn); [replace (S i + m)%nat with (i + S m)%nat by lia; lra|assumption|]. exists z. split; [apply rt_after_cubic, Hz|exact Hn].
Qed.
Lemma gores_past m : forall i f l z, runs_through f (at_t (ray (i + m))) l z -> runs_through f (at_t (ray i)) (map gore (seq i m) ++ l) z.
Proof using.
  induction m as [|m IH]; intros i f l z Hz; cbn [seq map app]. { replace (i + 0)%nat with i in Hz by lia. exact Hz. }
  apply rt_after_cubic, (IH (S i)). replace (S i + m)%nat with (i + S m)%nat by lia. exact Hz.
Qed.
End Corner.

(** ** The outline in exact arithmetic *)
(** number of pieces, angle and handle of a corner *)
Definition cut (five : bool) : nat * R * R := if five then (5%nat, PI / 10, 6 / 64) else (4%nat, PI / 8, 8 / 64).
Lemma cut_flat b : flat_gore (snd (fst (cut b))) (snd (cut b)).
Proof. destruct b; [exact flat_tenth|exact flat_eighth]. Qed.
Lemma cut_whole b t : ray t (snd (fst (cut b))) (0 + fst (fst (cut b))) = t + PI / 2.
Proof. destruct b; unfold ray; cbn [cut fst snd Nat.add]; rewrite INR_IZR_INZ; cbn [Z.of_nat Pos.of_succ_nat Pos.succ]; field. Qed.
Lemma ray_0 t d : ray t d 0 = t. Proof. unfold ray. cbn [INR]. ring. Qed.
Definition bends (cx cy r t : R) (b : bool) : list bow := map (gore cx cy r t (snd (fst (cut b))) (snd (cut b))) (seq 0 (fst (fst (cut b)))).
Section Bends.
Context (cx cy r t : R) (b : bool) (Hr : 0 <= r).
Notation at_t t := (ellipse_pt cx cy r r t).
Notation near := (beside (r * 0.0014) (r * 0.0014)).
Lemma bends_on f a l z : a = at_t t -> runs_through f a (bends cx cy r t b ++ l) z -> (exists v, t <= v <= t + PI / 2 /\ near z (at_t v)) \/ runs_through f (at_t (t + PI / 2)) l z.
Proof using Hr.
  intros -> Hz. rewrite <- (ray_0 t (snd (fst (cut b)))) in Hz at 1. apply gores_on in Hz; [|apply cut_flat|exact Hr]. rewrite cut_whole, ray_0 in Hz. exact Hz.
Qed.
Lemma bends_all f a l v : a = at_t t -> t <= v <= t + PI / 2 -> exists z, runs_through f a (bends cx cy r t b ++ l) z /\ near z (at_t v).
Proof using Hr.
  intros -> Hv. destruct (gores_all cx cy r t _ _ (cut_flat b) Hr (fst (fst (cut b))) 0 f l v) as (z & Hz & Hn); [rewrite cut_whole, ray_0; exact Hv|destruct b; cbn; lia|].
  rewrite ray_0 in Hz. exists z. auto.
Qed.
Lemma bends_past f a l z : a = at_t t -> runs_through f (at_t (t + PI / 2)) l z -> runs_through f a (bends cx cy r t b ++ l) z.
Proof using. intros -> Hz. rewrite <- (ray_0 t (snd (fst (cut b)))) at 1. apply gores_past. rewrite cut_whole. exact Hz. Qed.
End Bends.
Definition turn_bows (b : bool) (cx cy r t : R) : list bow := Straight (ellipse_pt cx cy r r t) :: bends cx cy r t b ++ [Straight (ellipse_pt cx cy r r (t + PI / 2))].
Definition rim_bows (b1 b2 b3 b4 : bool) (x0 y0 x1 y1 r : R) : list bow :=
  Hop (x0 + r, y0) :: Straight (x1 - r, y0) :: turn_bows b1 (x1 - r) (y0 + r) r (- (PI / 2))
  ++ Straight (x1, y1 - r) :: turn_bows b2 (x1 - r) (y1 - r) r 0
  ++ Straight (x0 + r, y1) :: turn_bows b3 (x0 + r) (y1 - r) r (PI / 2)
  ++ Straight (x0, y0 + r) :: turn_bows b4 (x0 + r) (y0 + r) r PI ++ [Back].
Lemma near_self e z : 0 <= e -> beside e e z z.
Proof. intros He. split; rewrite Rminus_diag_eq, Rabs_R0 by reflexivity; exact He. Qed.
Lemma bezier1_self s a : bezier1 s a a = a. Proof. unfold bezier1. ring. Qed.
Section Turns.
Context (cx cy r t : R) (b : bool) (Hr : 0 <= r).
Notation at_t t := (ellipse_pt cx cy r r t).
Notation near := (beside (r * 0.0014) (r * 0.0014)).
Lemma turn_on f a l z : a = at_t t -> runs_through f a (turn_bows b cx cy r t ++ l) z -> (exists v, t <= v <= t + PI / 2 /\ near z (at_t v)) \/ runs_through f (at_t (t + PI / 2)) l z.
Proof using Hr.
  intros -> Hz. assert (He : 0 <= r * 0.0014) by nra. pose proof PI_RGT_0. unfold turn_bows in Hz. rewrite <- app_comm_cons, <- app_assoc in Hz. inversion Hz as [? ? ? ? s Hs| | | | |? ? ? ? ? Hz'| | |]; subst.
  - left. exists t. split; [lra|]. rewrite !bezier1_self. rewrite <- surjective_pairing. now apply near_self.
  - apply bends_on in Hz' as [H1|Hz']; [now left| |exact Hr|reflexivity]. cbn [app] in Hz'. inversion Hz' as [? ? ? ? s Hs| | | | |? ? ? ? ? Hz2| | |]; subst; [|now right].
    left. exists (t + PI / 2). split; [lra|]. rewrite !bezier1_self. rewrite <- surjective_pairing. now apply near_self.
Qed.
Lemma turn_all f a l v : a = at_t t -> t <= v <= t + PI / 2 -> exists z, runs_through f a (turn_bows b cx cy r t ++ l) z /\ near z (at_t v).
Proof using Hr.
  intros -> Hv. unfold turn_bows. rewrite <- app_comm_cons, <- app_assoc. destruct (bends_all cx cy r t b Hr f (at_t t) ([Straight (at_t (t + PI / 2))] ++ l) v eq_refl Hv) as (z & Hz & Hn).
  exists z. split; [apply rt_after_line, Hz|exact Hn].
Qed.
Lemma turn_past f a l z : a = at_t t -> runs_through f (at_t (t + PI / 2)) l z -> runs_through f a (turn_bows b cx cy r t ++ l) z.
Proof using. intros -> Hz. unfold turn_bows. rewrite <- app_comm_cons, <- app_assoc. apply rt_after_line. apply bends_past; [reflexivity|]. apply rt_after_line, Hz. Qed.
End Turns.

Lemma outside_lo a b x : x <= a -> a <= b -> outside a b x = a - x.
Proof. intros H1 H2. unfold outside. rewrite (Rmax_left (a - x)) by lra. apply Rmax_right. lra. Qed.
Lemma outside_hi a b x : b <= x -> a <= b -> outside a b x = x - b.
Proof. intros H1 H2. unfold outside. rewrite (Rmax_right (a - x)) by lra. apply Rmax_right. lra. Qed.
Lemma outside_in a b x : a <= x <= b -> outside a b x = 0.
Proof. intros H. unfold outside. apply Rmax_left, Rmax_lub; lra. Qed.
Lemma unit_quarter t u v : u * u + v * v = 1 -> 0 <= cos t * u + sin t * v -> 0 <= cos t * v - sin t * u -> exists w, t <= w <= t + PI / 2 /\ u = cos w /\ v = sin w.
Proof.
  intros H1 H2 H3. pose proof (sin2_cos2 t) as Hq. unfold Rsqr in Hq. set (a := cos t * u + sin t * v) in *. set (b := cos t * v - sin t * u) in *.
  assert (Hu : u = cos t * a - sin t * b). { unfold a, b. transitivity (u * (sin t * sin t + cos t * cos t)); [rewrite Hq; ring|ring]. }
  assert (Hv : v = sin t * a + cos t * b). { unfold a, b. transitivity (v * (sin t * sin t + cos t * cos t)); [rewrite Hq; ring|ring]. }
  assert (H4 : a * a + b * b = 1). { unfold a, b. transitivity ((sin t * sin t + cos t * cos t) * (u * u + v * v)); [ring|rewrite Hq, H1; ring]. }
  destruct (circle_point a b H4) as (w & Hw & Ca & Sb). exists (t + w). rewrite cos_plus, sin_plus, Ca, Sb. split; [|split; [exact Hu|rewrite Hv; ring]].
  pose proof PI_RGT_0. clearbody a b. rewrite <- Ca in H2. rewrite <- Sb in H3.
  destruct (Rlt_or_le w 0) as [L|L].
  - destruct (Req_dec w (- PI)) as [->|N]; [rewrite cos_neg, cos_PI in H2; lra|]. pose proof (sin_lt_0_var w ltac:(lra) L). lra.
  - split; [lra|]. destruct (Rlt_or_le (PI / 2) w) as [G|G]; [|lra]. pose proof (cos_lt_0 w G ltac:(lra)). lra.
Qed.
Section Rim.
Context (x0 y0 x1 y1 r : R) (Hr : 0 < r) (Hw : 2 * r <= x1 - x0) (Hh : 2 * r <= y1 - y0) (b1 b2 b3 b4 : bool).
Notation Rim := (rim x0 y0 x1 y1 r).
Notation L := (rim_bows b1 b2 b3 b4 x0 y0 x1 y1 r).
Notation near := (beside (r * 0.0014) (r * 0.0014)).
Lemma side_x x y : x0 + r <= x <= x1 - r -> y = y0 \/ y = y1 -> Rim (x, y).
Proof using Hr Hh. intros Hx Hy. unfold rim. cbn [fst snd]. rewrite (outside_in _ _ x) by exact Hx. destruct Hy as [-> | ->]; [rewrite outside_lo by lra|rewrite outside_hi by lra]; ring. Qed.
Lemma side_y x y : y0 + r <= y <= y1 - r -> x = x0 \/ x = x1 -> Rim (x, y).
Proof using Hr Hw. intros Hy Hx. unfold rim. cbn [fst snd]. rewrite (outside_in _ _ y) by exact Hy. destruct Hx as [-> | ->]; [rewrite outside_lo by lra|rewrite outside_hi by lra]; ring. Qed.
Lemma on_corner cx cy v : (cx = x0 + r /\ cos v <= 0 \/ cx = x1 - r /\ 0 <= cos v) -> (cy = y0 + r /\ sin v <= 0 \/ cy = y1 - r /\ 0 <= sin v) -> Rim (ellipse_pt cx cy r r v).
Proof using Hr Hw Hh.
  intros Hx Hy. unfold rim, ellipse_pt. cbn [fst snd]. pose proof (sin2_cos2 v) as Hq. unfold Rsqr in Hq.
  assert (Ex : outside (x0 + r) (x1 - r) (cx + r * cos v) ^ 2 = (r * cos v) ^ 2) by (destruct Hx as [[-> H]|[-> H]]; [rewrite outside_lo by nra|rewrite outside_hi by nra]; ring).
  assert (Ey : outside (y0 + r) (y1 - r) (cy + r * sin v) ^ 2 = (r * sin v) ^ 2) by (destruct Hy as [[-> H]|[-> H]]; [rewrite outside_lo by nra|rewrite outside_hi by nra]; ring).
  rewrite Ex, Ey. transitivity (r * r * (sin v * sin v + cos v * cos v)); [ring|rewrite Hq; ring].
Qed.
Lemma between s a b lo hi : 0 <= s <= 1 -> lo <= a <= hi -> lo <= b <= hi -> lo <= bezier1 s a b <= hi.
Proof using. intros Hs Ha Hb. unfold bezier1. split; nra. Qed.
(** the ends of the corners *)
Lemma pt_top cx cy : ellipse_pt cx cy r r (- (PI / 2)) = (cx, cy - r). Proof using. unfold ellipse_pt. rewrite cos_neg, sin_neg, cos_PI2, sin_PI2. f_equal; ring. Qed.
Lemma pt_right cx cy : ellipse_pt cx cy r r 0 = (cx + r, cy). Proof using. unfold ellipse_pt. rewrite cos_0, sin_0. f_equal; ring. Qed.
Lemma pt_bottom cx cy : ellipse_pt cx cy r r (PI / 2) = (cx, cy + r). Proof using. unfold ellipse_pt. rewrite cos_PI2, sin_PI2. f_equal; ring. Qed.
Lemma pt_left cx cy : ellipse_pt cx cy r r PI = (cx - r, cy). Proof using. unfold ellipse_pt. rewrite cos_PI, sin_PI. f_equal; ring. Qed.
Lemma pt_last cx cy : ellipse_pt cx cy r r (PI + PI / 2) = (cx, cy - r).
Proof using. unfold ellipse_pt. rewrite cos_plus, sin_plus, cos_PI, sin_PI, cos_PI2, sin_PI2. f_equal; ring. Qed.
Lemma quarter_signs v : (- (PI / 2) <= v <= - (PI / 2) + PI / 2 -> 0 <= cos v /\ sin v <= 0) /\ (0 <= v <= 0 + PI / 2 -> 0 <= cos v /\ 0 <= sin v)
  /\ (PI / 2 <= v <= PI / 2 + PI / 2 -> cos v <= 0 /\ 0 <= sin v) /\ (PI <= v <= PI + PI / 2 -> cos v <= 0 /\ sin v <= 0).
Proof using.
  pose proof PI_RGT_0. split; [|split; [|split]]; intros H0.
  - split; [apply cos_ge_0; lra|]. replace v with (- - v) by ring. rewrite sin_neg. pose proof (sin_ge_0 (- v)). lra.
  - split; [apply cos_ge_0; lra|apply sin_ge_0; lra].
  - split; [apply cos_le_0; lra|apply sin_ge_0; lra].
  - split; [apply cos_le_0; lra|apply sin_le_0; lra].
Qed.
Theorem rim_on z : runs_through (0, 0) (0, 0) L z -> exists z', Rim z' /\ near z z'.
Proof using Hr Hw Hh.
  intros Hz. assert (Hr0 : 0 <= r) by lra. assert (He : 0 <= r * 0.0014) by nra. unfold rim_bows in Hz.
  assert (Self : Rim z -> exists z', Rim z' /\ near z z') by (intros H; exists z; split; [exact H|now apply near_self]).
  inversion Hz as [| | | |? ? ? ? ? Hz1| | | |]; clear Hz; subst.
  inversion Hz1 as [? ? ? ? s Hs| | | | |? ? ? ? ? Hz2| | |]; clear Hz1; subst.
  { apply Self. cbn [fst snd]. rewrite bezier1_self. apply side_x; [apply between; lra|now left]. }
  apply turn_on in Hz2 as [(v & Hv & Hn)|Hz2]; [| |exact Hr0|rewrite pt_top; f_equal; ring]; [eexists; split; [|exact Hn]; apply quarter_signs in Hv as []; apply on_corner; tauto|].
  rewrite Rplus_opp_l, pt_right in Hz2. inversion Hz2 as [? ? ? ? s Hs| | | | |? ? ? ? ? Hz3| | |]; clear Hz2; subst.
  { apply Self. cbn [fst snd]. replace (x1 - r + r) with x1 by ring. rewrite bezier1_self. apply side_y; [apply between; lra|now right]. }
  apply turn_on in Hz3 as [(v & Hv & Hn)|Hz3]; [| |exact Hr0|rewrite pt_right; f_equal; ring]; [eexists; split; [|exact Hn]; apply quarter_signs in Hv as []; apply on_corner; tauto|].
  rewrite Rplus_0_l, pt_bottom in Hz3. inversion Hz3 as [? ? ? ? s Hs| | | | |? ? ? ? ? Hz4| | |]; clear Hz3; subst.
  { apply Self. cbn [fst snd]. replace (y1 - r + r) with y1 by ring. rewrite bezier1_self. apply side_x; [apply between; lra|now right]. }
  apply turn_on in Hz4 as [(v & Hv & Hn)|Hz4]; [| |exact Hr0|rewrite pt_bottom; f_equal; ring]; [eexists; split; [|exact Hn]; apply quarter_signs in Hv as []; apply on_corner; tauto|].
  replace (PI / 2 + PI / 2) with PI in Hz4 by field. rewrite pt_left in Hz4. inversion Hz4 as [? ? ? ? s Hs| | | | |? ? ? ? ? Hz5| | |]; clear Hz4; subst.
  { apply Self. cbn [fst snd]. replace (x0 + r - r) with x0 by ring. rewrite bezier1_self. apply side_y; [apply between; lra|now left]. }
  apply turn_on in Hz5 as [(v & Hv & Hn)|Hz5]; [| |exact Hr0|rewrite pt_left; f_equal; ring]; [eexists; split; [|exact Hn]; apply quarter_signs in Hv as []; apply on_corner; tauto|].
  rewrite pt_last in Hz5. inversion Hz5 as [| | |? ? ? s Hs| | | | |? ? ? ? Hz6]; clear Hz5; subst; [|inversion Hz6].
  apply Self. cbn [fst snd]. replace (y0 + r - r) with y0 by ring. rewrite !bezier1_self. apply side_x; [lra|now left].
Qed.
Lemma side_pt a b x : a <= x <= b -> exists s, 0 <= s <= 1 /\ x = bezier1 s a b.
Proof using.
  intros Hx. destruct (Req_dec a b) as [->|N]; [exists 0; split; [lra|unfold bezier1; lra]|]. exists ((x - a) / (b - a)). split; [|unfold bezier1; field; lra].
  split; [apply Rmult_le_pos; [lra|apply Rlt_le, Rinv_0_lt_compat; lra]|]. apply Rmult_le_reg_r with (b - a); [lra|]. unfold Rdiv. rewrite Rmult_assoc, Rinv_l by lra. lra.
Qed.
Lemma side_pt' a b x : b <= x <= a -> exists s, 0 <= s <= 1 /\ x = bezier1 s a b.
Proof using. intros Hx. destruct (side_pt b a x Hx) as (s & Hs & ->). exists (1 - s). split; [lra|]. unfold bezier1. ring. Qed.
Lemma in_corner cx cy t z : (fst z - cx) ^ 2 + (snd z - cy) ^ 2 = r ^ 2 -> 0 <= cos t * (fst z - cx) + sin t * (snd z - cy) -> 0 <= cos t * (snd z - cy) - sin t * (fst z - cx) ->
  exists w, t <= w <= t + PI / 2 /\ z = ellipse_pt cx cy r r w.
Proof using Hr.
  intros H1 H2 H3. assert (R0 : r <> 0) by lra. assert (Ri : 0 < / r) by (apply Rinv_0_lt_compat; lra).
  destruct (unit_quarter t ((fst z - cx) / r) ((snd z - cy) / r)) as (w & Hw' & Hu & Hv).
  - transitivity (((fst z - cx) ^ 2 + (snd z - cy) ^ 2) / (r ^ 2)); [field; exact R0|]. rewrite H1. field. exact R0.
  - replace (cos t * ((fst z - cx) / r) + sin t * ((snd z - cy) / r)) with ((cos t * (fst z - cx) + sin t * (snd z - cy)) * / r) by (field; exact R0). apply Rmult_le_pos; lra.
  - replace (cos t * ((snd z - cy) / r) - sin t * ((fst z - cx) / r)) with ((cos t * (snd z - cy) - sin t * (fst z - cx)) * / r) by (field; exact R0). apply Rmult_le_pos; lra.
  - exists w. split; [exact Hw'|]. unfold ellipse_pt. rewrite <- Hu, <- Hv. destruct z as [x y]. cbn [fst snd]. f_equal; field; exact R0.
Qed.
Theorem rim_all z : Rim z -> exists z', runs_through (0, 0) (0, 0) L z' /\ near z' z.
Proof using Hr Hw Hh.
  intros HR. assert (Hr0 : 0 <= r) by lra. assert (He : 0 <= r * 0.0014) by nra. unfold rim in HR.
  (* to the beginning of each part *)
  set (T4 := Straight (x0, y0 + r) :: turn_bows b4 (x0 + r) (y0 + r) r PI ++ [Back]) in *.
  set (T3 := Straight (x0 + r, y1) :: turn_bows b3 (x0 + r) (y1 - r) r (PI / 2) ++ T4) in *.
  set (T2 := Straight (x1, y1 - r) :: turn_bows b2 (x1 - r) (y1 - r) r 0 ++ T3) in *.
  assert (EL : L = Hop (x0 + r, y0) :: Straight (x1 - r, y0) :: turn_bows b1 (x1 - r) (y0 + r) r (- (PI / 2)) ++ T2) by reflexivity.
  assert (A1 : forall z', runs_through (x0 + r, y0) (x1 - r, y0) (turn_bows b1 (x1 - r) (y0 + r) r (- (PI / 2)) ++ T2) z' -> runs_through (0, 0) (0, 0) L z') by (intros z' H; rewrite EL; apply rt_after_move, rt_after_line, H).
  assert (A2 : forall z', runs_through (x0 + r, y0) (x1, y0 + r) T2 z' -> runs_through (0, 0) (0, 0) L z').
  { intros z' H. apply A1, turn_past; [rewrite pt_top; f_equal; ring|]. rewrite Rplus_opp_l, pt_right. replace (x1 - r + r) with x1 by ring. exact H. }
  assert (A3 : forall z', runs_through (x0 + r, y0) (x1 - r, y1) T3 z' -> runs_through (0, 0) (0, 0) L z').
  { intros z' H. apply A2, rt_after_line, turn_past; [rewrite pt_right; f_equal; ring|]. rewrite Rplus_0_l, pt_bottom. replace (y1 - r + r) with y1 by ring. exact H. }
  assert (A4 : forall z', runs_through (x0 + r, y0) (x0, y1 - r) T4 z' -> runs_through (0, 0) (0, 0) L z').
  { intros z' H. apply A3, rt_after_line, turn_past; [rewrite pt_bottom; f_equal; ring|]. replace (PI / 2 + PI / 2) with PI by field. rewrite pt_left. replace (x0 + r - r) with x0 by ring. exact H. }
  assert (Self : runs_through (0, 0) (0, 0) L z -> exists z', runs_through (0, 0) (0, 0) L z' /\ near z' z) by (intros H; exists z; split; [exact H|now apply near_self]).
  destruct z as [x y]. cbn [fst snd] in HR.
  assert (Cx : x < x0 + r \/ x0 + r <= x <= x1 - r \/ x1 - r < x) by lra. assert (Cy : y < y0 + r \/ y0 + r <= y <= y1 - r \/ y1 - r < y) by lra.
  assert (P1 : forall z' p, (exists w, p <= w <= p + PI / 2 /\ (x, y) = z' w) -> exists w, p <= w <= p + PI / 2 /\ z' w = (x, y)) by (intros z' p (w & H1 & H2); exists w; auto).
  destruct Cx as [Cx|[Cx|Cx]]; [rewrite (outside_lo _ _ x) in HR by lra|rewrite (outside_in _ _ x) in HR by lra|rewrite (outside_hi _ _ x) in HR by lra];
  (destruct Cy as [Cy|[Cy|Cy]]; [rewrite (outside_lo _ _ y) in HR by lra|rewrite (outside_in _ _ y) in HR by lra|rewrite (outside_hi _ _ y) in HR by lra]).
  - (* left, top *)
    destruct (in_corner (x0 + r) (y0 + r) PI (x, y)) as (w & Hw' & ->); [cbn [fst snd]; rewrite <- HR; ring|rewrite cos_PI, sin_PI; cbn [fst snd]; lra..|].
    destruct (turn_all (x0 + r) (y0 + r) r PI b4 Hr0 (x0 + r, y0) (x0, y0 + r) [Back] w) as (z' & Hz' & Hn); [rewrite pt_left; f_equal; ring|exact Hw'|].
    exists z'. split; [apply A4, rt_after_line, Hz'|exact Hn].
  - (* left *)
    assert (x = x0) by nra. subst x. apply Self, A4. destruct (side_pt' (y1 - r) (y0 + r) y) as (s & Hs & Ey); [lra|].
    pose proof (rt_line (x0 + r, y0) (x0, y1 - r) (x0, y0 + r) (turn_bows b4 (x0 + r) (y0 + r) r PI ++ [Back]) s Hs) as K. cbn [fst snd] in K. rewrite bezier1_self, <- Ey in K. exact K.
  - (* left, bottom *)
    destruct (in_corner (x0 + r) (y1 - r) (PI / 2) (x, y)) as (w & Hw' & ->); [cbn [fst snd]; rewrite <- HR; ring|rewrite cos_PI2, sin_PI2; cbn [fst snd]; lra..|].
    destruct (turn_all (x0 + r) (y1 - r) r (PI / 2) b3 Hr0 (x0 + r, y0) (x0 + r, y1) T4 w) as (z' & Hz' & Hn); [rewrite pt_bottom; f_equal; ring|exact Hw'|].
    exists z'. split; [apply A3, rt_after_line, Hz'|exact Hn].
  - (* top *)
    assert (y = y0) by nra. subst y. apply Self. rewrite EL. apply rt_after_move. destruct (side_pt (x0 + r) (x1 - r) x) as (s & Hs & Ex); [lra|].
    pose proof (rt_line (x0 + r, y0) (x0 + r, y0) (x1 - r, y0) (turn_bows b1 (x1 - r) (y0 + r) r (- (PI / 2)) ++ T2) s Hs) as K. cbn [fst snd] in K. rewrite bezier1_self, <- Ex in K. exact K.
  - exfalso. nra.
  - (* bottom *)
    assert (y = y1) by nra. subst y. apply Self, A3. destruct (side_pt' (x1 - r) (x0 + r) x) as (s & Hs & Ex); [lra|].
    pose proof (rt_line (x0 + r, y0) (x1 - r, y1) (x0 + r, y1) (turn_bows b3 (x0 + r) (y1 - r) r (PI / 2) ++ T4) s Hs) as K. cbn [fst snd] in K. rewrite bezier1_self, <- Ex in K. exact K.
  - (* right, top *)
    destruct (in_corner (x1 - r) (y0 + r) (- (PI / 2)) (x, y)) as (w & Hw' & ->); [cbn [fst snd]; rewrite <- HR; ring|rewrite cos_neg, sin_neg, cos_PI2, sin_PI2; cbn [fst snd]; lra..|].
    destruct (turn_all (x1 - r) (y0 + r) r (- (PI / 2)) b1 Hr0 (x0 + r, y0) (x1 - r, y0) T2 w) as (z' & Hz' & Hn); [rewrite pt_top; f_equal; ring|exact Hw'|].
    exists z'. split; [apply A1, Hz'|exact Hn].
  - (* right *)
    assert (x = x1) by nra. subst x. apply Self, A2. destruct (side_pt (y0 + r) (y1 - r) y) as (s & Hs & Ey); [lra|].
    pose proof (rt_line (x0 + r, y0) (x1, y0 + r) (x1, y1 - r) (turn_bows b2 (x1 - r) (y1 - r) r 0 ++ T3) s Hs) as K. cbn [fst snd] in K. rewrite bezier1_self, <- Ey in K. exact K.
  - (* right, bottom *)
    destruct (in_corner (x1 - r) (y1 - r) 0 (x, y)) as (w & Hw' & ->); [cbn [fst snd]; rewrite <- HR; ring|rewrite cos_0, sin_0; cbn [fst snd]; lra..|].
    destruct (turn_all (x1 - r) (y1 - r) r 0 b2 Hr0 (x0 + r, y0) (x1, y1 - r) T3 w) as (z' & Hz' & Hn); [rewrite pt_right; f_equal; ring|exact Hw'|].
    exists z'. split; [apply A2, rt_after_line, Hz'|exact Hn].
Qed.
End Rim.

(** * ProofsCurve: the curves of a drawn ellipse *)
From Coq Require Import ZArith Lia Reals Lra Psatz.
From Flocq Require Import Core.Core.
From Verif Require Import F64 RealEnv SpecArc SpecRead SpecCurve ProofsFlocq ProofsClose ProofsCircle.
Local Open Scope R_scope.
Local Notation pow := (bpow radix2).

Lemma weights s : 0 <= s <= 1 -> 0 <= (1 - s) ^ 3 /\ 0 <= 3 * s * (1 - s) ^ 2 /\ 0 <= 3 * s ^ 2 * (1 - s) /\ 0 <= s ^ 3.
Proof.
  intros H. assert (A : 0 <= 1 - s) by lra. assert (B : 0 <= s) by lra.
  repeat split; repeat apply Rmult_le_pos; try lra; apply pow_le; assumption.
Qed.
Lemma bez3_near s e a b c d a' b' c' d' : 0 <= s <= 1 -> Rabs (a - a') <= e -> Rabs (b - b') <= e -> Rabs (c - c') <= e -> Rabs (d - d') <= e ->
  Rabs (bezier3 s a b c d - bezier3 s a' b' c' d') <= e.
Proof.
  intros Hs Ha Hb Hc Hd. destruct (weights s Hs) as (W0 & W1 & W2 & W3). unfold bezier3.
  set (w0 := (1 - s) ^ 3) in *. set (w1 := 3 * s * (1 - s) ^ 2) in *. set (w2 := 3 * s ^ 2 * (1 - s)) in *. set (w3 := s ^ 3) in *.
  assert (W : w0 + w1 + w2 + w3 = 1) by (unfold w0, w1, w2, w3; ring). clearbody w0 w1 w2 w3. apply Rabs_le_inv in Ha, Hb, Hc, Hd. apply Rabs_le.
  assert (L : forall w x, 0 <= w -> - e <= x <= e -> - (w * e) <= w * x <= w * e) by (intros w x Hw Hx; nra).
  pose proof (L _ _ W0 Ha). pose proof (L _ _ W1 Hb). pose proof (L _ _ W2 Hc). pose proof (L _ _ W3 Hd).
  replace e with ((w0 + w1 + w2 + w3) * e) by (rewrite W; ring). lra.
Qed.
Lemma bez1_near s e a b a' b' : 0 <= s <= 1 -> Rabs (a - a') <= e -> Rabs (b - b') <= e -> Rabs (bezier1 s a b - bezier1 s a' b') <= e.
Proof. intros Hs Ha Hb. unfold bezier1. apply Rabs_le_inv in Ha, Hb. apply Rabs_le. nra. Qed.

(** ** One piece of the unit circle *)
Section Piece.
Context (d : R).
Notation c := (cos d). Notation g := (sin d). Notation h := (handle d).
Definition px s : R := bezier3 s 1 1 (c + h * g) c.
Definition py s : R := bezier3 s 0 h (g - h * c) g.
Definition mm (s : R) : R := s * (1 - s).
Definition x2 : R := tan (d / 2) * tan (d / 2).
Definition q2 : R := sqrt (4 + 3 * x2).
Definition bend : R := 16 * (x2 * x2 * x2) / ((1 + x2) * (q2 * (4 + 2 * x2) + (8 + 7 * x2 + x2 * x2))).
Lemma norm_poly s : px s * px s + py s * py s - 1 = mm s * mm s * ((1 - 2 * mm s) * (9 * (h * h) + 6 * (c + h * g - 1)) + mm s * (20 * (c - 1) + 36 * (h * g) - 18 * (h * h) * c)).
Proof.
  assert (H : g * g + c * c - 1 = 0) by (pose proof (sin2_cos2 d) as H; unfold Rsqr in H; lra).
  transitivity (mm s * mm s * ((1 - 2 * mm s) * (9 * (h * h) + 6 * (c + h * g - 1)) + mm s * (20 * (c - 1) + 36 * (h * g) - 18 * (h * h) * c))
    + (g * g + c * c - 1) * ((3 * s ^ 2 * (1 - s)) ^ 2 * (1 + h * h) + (s ^ 3) ^ 2 + 2 * (3 * s ^ 2 * (1 - s)) * s ^ 3)); [|rewrite H; ring].
  unfold px, py, mm, bezier3. ring.
Qed.
Context (Hd : cos (d / 2) <> 0).
Lemma half_angle : c = (1 - x2) / (1 + x2) /\ g = 2 * tan (d / 2) / (1 + x2).
Proof.
  assert (Ed : d = 2 * (d / 2)) by field. pose proof (sin2_cos2 (d / 2)) as H. unfold Rsqr in H. unfold x2, tan.
  set (a := cos (d / 2)) in *. set (b := sin (d / 2)) in *.
  assert (Hn : 1 + b / a * (b / a) <> 0) by (assert (0 <= b / a * (b / a)) by nra; lra).
  assert (Hk : a * a * (1 + b / a * (b / a)) = 1) by (transitivity (b * b + a * a); [field; exact Hd|exact H]).
  split.
  - rewrite Ed at 1. rewrite cos_2a. fold a b. apply Rmult_eq_reg_r with (1 + b / a * (b / a)); [|exact Hn]. 
    transitivity (1 - b / a * (b / a)); [|field; split; [exact Hd|lra]].
    transitivity (a * a * (1 + b / a * (b / a)) * (1 - b / a * (b / a))); [field; exact Hd|rewrite Hk; ring].
  - rewrite Ed at 1. rewrite sin_2a. fold a b. apply Rmult_eq_reg_r with (1 + b / a * (b / a)); [|exact Hn].
    transitivity (2 * (b / a)); [|field; split; [exact Hd|lra]].
    transitivity (a * a * (1 + b / a * (b / a)) * (2 * (b / a))); [field; exact Hd|rewrite Hk; ring].
Qed.
Lemma x2_pos : 0 <= x2. Proof. unfold x2. nra. Qed.
Lemma q2_sq : q2 * q2 = 4 + 3 * x2. Proof. apply sqrt_sqrt. pose proof x2_pos. lra. Qed.
Lemma q2_ge : 2 <= q2. Proof. unfold q2. replace 2 with (sqrt (2 * 2)) at 1 by (apply sqrt_square; lra). apply sqrt_le_1_alt. pose proof x2_pos. lra. Qed.
Lemma handle_eq : h = g * (q2 - 1) / 3. Proof. reflexivity. Qed.
Lemma flat_part : 9 * (h * h) + 6 * (c + h * g - 1) = 0.
Proof.
  rewrite handle_eq. destruct half_angle as [Ec Eg]. pose proof x2_pos. 
  transitivity (g * g * (q2 * q2 - 1) + 6 * (c - 1)); [field|]. rewrite q2_sq, Ec, Eg.
  transitivity (4 * (tan (d / 2) * tan (d / 2)) / ((1 + x2) * (1 + x2)) * (4 + 3 * x2 - 1) + 6 * ((1 - x2) / (1 + x2) - 1)); [field; lra|].
  fold x2. field. lra.
Qed.
Lemma bend_part : 20 * (c - 1) + 36 * (h * g) - 18 * (h * h) * c = - bend.
Proof.
  rewrite handle_eq. destruct half_angle as [Ec Eg]. pose proof x2_pos as H0. pose proof q2_ge as Hq.
  assert (Hg2 : g * g = 4 * x2 / ((1 + x2) * (1 + x2))) by (rewrite Eg; transitivity (4 * (tan (d / 2) * tan (d / 2)) / ((1 + x2) * (1 + x2))); [field; lra|reflexivity]).
  transitivity (20 * (c - 1) + 12 * (g * g) * (q2 - 1) - 2 * (g * g) * (q2 * q2 - 2 * q2 + 1) * c); [field|]. rewrite q2_sq, Hg2, Ec.
  set (x := x2) in *. set (q := q2) in *. assert (Hq2 : q * q = 4 + 3 * x) by apply q2_sq.
  assert (HD : 0 < q * (4 + 2 * x) + (8 + 7 * x + x * x)) by nra.
  transitivity (16 * x * (q * (4 + 2 * x) - (8 + 7 * x + x * x)) / ((1 + x) * (1 + x) * (1 + x))); [field; lra|].
  assert (Hy : (q * (4 + 2 * x) - (8 + 7 * x + x * x)) * (q * (4 + 2 * x) + (8 + 7 * x + x * x)) = - (x * x * ((1 + x) * (1 + x)))).
  { transitivity (q * q * ((4 + 2 * x) * (4 + 2 * x)) - (8 + 7 * x + x * x) * (8 + 7 * x + x * x)); [ring|]. rewrite Hq2. ring. }
  unfold bend. fold x q. set (D := q * (4 + 2 * x) + (8 + 7 * x + x * x)) in *. set (y := q * (4 + 2 * x) - (8 + 7 * x + x * x)) in *.
  assert (Ey : y = - (x * x * ((1 + x) * (1 + x))) / D) by (apply Rmult_eq_reg_r with D; [|lra]; rewrite Hy; field; lra). rewrite Ey. field. split; lra.
Qed.
Lemma norm_piece s : px s * px s + py s * py s = 1 - mm s * mm s * mm s * bend.
Proof. pose proof (norm_poly s) as H. rewrite flat_part, bend_part in H. lra. Qed.
Lemma bend_small : 0 <= bend <= x2 * x2 * x2.
Proof.
  pose proof x2_pos as H0. pose proof q2_ge as Hq. unfold bend. set (x := x2) in *. set (q := q2) in *. assert (HD : 16 <= (1 + x) * (q * (4 + 2 * x) + (8 + 7 * x + x * x))).
  { assert (16 <= q * (4 + 2 * x) + (8 + 7 * x + x * x)) by nra. nra. }
  set (D := (1 + x) * _) in *. assert (Hx3 : 0 <= x * x * x) by (apply Rmult_le_pos; [apply Rmult_le_pos|]; exact H0). assert (Hi : 0 < / D) by (apply Rinv_0_lt_compat; lra).
  split; [unfold Rdiv; apply Rmult_le_pos; lra|]. apply Rmult_le_reg_r with D; [lra|]. replace (16 * (x * x * x) / D * D) with (16 * (x * x * x)) by (field; lra). nra.
Qed.
End Piece.

(** ** The 17 pieces *)
Notation step_R := (- (2 * PI) / 17).
Lemma tan17 : x2 step_R <= 0.0354.
Proof.
  unfold x2. replace (step_R / 2) with (- (PI / 17)) by field. rewrite tan_neg. replace (- tan (PI / 17) * - tan (PI / 17)) with (tan (PI / 17) * tan (PI / 17)) by ring.
  pose proof pi_bounds as Hp. set (u := PI / 17). assert (Hu : 0 <= u <= 0.1848) by (unfold u; lra).
  assert (Hs : 0 <= sin u <= 0.1848). { split; [apply sin_ge_0; lra|]. pose proof (sin_small u) as H. rewrite (Rabs_pos_eq u) in H by lra. pose proof (Rle_abs (sin u)). lra. }
  assert (Hc : 0.9829 <= cos u). { replace u with (2 * (u / 2)) by field. rewrite cos_2a_sin. pose proof (sin_small (u / 2)) as H. rewrite (Rabs_pos_eq (u / 2)) in H by lra. apply Rabs_le_inv in H. nra. }
  unfold tan. assert (Ht : 0 <= sin u / cos u <= 0.18803).
  { split; [unfold Rdiv; apply Rmult_le_pos; [lra|apply Rlt_le, Rinv_0_lt_compat; lra]|]. apply Rmult_le_reg_r with (cos u); [lra|]. replace (sin u / cos u * cos u) with (sin u) by (field; lra). nra. }
  nra.
Qed.
Lemma cos17 : cos (step_R / 2) <> 0.
Proof. apply Rgt_not_eq. pose proof pi_bounds. apply cos_gt_0; lra. Qed.
Lemma mm_range s : 0 <= s <= 1 -> 0 <= mm s <= / 4.
Proof. intros H. unfold mm. pose proof (Rle_0_sqr (s - / 2)) as K. unfold Rsqr in K. split; [apply Rmult_le_pos; lra|lra]. Qed.
(** the distance to the centre *)
Lemma radius17 s : 0 <= s <= 1 -> let r := sqrt (px step_R s * px step_R s + py step_R s * py step_R s) in
  0 <= 1 - r <= 0.00000035 /\ r * r = px step_R s * px step_R s + py step_R s * py step_R s.
Proof.
  intros Hs r. pose proof (norm_piece step_R cos17 s) as Hn. pose proof (mm_range s Hs) as Hm. pose proof (bend_small step_R) as Hb. pose proof tan17 as Hx. pose proof (x2_pos step_R) as H0.
  assert (Hx3 : x2 step_R * x2 step_R * x2 step_R <= 0.0000445). { set (x := x2 step_R) in *. clearbody x. assert (x * x <= 0.0354 * 0.0354) by nra. nra. }
  assert (Hm3 : 0 <= mm s * mm s * mm s <= / 64). { set (m := mm s) in *. clearbody m. assert (0 <= m * m <= / 16) by nra. nra. }
  set (N := px step_R s * px step_R s + py step_R s * py step_R s) in *. set (b := bend step_R) in *. set (m3 := mm s * mm s * mm s) in *. clearbody N b m3.
  assert (HN : 0.9999993 <= N <= 1) by nra. assert (Hr2 : r * r = N) by (apply sqrt_sqrt; lra). split; [|exact Hr2]. pose proof (sqrt_pos N) as Hr0. fold r in Hr0. clearbody r.
  assert (H9 : m3 * b <= 0.0000445 / 64) by nra. assert (Hr1 : r <= 1) by nra. assert (0.99 <= r) by nra.
  split; [lra|]. assert ((1 - r) * (1 + r) = m3 * b) by (transitivity (1 - r * r); [ring|lra]). nra.
Qed.
Lemma circle_point u v : u * u + v * v = 1 -> exists t, - PI <= t <= PI /\ cos t = u /\ sin t = v.
Proof.
  intros H. assert (Hu : -1 <= u <= 1) by nra. pose proof (acos_bound u) as Hb.
  assert (Hs : sin (acos u) = Rabs v). { rewrite sin_acos by exact Hu. replace (1 - u²) with (v²) by (unfold Rsqr; lra). apply sqrt_Rsqr_abs. }
  destruct (Rle_or_lt 0 v) as [Hv|Hv].
  - exists (acos u). split; [lra|]. split; [apply cos_acos, Hu|]. rewrite Hs. apply Rabs_pos_eq, Hv.
  - exists (- acos u). split; [lra|]. split; [rewrite cos_neg; apply cos_acos, Hu|]. rewrite sin_neg, Hs, Rabs_left by exact Hv. ring.
Qed.
(** a point of the piece that starts at the angle [t] *)
Definition ux t s : R := cos t * px step_R s - sin t * py step_R s.
Definition uy t s : R := sin t * px step_R s + cos t * py step_R s.
Lemma on_unit t s : 0 <= s <= 1 -> exists a, Rabs (ux t s - cos a) <= 0.00000035 /\ Rabs (uy t s - sin a) <= 0.00000035.
Proof.
  intros Hs. destruct (radius17 s Hs) as [Hr Hr2]. set (r := sqrt _) in *. set (p := px step_R s) in *. set (q := py step_R s) in *.
  assert (Hn : ux t s * ux t s + uy t s * uy t s = r * r).
  { rewrite Hr2. unfold ux, uy. fold p q. pose proof (sin2_cos2 t) as H. unfold Rsqr in H. transitivity ((sin t * sin t + cos t * cos t) * (p * p + q * q)); [ring|rewrite H; ring]. }
  assert (R0 : r <> 0) by lra. destruct (circle_point (ux t s / r) (uy t s / r)) as (a & _ & Ha & Hb).
  { transitivity ((ux t s * ux t s + uy t s * uy t s) / (r * r)); [field; exact R0|]. rewrite Hn. field. exact R0. }
  exists a. rewrite Ha, Hb. pose proof (COS_bound a) as Hc. pose proof (SIN_bound a) as Hd. rewrite Ha in Hc. rewrite Hb in Hd.
  assert (K : forall y, -1 <= y / r <= 1 -> Rabs (y - y / r) <= 0.00000035).
  { intros y Hy. replace (y - y / r) with (y / r * (r - 1)) by (field; exact R0). rewrite Rabs_mult. assert (Rabs (y / r) <= 1) by (apply Rabs_le; lra). rewrite (Rabs_left1 (r - 1)) by lra. pose proof (Rabs_pos (y / r)). nra. }
  split; apply K; assumption.
Qed.
Lemma cover_unit t w : 0 <= w <= 1 -> exists s, 0 <= s <= 1 /\ Rabs (ux t s - cos (t + w * step_R)) <= 0.00000035 /\ Rabs (uy t s - sin (t + w * step_R)) <= 0.00000035.
Proof.
  intros Hw. pose proof pi_bounds as Hp. set (v := w * step_R). assert (Hv : step_R <= v <= 0) by (unfold v; nra).
  destruct (IVT_cor (fun s => px step_R s * sin v - py step_R s * cos v) 0 1) as (s & Hs & Hz).
  - unfold px, py, bezier3. reg.
  - lra.
  - assert (P0 : px step_R 0 = 1) by (unfold px, bezier3; ring). assert (P1 : px step_R 1 = cos step_R) by (unfold px, bezier3; ring).
    assert (Q0 : py step_R 0 = 0) by (unfold py, bezier3; ring). assert (Q1 : py step_R 1 = sin step_R) by (unfold py, bezier3; ring). rewrite P0, P1, Q0, Q1.
    replace (cos step_R * sin v - sin step_R * cos v) with (sin (v - step_R)) by (rewrite sin_minus; ring).
    assert (0 <= sin (v - step_R)) by (apply sin_ge_0; lra). assert (sin v <= 0) by (rewrite <- (Ropp_involutive v), sin_neg; assert (0 <= sin (- v)) by (apply sin_ge_0; lra); lra). nra.
  - exists s. split; [exact Hs|]. destruct (radius17 s Hs) as [Hr Hr2]. set (r := sqrt _) in *.
    assert (Cv : 0 < cos v) by (apply cos_gt_0; lra).
    assert (Pp : 0 < px step_R s).
    { assert (Cs : 0 < cos step_R) by (apply cos_gt_0; lra). assert (Sg : 0 <= handle step_R * sin step_R).
      { rewrite handle_eq. pose proof (q2_ge step_R). pose proof (x2_pos step_R). replace (sin step_R * (q2 step_R - 1) / 3 * sin step_R) with (sin step_R * sin step_R * (q2 step_R - 1) / 3) by field. assert (0 <= sin step_R * sin step_R) by nra. unfold Rdiv. apply Rmult_le_pos; [apply Rmult_le_pos; lra|lra]. }
      pose proof (weights s Hs) as (W0 & W1 & W2 & W3). unfold px, bezier3. set (C2 := cos step_R + handle step_R * sin step_R). assert (cos step_R <= C2) by (unfold C2; lra).
      set (w0 := (1 - s) ^ 3) in *. set (w1 := 3 * s * (1 - s) ^ 2) in *. set (w2 := 3 * s ^ 2 * (1 - s)) in *. set (w3 := s ^ 3) in *. assert (W : w0 + w1 + w2 + w3 = 1) by (unfold w0, w1, w2, w3; ring). clearbody w0 w1 w2 w3 C2.
      assert (cos step_R <= 1) by apply COS_bound. set (c := cos step_R) in *. clearbody c. assert (c <= w0 * 1 + w1 * 1 + w2 * C2 + w3 * c) by (replace c with ((w0 + w1 + w2 + w3) * c) at 1 by (rewrite W; ring); nra). lra. }
    set (p := px step_R s) in *. set (q := py step_R s) in *. pose proof (sin2_cos2 v) as Sv. unfold Rsqr in Sv.
    assert (Hl : p = (p * cos v + q * sin v) * cos v /\ q = (p * cos v + q * sin v) * sin v).
    { assert (Hz' : p * sin v = q * cos v) by lra. split.
      - transitivity (p * (sin v * sin v + cos v * cos v)); [rewrite Sv; ring|]. transitivity (p * sin v * sin v + p * cos v * cos v); [ring|]. rewrite Hz'. ring.
      - transitivity (q * (sin v * sin v + cos v * cos v)); [rewrite Sv; ring|]. transitivity (q * cos v * cos v + q * sin v * sin v); [ring|]. rewrite <- Hz'. ring. }
    set (l := p * cos v + q * sin v) in *. destruct Hl as [Hp1 Hq1]. 
    assert (L0 : 0 < l) by nra.
    assert (Lr : l = r). { assert (l * l = r * r). { rewrite Hr2. rewrite Hp1, Hq1. transitivity (l * l * (sin v * sin v + cos v * cos v)); [rewrite Sv; ring|ring]. } clearbody l r p q. assert ((l - r) * (l + r) = 0) by lra. assert (0 < l + r) by lra. nra. }
    assert (K : forall y, -1 <= y <= 1 -> Rabs (l * y - y) <= 0.00000035).
    { intros y Hy. replace (l * y - y) with (y * (l - 1)) by ring. rewrite Rabs_mult. assert (Rabs y <= 1) by (apply Rabs_le; lra). rewrite (Rabs_left1 (l - 1)) by lra. pose proof (Rabs_pos y). nra. }
    split.
    + replace (ux t s) with (l * cos (t + v)) by (unfold ux; fold p q; rewrite cos_plus, Hp1 at 1; rewrite Hq1; ring). apply K, COS_bound.
    + replace (uy t s) with (l * sin (t + v)) by (unfold uy; fold p q; rewrite sin_plus, Hp1 at 1; rewrite Hq1; ring). apply K, SIN_bound.
Qed.

(** ** A closed chain of 17 curves, moved by an affine map *)
Section Ring.
Context (cx cy rx ry : R) (Brx : 0 <= rx <= pow 16) (Bry : 0 <= ry <= pow 16).
Context (la lb lc ld le lf : R) (ex ey : R).
Definition moved (p : R * R) : R * R := (la * fst p + lc * snd p + le, lb * fst p + ld * snd p + lf).
Notation at_t t := (ellipse_pt cx cy rx ry t).
Notation near a b := (beside ex ey a (moved b)).
Inductive bow_near : bow -> bow -> Prop :=
| bn_hop a b : near a b -> bow_near (Hop a) (Hop b)
| bn_bend a b c a' b' c' : near a a' -> near b b' -> near c c' -> bow_near (Bend3 a b c) (Bend3 a' b' c')
| bn_back : bow_near Back Back.
Definition spoke (i : nat) : R := 0 + INR i * (- (2 * PI) / INR 17).
Lemma spoke_eq i : spoke i = INR i * step_R.
Proof. unfold spoke. replace (INR 17) with 17 by (cbn; ring). ring. Qed.
Lemma spoke_next i : spoke (S i) = spoke i + step_R.
Proof. unfold spoke. rewrite (S_INR i). replace (INR 17) with 17 by (cbn; ring). ring. Qed.
Definition arch (i : nat) : bow :=
  let t := spoke i in let h := handle step_R in
  Bend3 (cx + rx * (cos t - h * sin t), cy + ry * (sin t + h * cos t))
    (cx + rx * (cos (t + step_R) + h * sin (t + step_R)), cy + ry * (sin (t + step_R) - h * cos (t + step_R)))
    (at_t (spoke (S i))).
Definition kx : R := Rabs la + Rabs lc.
Definition ky : R := Rabs lb + Rabs ld.
Lemma piece_run i s a b c d : 0 <= s <= 1 -> near a (at_t (spoke i)) -> bow_near (Bend3 b c d) (arch i) ->
  near (bezier3 s (fst a) (fst b) (fst c) (fst d), bezier3 s (snd a) (snd b) (snd c) (snd d)) (cx + rx * ux (spoke i) s, cy + ry * uy (spoke i) s).
Proof.
  intros Hs [Ax Ay] H. inversion H as [|? ? ? ? ? ? [Px Py] [Qx Qy] [Zx Zy]|]; subst. rewrite spoke_next in Zx, Zy. set (t := spoke i) in *. unfold ellipse_pt, moved in *. cbn [fst snd] in *.
  assert (Eux : cx + rx * ux t s = bezier3 s (cx + rx * cos t) (cx + rx * (cos t - handle step_R * sin t)) (cx + rx * (cos (t + step_R) + handle step_R * sin (t + step_R))) (cx + rx * cos (t + step_R)))
    by (unfold ux, px, py, bezier3; rewrite cos_plus, sin_plus; ring).
  assert (Euy : cy + ry * uy t s = bezier3 s (cy + ry * sin t) (cy + ry * (sin t + handle step_R * cos t)) (cy + ry * (sin (t + step_R) - handle step_R * cos (t + step_R))) (cy + ry * sin (t + step_R)))
    by (unfold uy, px, py, bezier3; rewrite cos_plus, sin_plus; ring).
  assert (Aff : forall p q r x0 x1 x2 x3 y0 y1 y2 y3, p * bezier3 s x0 x1 x2 x3 + q * bezier3 s y0 y1 y2 y3 + r
    = bezier3 s (p * x0 + q * y0 + r) (p * x1 + q * y1 + r) (p * x2 + q * y2 + r) (p * x3 + q * y3 + r)) by (intros; unfold bezier3; ring).
  split; cbn [fst snd]; rewrite Eux, Euy, Aff; apply bez3_near; assumption.
Qed.
Lemma widen z t u v : Rabs (u - cos t) <= 0.00000035 -> Rabs (v - sin t) <= 0.00000035 -> near z (cx + rx * u, cy + ry * v) -> beside (ex + kx * 0.023) (ey + ky * 0.023) z (moved (at_t t)).
Proof.
  intros Hu Hv [Hx Hy]. unfold moved, ellipse_pt, kx, ky in *. cbn [fst snd] in *. change (pow 16) with 65536 in *.
  assert (K : forall r w a, 0 <= r <= 65536 -> Rabs (w - a) <= 0.00000035 -> Rabs (r * w - r * a) <= 0.023).
  { intros r w a Hr Hw. replace (r * w - r * a) with (r * (w - a)) by ring. rewrite Rabs_mult, (Rabs_pos_eq r) by lra. pose proof (Rabs_pos (w - a)). apply Rle_trans with (65536 * 0.00000035); [apply Rmult_le_compat|]; lra. }
  pose proof (K _ _ _ Brx Hu) as K1. pose proof (K _ _ _ Bry Hv) as K2. set (D1 := rx * u - rx * cos t) in *. set (D2 := ry * v - ry * sin t) in *.
  assert (M : forall p q w, Rabs (w - (p * (cx + rx * cos t) + q * (cy + ry * sin t))) <= Rabs (w - (p * (cx + rx * u) + q * (cy + ry * v))) + (Rabs p + Rabs q) * 0.023).
  { intros p q w. replace (w - (p * (cx + rx * cos t) + q * (cy + ry * sin t))) with (w - (p * (cx + rx * u) + q * (cy + ry * v)) + (p * D1 + q * D2)) by (unfold D1, D2; ring).
    pose proof (Rabs_triang (w - (p * (cx + rx * u) + q * (cy + ry * v))) (p * D1 + q * D2)). pose proof (Rabs_triang (p * D1) (q * D2)) as T. rewrite !Rabs_mult in T.
    assert (Rabs p * Rabs D1 <= Rabs p * 0.023) by (apply Rmult_le_compat_l; [apply Rabs_pos|exact K1]). assert (Rabs q * Rabs D2 <= Rabs q * 0.023) by (apply Rmult_le_compat_l; [apply Rabs_pos|exact K2]). lra. }
  split; cbn [fst snd].
  - pose proof (M la lc (fst z - le)) as H. replace (fst z - le - (la * (cx + rx * u) + lc * (cy + ry * v))) with (fst z - (la * (cx + rx * u) + lc * (cy + ry * v) + le)) in H by ring.
    replace (fst z - (la * (cx + rx * cos t) + lc * (cy + ry * sin t) + le)) with (fst z - le - (la * (cx + rx * cos t) + lc * (cy + ry * sin t))) by ring. lra.
  - pose proof (M lb ld (snd z - lf)) as H. replace (snd z - lf - (lb * (cx + rx * u) + ld * (cy + ry * v))) with (snd z - (lb * (cx + rx * u) + ld * (cy + ry * v) + lf)) in H by ring.
    replace (snd z - (lb * (cx + rx * cos t) + ld * (cy + ry * sin t) + lf)) with (snd z - lf - (lb * (cx + rx * cos t) + ld * (cy + ry * sin t))) by ring. lra.
Qed.
Lemma kx_pos : 0 <= kx. Proof. unfold kx. pose proof (Rabs_pos la). pose proof (Rabs_pos lc). lra. Qed.
Lemma ky_pos : 0 <= ky. Proof. unfold ky. pose proof (Rabs_pos lb). pose proof (Rabs_pos ld). lra. Qed.
Lemma full_turn : at_t (spoke 17) = (cx + rx, cy).
Proof. rewrite spoke_eq. unfold ellipse_pt. replace (INR 17 * step_R) with (- (2 * PI)) by (cbn; field). rewrite cos_neg, sin_neg, cos_2PI, sin_2PI. f_equal; ring. Qed.
Lemma no_turn : at_t 0 = (cx + rx, cy).
Proof. unfold ellipse_pt. rewrite cos_0, sin_0. f_equal; ring. Qed.
Lemma bend_shape o i : bow_near o (arch i) -> exists b c d, o = Bend3 b c d.
Proof. unfold arch. intros H. inversion H; subst. do 3 eexists. reflexivity. Qed.
Lemma bend_end b c d i : bow_near (Bend3 b c d) (arch i) -> near d (at_t (spoke (S i))).
Proof. unfold arch. intros H. inversion H; subst. assumption. Qed.
Context (tl : list bow) (Htl : tl = [Back] \/ tl = []).
Lemma chain_on n : forall i q f a z, (i + n = 17)%nat -> Forall2 bow_near q (map arch (seq i n) ++ tl) -> near f (cx + rx, cy) ->
  near a (at_t (spoke i)) -> runs_through f a q z -> exists t, beside (ex + kx * 0.023) (ey + ky * 0.023) z (moved (at_t t)).
Proof using Brx Bry Htl.
  induction n as [|n IH]; intros i q f a z Hi Hq Hf Ha Hz; cbn [map seq app] in Hq.
  - replace i with 17%nat in Ha by lia. rewrite full_turn in Ha. destruct Htl as [-> | ->]; inversion Hq as [|o ? r ? Ho Hr]; subst; [|inversion Hz].
    inversion Ho; subst. inversion Hr; subst. destruct Ha as [Ax Ay], Hf as [Fx Fy].
    inversion Hz as [| | |? ? ? s Hs| | | | |? ? ? ? Hz']; subst; [|inversion Hz'].
    exists 0. rewrite no_turn. set (m := moved (cx + rx, cy)) in *. pose proof kx_pos. pose proof ky_pos. split; cbn [fst snd].
    + replace (fst m) with (bezier1 s (fst m) (fst m)) by (unfold bezier1; ring). apply bez1_near; [exact Hs|lra..].
    + replace (snd m) with (bezier1 s (snd m) (snd m)) by (unfold bezier1; ring). apply bez1_near; [exact Hs|lra..].
  - inversion Hq as [|o ? r ? Ho Hr]; subst. destruct (bend_shape _ _ Ho) as (b & c & d & ->). inversion Hz as [| |? ? ? ? ? ? s Hs| | | | |? ? ? ? ? ? ? Hz'|]; subst.
    + destruct (on_unit (spoke i) s Hs) as (t & Hu & Hv). exists t. eapply widen; [exact Hu|exact Hv|]. apply piece_run; assumption.
    + eapply (IH (S i)); [lia|exact Hr|exact Hf|exact (bend_end _ _ _ _ Ho)|exact Hz'].
Qed.
Lemma chain_all n : forall i q f a k w, Forall2 bow_near q (map arch (seq i n) ++ tl) -> near a (at_t (spoke i)) -> (i <= k < i + n)%nat -> 0 <= w <= 1 ->
  exists z, runs_through f a q z /\ beside (ex + kx * 0.023) (ey + ky * 0.023) z (moved (at_t (spoke k + w * step_R))).
Proof using Brx Bry.
  induction n as [|n IH]; intros i q f a k w Hq Ha Hk Hw; cbn [map seq app] in Hq; [lia|]. inversion Hq as [|o ? r ? Ho Hr]; subst.
  destruct (bend_shape _ _ Ho) as (b & c & d & ->). destruct (Nat.eq_dec i k) as [<-|N].
  - destruct (cover_unit (spoke i) w Hw) as (s & Hs & Hu & Hv). eexists. split; [apply rt_cubic, Hs|]. eapply widen; [exact Hu|exact Hv|]. apply piece_run; assumption.
  - destruct (IH (S i) r f d k w) as (z & Hz & Hb); [exact Hr|exact (bend_end _ _ _ _ Ho)|lia|exact Hw|]. exists z. split; [apply rt_after_cubic, Hz|exact Hb].
Qed.
(** every angle lies on one of the pieces *)
Lemma some_piece t : exists k w, (k < 17)%nat /\ 0 <= w <= 1 /\ cos (spoke k + w * step_R) = cos t /\ sin (spoke k + w * step_R) = sin t.
Proof.
  destruct (circle_point (cos t) (sin t)) as (a & Ha & Ca & Sa); [pose proof (sin2_cos2 t) as H; unfold Rsqr in H; lra|]. rewrite <- Ca, <- Sa. clear Ca Sa t. pose proof pi_bounds as Hp.
  assert (exists v, 0 <= v <= 2 * PI /\ cos (- v) = cos a /\ sin (- v) = sin a) as (v & Hv & <- & <-).
  { destruct (Rle_or_lt a 0) as [L|L].
    - exists (- a). rewrite Ropp_involutive. split; [lra|split; reflexivity].
    - exists (2 * PI - a). replace (- (2 * PI - a)) with (a - 2 * PI) by ring. split; [lra|]. rewrite cos_minus, sin_minus, cos_2PI, sin_2PI. split; ring. }
  set (y := 17 * v / (2 * PI)). assert (Hy : 0 <= y <= 17).
  { unfold y. split; [unfold Rdiv; apply Rmult_le_pos; [lra|apply Rlt_le, Rinv_0_lt_compat; lra]|]. apply Rmult_le_reg_r with (2 * PI); [lra|]. replace (17 * v / (2 * PI) * (2 * PI)) with (17 * v) by (field; lra). lra. }
  assert (Hyv : y * step_R = - v) by (unfold y; field; lra).
  assert (exists k, (k < 17)%nat /\ INR k <= y <= INR k + 1) as (k & Hk & Hky).
  { clear - Hy. destruct (Rle_or_lt 16 y) as [G|G]; [exists 16%nat; split; [lia|]; replace (INR 16) with 16 by (cbn; ring); lra|].
    pose proof (Zfloor_lb y) as L. pose proof (Zfloor_ub y) as U. assert (Z0 : (0 <= Zfloor y)%Z) by (apply Zfloor_lub; lra). assert (Z1 : (Zfloor y < 17)%Z) by (apply lt_IZR; lra).
    exists (Z.to_nat (Zfloor y)). split; [lia|]. rewrite INR_IZR_INZ, Z2Nat.id by exact Z0. lra. }
  exists k, (y - INR k). split; [exact Hk|]. split; [lra|]. rewrite spoke_eq. replace (INR k * step_R + (y - INR k) * step_R) with (y * step_R) by ring. rewrite Hyv. split; reflexivity.
Qed.
Theorem ring_runs q : Forall2 bow_near q (Hop (cx + rx, cy) :: map arch (seq 0 17) ++ tl) -> runs_along (ex + kx * 0.023) (ey + ky * 0.023) (fun t => moved (at_t t)) q.
Proof using Brx Bry Htl.
  intros H. inversion H as [|o ? r ? Ho Hr]; subst. inversion Ho as [p ? Hp| |]; subst.
  assert (Ha : near p (at_t (spoke 0))) by (rewrite spoke_eq; cbn [INR]; rewrite Rmult_0_l, no_turn; exact Hp).
  split.
  - intros z Hz. inversion Hz as [| | | |? ? ? ? ? Hz'| | | |]; subst. eapply (chain_on 17 0 r p p z); [reflexivity|exact Hr|exact Hp|exact Ha|exact Hz'].
  - intros t. destruct (some_piece t) as (k & w & Hk & Hw & Hc & Hsn). destruct (chain_all 17 0 r p p k w) as (z & Hz & Hb); [exact Hr|exact Ha|lia|exact Hw|].
    unfold ellipse_pt in Hb. rewrite Hc, Hsn in Hb. exists z. split; [apply rt_after_move, Hz|exact Hb].
Qed.
End Ring.
Lemma runs_wider ex ey ex' ey' c c' p : ex <= ex' -> ey <= ey' -> (forall t, c t = c' t) -> runs_along ex ey c p -> runs_along ex' ey' c' p.
Proof.
  intros Hx Hy Hc [H1 H2]. assert (W : forall a b, beside ex ey a b -> beside ex' ey' a b) by (intros a b [A B]; split; lra). split.
  - intros z Hz. destruct (H1 z Hz) as (t & Ht). exists t. rewrite <- Hc. apply W, Ht.
  - intros t. destruct (H2 t) as (z & Hz & Hb). exists z. rewrite <- Hc. auto.
Qed.

(** ** From the grid back to the plane *)
Lemma grid1 x : Rabs x <= pow 24 -> Rabs (IZR (wrap32 (Ztrunc (x * 64))) / 64 - x) <= / 64.
Proof.
  intros Hx. rewrite wrap32_id. 2: { apply ProofsScale.trunc_int32. rewrite Rabs_mult, (Rabs_pos_eq 64) by lra. change (pow 24) with 16777216 in Hx. lra. }
  assert (Ht : Rabs (IZR (Ztrunc (x * 64)) - x * 64) <= 1).
  { destruct (Rle_or_lt 0 (x * 64)) as [P|P].
    - rewrite Ztrunc_floor by exact P. pose proof (Zfloor_lb (x * 64)). pose proof (Zfloor_ub (x * 64)). apply Rabs_le. lra.
    - rewrite Ztrunc_ceil by lra. pose proof (Zceil_ub (x * 64)). pose proof (Zceil_lb (x * 64)). apply Rabs_le. lra. }
  apply Rabs_le_inv in Ht. apply Rabs_le. lra.
Qed.
Definition of_user (a : R * R) : Prop := Rabs (fst a) <= pow 24 /\ Rabs (snd a) <= pow 24.
Lemma user_grid p : of_user p -> beside (/ 64) (/ 64) (user (grid_R p)) p.
Proof. intros [Bx By]. destruct p as [x y]. split; cbn [fst snd user grid_R]; apply grid1; assumption. Qed.

Section Round.
Context (cx cy rx ry : R) (Bcx : Rabs cx <= pow 18) (Bcy : Rabs cy <= pow 18) (Brx : 0 <= rx <= pow 16) (Bry : 0 <= ry <= pow 16).
Lemma handle17 : Rabs (handle step_R) <= 1.
Proof.
  rewrite handle_eq. pose proof tan17 as Hx. pose proof (x2_pos step_R) as H0. pose proof (q2_ge step_R) as Hq. pose proof (q2_sq step_R) as H2. pose proof (SIN_bound step_R) as Hs.
  assert (q2 step_R <= 3) by nra. set (q := q2 step_R) in *. set (g := sin step_R) in *. clearbody q g. replace (g * (q - 1) / 3) with (g * ((q - 1) / 3)) by field. rewrite Rabs_mult.
  assert (Rabs g <= 1) by (apply Rabs_le; lra). assert (Rabs ((q - 1) / 3) <= 1) by (apply Rabs_le; lra). pose proof (Rabs_pos g). pose proof (Rabs_pos ((q - 1) / 3)). nra.
Qed.
Lemma far_ok c0 r k u v : Rabs c0 <= pow 18 -> 0 <= r <= pow 16 -> Rabs k <= 1 -> -1 <= u <= 1 -> -1 <= v <= 1 -> Rabs (c0 + r * u + k * (r * v)) <= pow 24.
Proof.
  intros Hc Hr Hk Hu Hv. change (pow 18) with 262144 in Hc. change (pow 16) with 65536 in Hr. change (pow 24) with 16777216.
  assert (Rabs (r * u) <= 65536) by (rewrite Rabs_mult, (Rabs_pos_eq r) by lra; assert (Rabs u <= 1) by (apply Rabs_le; lra); pose proof (Rabs_pos u); nra).
  assert (Hrv : Rabs (r * v) <= 65536) by (rewrite Rabs_mult, (Rabs_pos_eq r) by lra; assert (Rabs v <= 1) by (apply Rabs_le; lra); pose proof (Rabs_pos v); nra).
  assert (Rabs (k * (r * v)) <= 65536) by (rewrite Rabs_mult; pose proof (Rabs_pos k); pose proof (Rabs_pos (r * v)); nra).
  pose proof (Rabs_triang (c0 + r * u) (k * (r * v))). pose proof (Rabs_triang c0 (r * u)). lra.
Qed.
(** the points of [whole_ellipse] are those of [arch], cut to the grid *)
Lemma piece_bend i : exists b c d, piece cx cy rx ry 0 (0 + INR i * (- (2 * PI) / INR 17)) (- (2 * PI) / INR 17) = OpCubicTo (grid_R b) (grid_R c) (grid_R d)
  /\ arch cx cy rx ry i = Bend3 b c d /\ of_user b /\ of_user c /\ of_user d.
Proof.
  unfold piece, arch. fold (spoke i). rewrite spoke_next. replace (INR 17) with 17 by (cbn; ring). set (t := spoke i). set (h := handle step_R). set (a := t + step_R).
  unfold ell_at, ell_dir, ellipse_pt. cbn [fst snd]. rewrite !cos_0, !sin_0.
  pose proof handle17 as Hh. fold h in Hh. assert (Hh' : Rabs (- h) <= 1) by (rewrite Rabs_Ropp; exact Hh). assert (H00 : Rabs 0 <= 1) by (rewrite Rabs_R0; lra).
  assert (Bnd : forall a', -1 <= cos a' <= 1 /\ -1 <= sin a' <= 1) by (intros a'; split; [apply COS_bound|apply SIN_bound]).
  assert (Ng : forall a', -1 <= - sin a' <= 1) by (intros a'; destruct (Bnd a'); lra).
  do 3 eexists. split; [|split; [reflexivity|]].
  - f_equal; f_equal; f_equal; ring.
  - unfold of_user. cbn [fst snd]. repeat split.
    + replace (cx + rx * (cos t - h * sin t)) with (cx + rx * cos t + h * (rx * - sin t)) by ring. apply far_ok; [exact Bcx|exact Brx|exact Hh|apply Bnd|apply Ng].
    + replace (cy + ry * (sin t + h * cos t)) with (cy + ry * sin t + h * (ry * cos t)) by ring. apply far_ok; [exact Bcy|exact Bry|exact Hh|apply Bnd|apply Bnd].
    + replace (cx + rx * (cos a + h * sin a)) with (cx + rx * cos a + - h * (rx * - sin a)) by ring. apply far_ok; [exact Bcx|exact Brx|exact Hh'|apply Bnd|apply Ng].
    + replace (cy + ry * (sin a - h * cos a)) with (cy + ry * sin a + - h * (ry * cos a)) by ring. apply far_ok; [exact Bcy|exact Bry|exact Hh'|apply Bnd|apply Bnd].
    + replace (cx + rx * cos a) with (cx + rx * cos a + 0 * (rx * - sin a)) by ring. apply far_ok; [exact Bcx|exact Brx|exact H00|apply Bnd|apply Ng].
    + replace (cy + ry * sin a) with (cy + ry * sin a + 0 * (ry * cos a)) by ring. apply far_ok; [exact Bcy|exact Bry|exact H00|apply Bnd|apply Bnd].
Qed.
Lemma start_user : of_user (cx + rx, cy).
Proof.
  split; cbn [fst snd].
  - replace (cx + rx) with (cx + rx * 1 + 0 * (rx * 0)) by ring. apply far_ok; [exact Bcx|exact Brx|rewrite Rabs_R0; lra|lra|lra].
  - replace cy with (cy + ry * 0 + 0 * (ry * 0)) by ring. apply far_ok; [exact Bcy|exact Bry|rewrite Rabs_R0; lra|lra|lra].
Qed.
(** any drawing whose points are near the moved points of [whole_ellipse] *)
Context {A : Type} (to : A -> bow) (rel : A -> op -> Prop) (la lb lc ld le lf ex ey : R).
Notation mv := (moved la lb lc ld le lf).
Notation close z p := (of_user p -> beside ex ey z (mv p)).
Context (rel_hop : forall x a, rel x (OpMoveTo (grid_R a)) -> exists z, to x = Hop z /\ close z a).
Context (rel_bend : forall x a b c, rel x (OpCubicTo (grid_R a) (grid_R b) (grid_R c)) -> exists z1 z2 z3, to x = Bend3 z1 z2 z3 /\ close z1 a /\ close z2 b /\ close z3 c).
Context (rel_back : forall x, rel x OpClose -> to x = Back).
Lemma bends_near i n : forall q tl tl', Forall2 rel q (map (fun i => piece cx cy rx ry 0 (0 + INR i * (- (2 * PI) / INR 17)) (- (2 * PI) / INR 17)) (seq i n) ++ tl) ->
  (forall q, Forall2 rel q tl -> Forall2 (bow_near la lb lc ld le lf ex ey) (map to q) tl') ->
  Forall2 (bow_near la lb lc ld le lf ex ey) (map to q) (map (arch cx cy rx ry) (seq i n) ++ tl').
Proof using Bcx Bcy Brx Bry rel_bend.
  revert i. induction n as [|n IH]; intros i q tl tl' H Ht; cbn [map seq app] in *; [exact (Ht q H)|]. inversion H as [|x y r l Hx Hr]. subst y l q. cbn [map]. constructor; [|exact (IH (S i) r tl tl' Hr Ht)].
  destruct (piece_bend i) as (b & c & d & Ep & Eb & Ub & Uc & Ud). change (rel x (piece cx cy rx ry 0 (0 + INR i * (- (2 * PI) / INR 17)) (- (2 * PI) / INR 17))) in Hx. rewrite Ep in Hx. rewrite Eb. destruct (rel_bend _ _ _ _ Hx) as (z1 & z2 & z3 & E & C1 & C2 & C3). rewrite E. constructor; auto.
Qed.
Theorem whole_runs q tl : tl = [OpClose] \/ tl = [] ->
  Forall2 rel q (OpMoveTo (grid_R (cx + rx, cy)) :: pieces cx cy rx ry 0 0 (- (2 * PI)) 17 ++ tl) ->
  runs_along (ex + kx la lc * 0.023) (ey + ky lb ld * 0.023) (fun t => mv (ellipse_pt cx cy rx ry t)) (map to q).
Proof using All.
  intros Htl H. inversion H as [|x y r l Hx Hr]. subst y l q. cbn [map]. destruct (rel_hop _ _ Hx) as (z & E & C). rewrite E.
  apply (ring_runs cx cy rx ry Brx Bry la lb lc ld le lf ex ey (match tl with [] => [] | _ => [Back] end)); [destruct Htl; subst tl; auto|].
  constructor; [constructor; apply C, start_user|]. apply (bends_near 0 17 r tl _ Hr). intros q Hq. destruct Htl; subst tl.
  - inversion Hq as [|x' y' r' l' Hx' Hr']. subst. inversion Hr'. subst. cbn [map]. rewrite (rel_back _ Hx'). repeat constructor.
  - inversion Hq. constructor.
Qed.
End Round.
Theorem whole_follows cx cy rx ry q : Rabs cx <= pow 18 -> Rabs cy <= pow 18 -> 0 <= rx <= pow 16 -> 0 <= ry <= pow 16 ->
  Forall2 (op_within 1) q (whole_ellipse cx cy rx ry) -> follows_ellipse (1 / 16) cx cy rx ry q.
Proof.
  intros B1 B2 B3 B4 H.
  assert (Hp : forall z a, pt_within 1 z (grid_R a) -> of_user a -> beside (/ 32) (/ 32) (user z) (moved 1 0 0 1 0 0 a)).
  { intros z a [Z1 Z2] U. destruct (user_grid a U) as [G1 G2]. unfold moved, user in *. cbn [fst snd] in *. apply IZR_le in Z1, Z2. rewrite <- Rabs_Zabs, minus_IZR in Z1, Z2. apply Rabs_le_inv in Z1, Z2, G1, G2. split; cbn [fst snd]; apply Rabs_le; lra. }
  pose proof (whole_runs cx cy rx ry B1 B2 B3 B4 bow_of (op_within 1) 1 0 0 1 0 0 (/ 32) (/ 32)) as W.
  eapply runs_wider; [| | |apply (W) with (tl := [OpClose]); [| | |left; reflexivity|exact H]].
  - unfold kx. rewrite Rabs_R1, Rabs_R0. lra.
  - unfold ky. rewrite Rabs_R1, Rabs_R0. lra.
  - intros t. unfold moved, ellipse_pt. cbn [fst snd]. f_equal; ring.
  - intros x a Hx. inversion Hx; subst. eexists. split; [reflexivity|]. apply Hp. assumption.
  - intros x a b c Hx. inversion Hx; subst. do 3 eexists. split; [reflexivity|]. repeat split; apply Hp; assumption.
  - intros x Hx. inversion Hx; subst. reflexivity.
Qed.

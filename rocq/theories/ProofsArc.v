(** * ProofsArc: the geometry of elliptical arcs over the reals *)
From Coq Require Import Reals Lra Lia ZArith.
From Flocq Require Import Core.Raux.
From Verif Require Import SpecArc.
Local Open Scope R_scope.

(** ** atan2 *)
Lemma sqrt_split a b : 0 < a -> sqrt (a * a + b * b) = a * sqrt (1 + (b / a)²).
Proof.
  intros Ha. rewrite <- (sqrt_square a) at 3 by lra. rewrite <- sqrt_mult by (pose proof (Rle_0_sqr (b / a)); nra).
  f_equal. unfold Rsqr. field. lra.
Qed.
Lemma sq_pos a : a <> 0 -> 0 < a * a. Proof. intros. nra. Qed.
Lemma atan2_dir y x : x <> 0 \/ y <> 0 ->
  cos (atan2 y x) = x / sqrt (x * x + y * y) /\ sin (atan2 y x) = y / sqrt (x * x + y * y).
Proof.
  intros H. unfold atan2.
  assert (Hs : 0 < x * x + y * y) by (destruct H; nra).
  assert (Hn : forall z, 0 < sqrt (1 + z²)) by (intros z; apply sqrt_lt_R0; pose proof (Rle_0_sqr z); lra).
  destruct (Rlt_dec 0 x) as [H0|H0].
  - rewrite cos_atan, sin_atan, (sqrt_split x y H0). pose proof (Hn (y / x)) as Hq. split; field; lra.
  - destruct (Rlt_dec x 0) as [H1|H1].
    + assert (E : sqrt (x * x + y * y) = - x * sqrt (1 + (y / x)²)).
      { replace (x * x + y * y) with (- x * - x + y * y) by ring. rewrite (sqrt_split (- x) y) by lra. f_equal. f_equal. unfold Rsqr. field. lra. }
      rewrite E. pose proof (Hn (y / x)) as Hq.
      destruct (Rle_dec 0 y) as [H2|H2].
      * rewrite neg_cos, neg_sin, cos_atan, sin_atan. split; field; lra.
      * replace (atan (y / x) - PI) with (- (PI - atan (y / x))) by ring. rewrite cos_neg, sin_neg.
        replace (PI - atan (y / x)) with (- atan (y / x) + PI) by ring. rewrite neg_cos, neg_sin, cos_neg, sin_neg, cos_atan, sin_atan.
        split; field; lra.
    + assert (x = 0) by lra. subst x. rewrite Rmult_0_l, Rplus_0_l.
      destruct (Rlt_dec 0 y) as [H2|H2].
      * rewrite cos_PI2, sin_PI2, sqrt_square by lra. split; field; lra.
      * destruct (Rlt_dec y 0) as [H3|H3]; [|destruct H; lra].
        replace (y * y) with (- y * - y) by ring. rewrite cos_neg, sin_neg, cos_PI2, sin_PI2, sqrt_square by lra. split; field; lra.
Qed.
Lemma atan2_range y x : - PI < atan2 y x <= PI.
Proof.
  unfold atan2. pose proof PI_RGT_0.
  destruct (Rlt_dec 0 x) as [H0|H0]; [pose proof (atan_bound (y / x)); lra|].
  destruct (Rlt_dec x 0) as [H1|H1].
  - pose proof (atan_bound (y / x)) as Hq. destruct (Rle_dec 0 y) as [H2|H2].
    + assert (atan (y / x) <= 0); [|lra]. rewrite <- atan_0. destruct H2 as [H2|<-].
      * left. apply atan_increasing. unfold Rdiv. pose proof (Rinv_lt_0_compat x H1). nra.
      * right. f_equal. field. lra.
    + assert (0 < atan (y / x)); [|lra]. rewrite <- atan_0. apply atan_increasing. unfold Rdiv.
      rewrite <- Rmult_opp_opp. apply Rmult_lt_0_compat; [lra|]. pose proof (Rinv_lt_0_compat x H1). lra.
  - destruct (Rlt_dec 0 y); [lra|]. destruct (Rlt_dec y 0); lra.
Qed.

(** ** the angle of a point of an ellipse *)
Section Angle.
Context (cx cy ra rb rot : R) (Ha : 0 < ra) (Hb : 0 < rb).
(** a point in the coordinates of the ellipse *)
Definition ux (p : R * R) : R := (fst p - cx) * cos rot + (snd p - cy) * sin rot.
Definition uy (p : R * R) : R := - (fst p - cx) * sin rot + (snd p - cy) * cos rot.
Definition on_ell (p : R * R) : Prop := (ux p / ra)² + (uy p / rb)² = 1.
Lemma cs2 : cos rot * cos rot + sin rot * sin rot = 1.
Proof. pose proof (sin2_cos2 rot). unfold Rsqr in *. lra. Qed.
Lemma ux_ell t : ux (ell_at cx cy ra rb rot t) = ra * cos t.
Proof. unfold ux, ell_at. cbn [fst snd]. transitivity (ra * cos t * (cos rot * cos rot + sin rot * sin rot)); [ring|rewrite cs2; ring]. Qed.
Lemma uy_ell t : uy (ell_at cx cy ra rb rot t) = rb * sin t.
Proof. unfold uy, ell_at. cbn [fst snd]. transitivity (rb * sin t * (cos rot * cos rot + sin rot * sin rot)); [ring|rewrite cs2; ring]. Qed.
Lemma u_inj p q : ux p = ux q -> uy p = uy q -> p = q.
Proof.
  intros H1 H2. destruct p as [px py], q as [qx qy]. unfold ux, uy in *. cbn [fst snd] in *. pose proof cs2 as H.
  set (c := cos rot) in *. set (s := sin rot) in *. clearbody c s.
  assert (K1 : (px - qx) * c + (py - qy) * s = 0) by lra. assert (K2 : - (px - qx) * s + (py - qy) * c = 0) by lra.
  assert (px - qx = 0).
  { transitivity (c * ((px - qx) * c + (py - qy) * s) - s * (- (px - qx) * s + (py - qy) * c)); [|rewrite K1, K2; ring].
    transitivity ((px - qx) * (c * c + s * s)); [rewrite H; ring|ring]. }
  assert (py - qy = 0).
  { transitivity (s * ((px - qx) * c + (py - qy) * s) + c * (- (px - qx) * s + (py - qy) * c)); [|rewrite K1, K2; ring].
    transitivity ((py - qy) * (c * c + s * s)); [rewrite H; ring|ring]. }
  f_equal; lra.
Qed.
Lemma u_norm p : ux p * ux p + uy p * uy p = (fst p - cx) * (fst p - cx) + (snd p - cy) * (snd p - cy).
Proof.
  unfold ux, uy. transitivity (((fst p - cx) * (fst p - cx) + (snd p - cy) * (snd p - cy)) * (cos rot * cos rot + sin rot * sin rot)); [ring|].
  rewrite cs2. ring.
Qed.
(** the angle that shapes.go computes *)
Definition eta_of (p : R * R) : R :=
  let a := atan2 (snd p - cy) (fst p - cx) - rot in atan2 (sin a / rb) (cos a / ra).
Lemma eta_dir p : on_ell p -> cos (eta_of p) = ux p / ra /\ sin (eta_of p) = uy p / rb.
Proof.
  intros Hp. set (u := ux p) in *. set (v := uy p) in *.
  assert (Huv : u <> 0 \/ v <> 0).
  { destruct (Req_dec u 0) as [E|E]; [|auto]. right. intros E2. unfold on_ell in Hp. fold u v in Hp. rewrite E, E2 in Hp. unfold Rsqr in Hp. lra. }
  pose proof (u_norm p) as Hn. fold u v in Hn. set (x := fst p - cx) in *. set (y := snd p - cy) in *.
  assert (Hxy : x <> 0 \/ y <> 0) by (destruct (Req_dec x 0) as [E|E]; [right; intros E2; rewrite E, E2 in Hn; destruct Huv; nra|auto]).
  unfold eta_of. cbv zeta. fold x y. rewrite cos_minus, sin_minus.
  destruct (atan2_dir y x Hxy) as [-> ->]. set (r := sqrt (x * x + y * y)).
  assert (Hr2 : r * r = x * x + y * y) by (apply sqrt_sqrt; nra).
  assert (Hr : 0 < r) by (apply sqrt_lt_R0; destruct Hxy; nra).
  assert (Eu : x / r * cos rot + y / r * sin rot = u / r) by (unfold u, ux; fold x y; field; lra).
  assert (Ev : y / r * cos rot - x / r * sin rot = v / r) by (unfold v, uy; fold x y; field; lra).
  rewrite Eu, Ev.
  assert (N : u / r / ra <> 0 \/ v / r / rb <> 0).
  { destruct Huv as [E|E]; [left|right]; unfold Rdiv; repeat apply Rmult_integral_contrapositive_currified; auto; apply Rinv_neq_0_compat; lra. }
  destruct (atan2_dir (v / r / rb) (u / r / ra) N) as [-> ->].
  assert (S : sqrt (u / r / ra * (u / r / ra) + v / r / rb * (v / r / rb)) = / r).
  { replace (_ + _) with (/ r * / r).
    - apply sqrt_square. left. apply Rinv_0_lt_compat. lra.
    - transitivity (/ r * / r * ((u / ra)² + (v / rb)²)); [unfold on_ell in Hp; fold u v in Hp; rewrite Hp; ring|]. unfold Rsqr. field. lra. }
  rewrite S. split; field; lra.
Qed.
Lemma eta_at p : on_ell p -> ell_at cx cy ra rb rot (eta_of p) = p.
Proof.
  intros Hp. destruct (eta_dir p Hp) as [Hc Hs]. apply u_inj.
  - rewrite ux_ell, Hc. field. lra.
  - rewrite uy_ell, Hs. field. lra.
Qed.
Lemma eta_range p : - PI < eta_of p <= PI. Proof. apply atan2_range. Qed.
End Angle.

(** ** the centre *)
Definition agree (sweep small : bool) : bool := (sweep && small) || (negb sweep && negb small).
Lemma div0 (x : R) : x / 1 = x. Proof. field. Qed.
Lemma ux_shift cx cy rot sx sy (a b : R) : cx = a * cos rot - b * sin rot + sx -> cy = a * sin rot + b * cos rot + sy ->
  forall p : R * R, ux cx cy rot p = ((fst p - sx) * cos rot + (snd p - sy) * sin rot) - a
                 /\ uy cx cy rot p = (- (fst p - sx) * sin rot + (snd p - sy) * cos rot) - b.
Proof.
  intros -> -> p. unfold ux, uy. pose proof (cs2 rot) as H. split.
  - transitivity ((fst p - sx) * cos rot + (snd p - sy) * sin rot - a * (cos rot * cos rot + sin rot * sin rot)); [ring|rewrite H; ring].
  - transitivity (- (fst p - sx) * sin rot + (snd p - sy) * cos rot - b * (cos rot * cos rot + sin rot * sin rot)); [ring|rewrite H; ring].
Qed.
(** the half chord in the coordinates where the ellipse is a circle of radius [rb] *)
Definition half (ra rb rot : R) (p q : R * R) : R * R :=
  let nx := fst q - fst p in let ny := snd q - snd p in
  ((nx * cos rot + ny * sin rot) * (rb / ra) / 2, (- nx * sin rot + ny * cos rot) / 2).
Definition half2 ra rb rot p q : R := let m := half ra rb rot p q in fst m * fst m + snd m * snd m.
Lemma half2_pos ra rb rot p q : 0 < ra -> 0 < rb -> p <> q -> 0 < half2 ra rb rot p q.
Proof.
  intros Ha Hb Hpq. unfold half2. cbv zeta. set (m := half ra rb rot p q).
  assert (H : fst m <> 0 \/ snd m <> 0).
  { destruct (Req_dec (fst m) 0) as [E1|E1]; [|auto]. right. intros E2. apply Hpq. unfold m, half in E1, E2. cbn [fst snd] in E1, E2.
    symmetry. apply (u_inj 0 0 rot); unfold ux, uy.
    - assert (K : ((fst q - fst p) * cos rot + (snd q - snd p) * sin rot) * (rb / ra) = 0) by lra.
      apply Rmult_integral in K as [K|K]; [lra|]. exfalso. assert (0 < rb / ra) by (apply Rdiv_lt_0_compat; lra). lra.
    - lra. }
  destruct H; nra.
Qed.
Lemma fits_half ra rb rot k p q : 0 < ra -> 0 < rb -> 0 < k -> fits (k * ra) (k * rb) rot p q -> half2 ra rb rot p q <= (k * rb) * (k * rb).
Proof.
  intros Ha Hb Hk (cx & cy & t & u & <- & <-).
  pose proof (ux_ell cx cy (k * ra) (k * rb) rot t) as U1. pose proof (uy_ell cx cy (k * ra) (k * rb) rot t) as V1.
  pose proof (ux_ell cx cy (k * ra) (k * rb) rot u) as U2. pose proof (uy_ell cx cy (k * ra) (k * rb) rot u) as V2.
  set (p := ell_at _ _ _ _ _ t) in *. set (q := ell_at _ _ _ _ _ u) in *. clearbody p q.
  assert (E : half ra rb rot p q = (k * rb * (cos u - cos t) / 2, k * rb * (sin u - sin t) / 2)).
  { unfold half. f_equal.
    - transitivity ((ux cx cy rot q - ux cx cy rot p) * (rb / ra) / 2); [unfold ux; field; lra|]. rewrite U1, U2. field. lra.
    - transitivity ((uy cx cy rot q - uy cx cy rot p) / 2); [unfold uy; field|]. rewrite V1, V2. field. }
  unfold half2. rewrite E. cbn [fst snd].
  replace (_ + _) with (k * rb * (k * rb) * (((cos u - cos t) * (cos u - cos t) + (sin u - sin t) * (sin u - sin t)) / 4)) by field.
  assert ((cos u - cos t) * (cos u - cos t) + (sin u - sin t) * (sin u - sin t) <= 4).
  { pose proof (sin2_cos2 u) as S1. pose proof (sin2_cos2 t) as S2. unfold Rsqr in *. 
    pose proof (Rle_0_sqr (cos u + cos t)). pose proof (Rle_0_sqr (sin u + sin t)). unfold Rsqr in *. nra. }
  assert (0 < k * rb * (k * rb)) by (apply sq_pos, Rgt_not_eq; nra). nra.
Qed.
(** the scale applied to the radii and the relative height of the centre over the chord *)
Lemma center_facts O (ra rb rot sx sy ex ey : R) (sw sm : bool) : 0 < ra -> 0 < rb -> (sx, sy) <> (ex, ey) ->
  exists cx cy k, findEllipseCenter (E := RealEnv O) ra rb rot sx sy ex ey sw sm = ((cx, cy), (k * ra, k * rb))
    /\ 1 <= k /\ (forall k', 1 <= k' -> fits (k' * ra) (k' * rb) rot (sx, sy) (ex, ey) -> k <= k')
    /\ on_ell cx cy (k * ra) (k * rb) rot (sx, sy) /\ on_ell cx cy (k * ra) (k * rb) rot (ex, ey)
    /\ (let z := ux cx cy rot (sx, sy) * uy cx cy rot (ex, ey) - uy cx cy rot (sx, sy) * ux cx cy rot (ex, ey) in
        if agree sw sm then z <= 0 else 0 <= z).
Proof.
  intros Ha Hb Hne. pose proof (half2_pos ra rb rot _ _ Ha Hb Hne) as Hm.
  set (h := half ra rb rot (sx, sy) (ex, ey)) in *.
  assert (Hh2 : half2 ra rb rot (sx, sy) (ex, ey) = fst h * fst h + snd h * snd h) by reflexivity.
  set (m2 := half2 ra rb rot (sx, sy) (ex, ey)) in *.
  set (tooFar := if Rlt_dec (rb * rb) m2 then true else false).
  set (k := if tooFar then sqrt m2 / rb else 1).
  set (hr := if tooFar then 0 else sqrt (rb * rb - m2) / sqrt m2).
  set (g := if agree sw sm then 1 else -1).
  set (c1 := fst h + g * (snd h * hr)). set (c2 := snd h - g * (fst h * hr)).
  set (a := c1 * (ra / rb)).
  exists (a * cos rot - c2 * sin rot + sx), (a * sin rot + c2 * cos rot + sy), k.
  assert (Hk : 1 <= k).
  { unfold k, tooFar. destruct (Rlt_dec (rb * rb) m2) as [H|H]; [|lra].
    apply (Rmult_le_reg_r rb); [lra|]. unfold Rdiv. rewrite Rmult_1_l, Rmult_assoc, Rinv_l, Rmult_1_r by lra.
    rewrite <- (sqrt_square rb) at 1 by lra. apply sqrt_le_1_alt. lra. }
  assert (Hs2 : 0 < sqrt m2) by (apply sqrt_lt_R0; exact Hm).
  assert (Hsm : sqrt m2 * sqrt m2 = m2) by (apply sqrt_sqrt; lra).
  assert (Hhr : 0 <= hr).
  { unfold hr. destruct tooFar; [lra|]. apply Rmult_le_pos; [apply sqrt_pos|]. left. apply Rinv_0_lt_compat. exact Hs2. }
  assert (Hnorm : c1 * c1 + c2 * c2 = (k * rb) * (k * rb)).
  { assert (Hg : g * g = 1) by (unfold g; destruct (agree sw sm); ring).
    transitivity (m2 * (1 + g * g * (hr * hr))); [unfold c1, c2; rewrite Hh2; ring|]. rewrite Hg.
    unfold hr, k, tooFar. destruct (Rlt_dec (rb * rb) m2) as [H|H].
    - transitivity (sqrt m2 * sqrt m2); [rewrite Hsm; ring|field; lra].
    - rewrite Rmult_1_l. assert (E : sqrt (rb * rb - m2) * sqrt (rb * rb - m2) = rb * rb - m2) by (apply sqrt_sqrt; lra).
      transitivity (m2 + m2 * ((sqrt (rb * rb - m2) * sqrt (rb * rb - m2)) / (sqrt m2 * sqrt m2))); [field; lra|].
      rewrite E, Hsm. field. lra. }
  pose proof (ux_shift _ _ rot sx sy a c2 eq_refl eq_refl) as Hu. cbv beta in Hu.
  set (cx := a * cos rot - c2 * sin rot + sx) in *. set (cy := a * sin rot + c2 * cos rot + sy) in *.
  destruct (Hu (sx, sy)) as [Us Vs]. destruct (Hu (ex, ey)) as [Ue Ve]. cbn [fst snd] in Us, Vs, Ue, Ve.
  assert (Us' : ux cx cy rot (sx, sy) = - c1 * (ra / rb)) by (rewrite Us; unfold a; ring).
  assert (Vs' : uy cx cy rot (sx, sy) = - c2) by (rewrite Vs; ring).
  assert (Ue' : ux cx cy rot (ex, ey) = (2 * fst h - c1) * (ra / rb)).
  { rewrite Ue. unfold h, half, a. cbn [fst snd]. field. lra. }
  assert (Ve' : uy cx cy rot (ex, ey) = 2 * snd h - c2).
  { rewrite Ve. unfold h, half. cbn [fst snd]. field. }
  clear Us Vs Ue Ve Hu.
  split; [|split; [exact Hk|split; [|split; [|split]]]].
  - unfold findEllipseCenter. cbn [fadd fsub fmul fdiv fneg fcos fsin fsqrt fltb feqb RealEnv]. rewrite !fnum_real. cbv zeta.
    change ((- (ex - sx)) * sin rot + (ey - sy) * cos rot) with (- (ex - sx) * sin rot + (ey - sy) * cos rot).
    change (((ex - sx) * cos rot + (ey - sy) * sin rot) * (rb / ra) / 2) with (fst h).
    change ((- (ex - sx) * sin rot + (ey - sy) * cos rot) / 2) with (snd h). rewrite <- Hh2.
    fold tooFar. fold (agree sw sm).
    assert (E1 : (if tooFar then (if (if Req_EM_T ra rb then true else false) then sqrt m2 else ra * sqrt m2 / rb, sqrt m2, 0)
                  else (ra, rb, sqrt (rb * rb - m2) / sqrt m2)) = (k * ra, k * rb, hr)).
    { unfold k, hr. destruct tooFar.
      - replace (sqrt m2 / rb * rb) with (sqrt m2) by (field; lra).
        destruct (Req_EM_T ra rb) as [Eab|]; [rewrite Eab; replace (sqrt m2 / rb * rb) with (sqrt m2) by (field; lra); reflexivity|].
        replace (sqrt m2 / rb * ra) with (ra * sqrt m2 / rb) by (field; lra). reflexivity.
      - rewrite !Rmult_1_l. reflexivity. }
    match goal with |- context [if tooFar then ?x else ?y] => replace (if tooFar then x else y) with (k * ra, k * rb, hr) by (symmetry; exact E1) end.
    assert (Hkr : k * ra / (k * rb) = ra / rb) by (field; lra).
    assert (E2 : (if agree sw sm then (fst h + snd h * hr, snd h - fst h * hr) else (fst h - snd h * hr, snd h + fst h * hr)) = (c1, c2))
      by (unfold c1, c2, g; destruct (agree sw sm); f_equal; ring).
    match goal with |- context [if agree sw sm then ?x else ?y] => replace (if agree sw sm then x else y) with (c1, c2) by (symmetry; exact E2) end.
    cbv beta iota. change ((c1 * (k * ra / (k * rb)) * cos rot - c2 * sin rot + sx, c1 * (k * ra / (k * rb)) * sin rot + c2 * cos rot + sy, (k * ra, k * rb)) = (cx, cy, (k * ra, k * rb))).
    rewrite Hkr. reflexivity.
  - intros k' Hk' Hf. apply fits_half in Hf; try lra. fold m2 in Hf.
    unfold k, tooFar. destruct (Rlt_dec (rb * rb) m2) as [H|H]; [|lra].
    apply (Rmult_le_reg_r rb); [lra|]. unfold Rdiv. rewrite Rmult_assoc, Rinv_l, Rmult_1_r by lra.
    rewrite <- (sqrt_square (k' * rb)) by nra. apply sqrt_le_1_alt. exact Hf.
  - unfold on_ell, Rsqr. rewrite Us', Vs'.
    transitivity ((c1 * c1 + c2 * c2) / (k * rb * (k * rb))); [field; lra|]. rewrite Hnorm. field. lra.
  - unfold on_ell, Rsqr. rewrite Ue', Ve'.
    transitivity (((2 * fst h - c1) * (2 * fst h - c1) + (2 * snd h - c2) * (2 * snd h - c2)) / (k * rb * (k * rb))); [field; lra|].
    replace ((2 * fst h - c1) * (2 * fst h - c1) + (2 * snd h - c2) * (2 * snd h - c2)) with (c1 * c1 + c2 * c2) by (unfold c1, c2; ring).
    rewrite Hnorm. field. lra.
  - cbv zeta. rewrite Us', Vs', Ue', Ve'.
    assert (Z : - c1 * (ra / rb) * (2 * snd h - c2) - - c2 * ((2 * fst h - c1) * (ra / rb)) = - g * (2 * hr * m2 * (ra / rb))).
    { rewrite Hh2. unfold c1, c2. ring. }
    rewrite Z. assert (0 <= 2 * hr * m2 * (ra / rb)).
    { assert (0 < ra / rb) by (apply Rdiv_lt_0_compat; lra). apply Rmult_le_pos; [|lra]. apply Rmult_le_pos; [|lra]. lra. }
    unfold g. destruct (agree sw sm); lra.
Qed.

(** ** the angle spanned by the arc *)
Lemma twoPi_real O : twoPi (E := RealEnv O) = PI * 2. Proof. unfold twoPi. rewrite fnum_real. reflexivity. Qed.
Lemma piOver8_real O : piOver8 (E := RealEnv O) = PI / 8. Proof. unfold piOver8. rewrite fnum_real. reflexivity. Qed.
Lemma adjust_facts O (d0 : R) (big large sweep : bool) : - (2 * PI) < d0 < 2 * PI -> d0 <> 0 ->
  let d : R := adjustEta (E := RealEnv O) d0 big large sweep in
  (if sweep then 0 < d < 2 * PI else - (2 * PI) < d < 0) /\ (d = d0 \/ d = d0 + 2 * PI \/ d = d0 - 2 * PI).
Proof.
  intros Hr Hn d. pose proof PI_RGT_0. subst d. unfold adjustEta. rewrite twoPi_real, !fnum_real. cbn [fltb fleb fadd fsub RealEnv].
  destruct (xorb big large), sweep;
    repeat match goal with |- context [Rlt_dec ?a ?b] => destruct (Rlt_dec a b) | |- context [Rle_dec ?a ?b] => destruct (Rle_dec a b) end;
    cbn [andb negb]; lra.
Qed.
Lemma turn_cos d d0 : d = d0 \/ d = d0 + 2 * PI \/ d = d0 - 2 * PI -> cos d = cos d0 /\ sin d = sin d0.
Proof.
  intros [->|[->| ->]]; [auto| |].
  - rewrite cos_plus, sin_plus, cos_2PI, sin_2PI. split; ring.
  - rewrite cos_minus, sin_minus, cos_2PI, sin_2PI. split; ring.
Qed.
Lemma ell_period cx cy rx ry rot t u : cos t = cos u -> sin t = sin u -> ell_at cx cy rx ry rot t = ell_at cx cy rx ry rot u.
Proof. intros H1 H2. unfold ell_at. rewrite H1, H2. reflexivity. Qed.
Lemma sum_trig t d u : cos d = cos (u - t) -> sin d = sin (u - t) -> cos (t + d) = cos u /\ sin (t + d) = sin u.
Proof.
  intros H1 H2. rewrite cos_plus, sin_plus, H1, H2. split.
  - rewrite <- cos_plus. f_equal. ring.
  - rewrite <- sin_plus. f_equal. ring.
Qed.
(** the flags choose the right one of the two arcs *)
Lemma sin_neg_big x : 0 < x < 2 * PI -> sin x <= 0 -> PI <= x.
Proof. intros H Hs. destruct (Rlt_le_dec x PI) as [L|L]; [|lra]. pose proof (sin_gt_0 x). lra. Qed.
Lemma sin_pos_small x : 0 < x < 2 * PI -> 0 <= sin x -> x <= PI.
Proof. intros H Hs. destruct (Rlt_le_dec PI x) as [L|L]; [|lra]. pose proof (sin_lt_0 x). lra. Qed.

(** ** the pieces *)
Lemma toFixed_real O (x y : R) : toFixedP (E := RealEnv O) x y = grid_R (x, y).
Proof. unfold toFixedP, grid_R. rewrite !fnum_real. reflexivity. Qed.
Lemma pointAt_real O (a b rot t cx cy : R) : ellipsePointAt (E := RealEnv O) a b (sin rot) (cos rot) t cx cy = ell_at cx cy a b rot t.
Proof. reflexivity. Qed.
Lemma prime_real O (a b rot t : R) : ellipsePrime (E := RealEnv O) a b (sin rot) (cos rot) t = ell_dir a b rot t.
Proof.
  unfold ellipsePrime, ell_dir. cbn [fadd fsub fmul fneg fcos fsin RealEnv]. f_equal; ring.
Qed.
Lemma handle_real O (d : R) : fdiv (RealEnv O) (fmul (RealEnv O) (fsin (RealEnv O) d) (fsub (RealEnv O) (fsqrt (RealEnv O)
   (fadd (RealEnv O) (fnum (RealEnv O) 4) (fmul (RealEnv O) (fmul (RealEnv O) (fnum (RealEnv O) 3) (ftan (RealEnv O) (fdiv (RealEnv O) d (fnum (RealEnv O) 2)))) (ftan (RealEnv O) (fdiv (RealEnv O) d (fnum (RealEnv O) 2)))))) (fnum (RealEnv O) 1))) (fnum (RealEnv O) 3) = handle d.
Proof.
  rewrite !fnum_real. cbn [fadd fsub fmul fdiv fsin ftan fsqrt RealEnv]. unfold handle. rewrite Rmult_assoc. reflexivity.
Qed.
Lemma segs_real O (ra rb ex ey cx cy rot t dd : R) (segs : Z) :
  ell_at cx cy ra rb rot (t + dd * IZR segs) = (ex, ey) -> (1 <= segs)%Z ->
  forall n (i : nat) (l v : R * R) p, (Z.of_nat i + Z.of_nat n = segs)%Z ->
    l = ell_at cx cy ra rb rot (t + INR i * dd) -> v = ell_dir ra rb rot (t + INR i * dd) ->
    ellSegs (E := RealEnv O) n (Z.of_nat i + 1) segs ra rb ex ey cx cy (sin rot) (cos rot) t dd (handle dd) (fst l) (snd l) (fst v) (snd v) p
    = (p ++ map (fun j => piece cx cy ra rb rot (t + INR j * dd) dd) (seq i n),
       match n with O => l | _ => (ex, ey) end).
Proof.
  intros He Hseg. induction n as [|n IH]; intros i l v p Hi Hl Hv; cbn [ellSegs seq map].
  - rewrite app_nil_r. destruct l; reflexivity.
  - rewrite pointAt_real, prime_real. change (f_of_Z (RealEnv O)) with IZR. change (fadd (RealEnv O) t (fmul (RealEnv O) dd ?z)) with (t + dd * z).
    cbn [fadd fmul fsub RealEnv].
    assert (Et : t + dd * IZR (Z.of_nat i + 1) = t + INR (S i) * dd).
    { rewrite S_INR, INR_IZR_INZ, plus_IZR. ring. }
    assert (Hq : (if (Z.of_nat i + 1 =? segs)%Z then (ex, ey) else ell_at cx cy ra rb rot (t + dd * IZR (Z.of_nat i + 1)))
                 = ell_at cx cy ra rb rot (t + INR (S i) * dd)).
    { rewrite Et. destruct (Z.eqb_spec (Z.of_nat i + 1) segs) as [E|E]; [|reflexivity]. rewrite <- He, <- E, Et. reflexivity. }
    match goal with |- (let (_, _) := ?X in _) = _ => change X with (if (Z.of_nat i + 1 =? segs)%Z then (ex, ey) else ell_at cx cy ra rb rot (t + dd * IZR (Z.of_nat i + 1))) end.
    rewrite Hq, Et.
    set (q := ell_at cx cy ra rb rot (t + INR (S i) * dd)). set (w := ell_dir ra rb rot (t + INR (S i) * dd)).
    destruct q as [qx qy] eqn:Eq, w as [wx wy] eqn:Ew. 
    specialize (IH (S i) (qx, qy) (wx, wy)). cbn [fst snd] in IH. replace (Z.of_nat (S i) + 1)%Z with (Z.of_nat i + 1 + 1)%Z in IH by lia.
    rewrite IH; [|lia|symmetry; exact Eq|symmetry; exact Ew]. unfold pCube. rewrite <- app_assoc. cbn [app]. f_equal.
    + f_equal. f_equal. unfold piece. rewrite !toFixed_real.
      replace (t + INR i * dd + dd) with (t + INR (S i) * dd) by (rewrite S_INR; ring).
      fold q w. rewrite Eq, Ew. rewrite <- Hl, <- Hv. reflexivity.
    + destruct n; [|reflexivity]. rewrite <- He. replace segs with (Z.of_nat i + 1)%Z by lia. rewrite Et. symmetry. exact Eq.
Qed.

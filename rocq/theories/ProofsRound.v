(** * ProofsRound: circles and ellipses over the reals *)
From Coq Require Import Lia Reals Lra.
From Flocq Require Import Core.Raux.
From Verif Require Import SpecArc ProofsArc ProofsShape ProofsArc2.
Local Open Scope R_scope.

Lemma round_angle O (cx cy rx ry : R) : rx <> 0 -> ry <> 0 -> eta_of cx cy rx ry (degrees (fnum (RealEnv O) 0)) (cx + rx, cy) = 0.
Proof.
  intros Ha Hb. unfold eta_of. cbn [fst snd]. rewrite fnum_real. unfold degrees.
  replace (cy - cy) with 0 by ring. replace (cx + rx - cx) with rx by ring. replace (0 * PI / 180) with 0 by field.
  assert (A0 : forall x, 0 < x -> atan2 0 x = 0).
  { intros x Hx. unfold atan2. destruct (Rlt_dec 0 x); [|lra]. unfold Rdiv. rewrite Rmult_0_l. apply atan_0. }
  destruct (Rlt_dec 0 rx) as [H|H].
  - rewrite A0, Rminus_0_r, sin_0, cos_0 by exact H. unfold Rdiv at 1. rewrite Rmult_0_l. apply A0.
    apply Rmult_lt_0_compat; [lra|apply Rinv_0_lt_compat; lra].
  - assert (A1 : atan2 0 rx = PI).
    { unfold atan2. destruct (Rlt_dec 0 rx); [lra|]. destruct (Rlt_dec rx 0); [|lra]. destruct (Rle_dec 0 0); [|lra].
      unfold Rdiv. rewrite Rmult_0_l, atan_0. lra. }
    rewrite A1, Rminus_0_r, sin_PI, cos_PI. unfold Rdiv at 1. rewrite Rmult_0_l. apply A0.
    replace (-1 / rx) with (1 * / - rx) by (field; lra).
    apply Rmult_lt_0_compat; [lra|apply Rinv_0_lt_compat; lra].
Qed.
Lemma full_turn O big : adjustEta (E := RealEnv O) (0 - 0) big true false = - (2 * PI) \/
  adjustEta (E := RealEnv O) (0 - 0) big true false = 0 - 2 * PI.
Proof.
  pose proof PI_RGT_0. unfold adjustEta. rewrite twoPi_real, !fnum_real. cbn [fltb fleb fadd fsub RealEnv].
  destruct big; cbn [xorb];
    repeat match goal with |- context [Rlt_dec ?a ?b] => destruct (Rlt_dec a b) | |- context [Rle_dec ?a ?b] => destruct (Rle_dec a b) end;
    cbn [andb negb]; lra.
Qed.
Lemma addArc_round O (cx cy rx ry : R) p : rx <> 0 -> ry <> 0 ->
  addArc (E := RealEnv O) [rx; ry; fnum (RealEnv O) 0; fnum (RealEnv O) 1; fnum (RealEnv O) 0; cx + rx; cy] cx cy (cx + rx) cy p
  = Ret (p ++ pieces cx cy rx ry 0 0 (- (2 * PI)) 17, (cx + rx, cy)).
Proof.
  intros Ha Hb. pose proof PI_RGT_0.
  destruct (addArc_R O rx ry (fnum (RealEnv O) 0) (fnum (RealEnv O) 1) (fnum (RealEnv O) 0) (cx + rx) cy cx cy (cx + rx) cy true false p) as (big & E2).
  { split; [intros _; rewrite fnum_real; lra|reflexivity]. } { split; [discriminate|rewrite fnum_real; lra]. }
  etransitivity; [exact E2|]. clear E2. cbv zeta. rewrite round_angle by assumption.
  assert (Ed : adjustEta (E := RealEnv O) (0 - 0) big true false = - (2 * PI)) by (destruct (full_turn O big); lra).
  rewrite !Ed. 
  assert (Er : degrees (fnum (RealEnv O) 0) = 0) by (rewrite fnum_real; unfold degrees; field).
  rewrite Er.
  assert (En : (Ztrunc (Rabs (- (2 * PI)) / (PI / 8)) + 1 = 17)%Z).
  { rewrite Rabs_left by lra. replace (- - (2 * PI) / (PI / 8)) with (IZR 16) by (field; lra). rewrite Ztrunc_IZR. reflexivity. }
  rewrite En. change (F (RealEnv O)) with R.
  assert (A0 : ell_at cx cy rx ry 0 0 = (cx + rx, cy)).
  { unfold ell_at. rewrite cos_0, sin_0. f_equal; ring. }
  assert (A1 : ell_at cx cy rx ry 0 (0 + - (2 * PI) / 17 * 17) = (cx + rx, cy)).
  { rewrite <- A0. apply ell_period; replace (0 + - (2 * PI) / 17 * 17) with (- (2 * PI)) by field.
    - rewrite cos_neg, cos_2PI, cos_0. reflexivity.
    - rewrite sin_neg, sin_2PI, sin_0. ring. }
  pose proof (segs_real O rx ry (cx + rx) cy cx cy 0 0 (- (2 * PI) / 17) 17 A1 ltac:(lia) 17 0%nat (cx + rx, cy) (ell_dir rx ry 0 0) p eq_refl) as HR.
  change (INR 0) with 0 in HR. rewrite Rmult_0_l, Rplus_0_r in HR. specialize (HR (eq_sym A0) eq_refl).
  cbn [fst snd] in HR. change (Z.of_nat 0 + 1)%Z with 1%Z in HR. change (Z.to_nat 17) with 17%nat.
  etransitivity; [apply f_equal; exact HR|]. f_equal. f_equal. f_equal. unfold pieces.
  replace (INR 17) with 17 by (rewrite INR_IZR_INZ; reflexivity). reflexivity.
Qed.
Lemma ellipseAt_real O (cx cy rx ry : R) (c : pcur (RealEnv O)) : rx <> 0 -> ry <> 0 -> pc_path c = [] ->
  exists c', ellipseAt (E := RealEnv O) cx cy rx ry c = (c', Ret tt) /\ pc_path c' = whole_ellipse cx cy rx ry /\ pc_log c' = pc_log c.
Proof.
  intros Ha Hb Hp. pose proof (addArc_round O cx cy rx ry [OpMoveTo (grid_R (cx + rx, cy))] Ha Hb) as HA.
  unfold ellipseAt, bind, modify, gets, onPath, lift, modify. cbn [set_place pc_placeX pc_placeY pc_path set_points set_path]. rewrite Hp.
  unfold pStart. rewrite toFixed_real. cbn [app].
  match goal with |- context [addArc ?l ?a ?b ?c ?d ?p] => replace (addArc l a b c d p) with (Ret (A := path * (R * R)) ([OpMoveTo (grid_R (cx + rx, cy))] ++ pieces cx cy rx ry 0 0 (- (2 * PI)) 17, (cx + rx, cy))) by (symmetry; exact HA) end.
  eexists. split; [reflexivity|]. split; reflexivity.
Qed.
Lemma pos_neq O (x : R) : x <> 0 -> feqb (RealEnv O) x (f0 (RealEnv O)) = false.
Proof. intros H. unfold f0. rewrite fnum_real. cbn [feqb RealEnv]. destruct (Req_EM_T x 0); [lra|reflexivity]. Qed.
Lemma circleF_real O attrs (cx cy rx ry : R) (c : cursor (RealEnv O)) : pc_path (c_pc c) = [] -> rx <> 0 -> ry <> 0 ->
  foldM circleAttr (f0 (RealEnv O), f0 (RealEnv O), f0 (RealEnv O), f0 (RealEnv O)) attrs c = (c, Ret (cx, cy, rx, ry)) ->
  exists c', circleF attrs c = (c', Ret tt) /\ pc_path (c_pc c') = whole_ellipse (cx + fst (offset c)) (cy + snd (offset c)) rx ry.
Proof.
  intros Hp Ha Hb Hf. destruct (ellipseAt_real O (cx + fst (offset c)) (cy + snd (offset c)) rx ry (c_pc c) Ha Hb Hp) as (pc' & H1 & H2 & H3).
  pose proof (pos_neq O rx Ha) as N1. pose proof (pos_neq O ry Hb) as N2. unfold f0 in *.
  exists (c_set_pc pc' c). split; [|exact H2].
  unfold circleF. rewrite (bind_step _ _ _ _ _ Hf). cbv beta iota. rewrite N1, N2. cbn [orb].
  unfold bind, curXY, gets. cbn [fst snd offset] in H1. unfold liftP.
  change (fadd (RealEnv O)) with Rplus. rewrite H1. reflexivity.
Qed.
Theorem round_real O fuel attrs (cx cy r rx ry : R) (c : cursor (RealEnv O)) : let vb := sv_viewBox (c_svg c) in
  let x := cx + fst (offset c) in let y := cy + snd (offset c) in
  pc_path (c_pc c) = [] -> length_attr (E := RealEnv O) vb OfWidth "cx" attrs cx -> length_attr (E := RealEnv O) vb OfHeight "cy" attrs cy ->
  (length_attr (E := RealEnv O) vb OfDiagonal "r" attrs r -> has_attr "rx" attrs = false -> has_attr "ry" attrs = false -> r <> 0 ->
     element_draws fuel "circle" attrs c (whole_ellipse x y r r))
  /\ (length_attr (E := RealEnv O) vb OfWidth "rx" attrs rx -> length_attr (E := RealEnv O) vb OfHeight "ry" attrs ry -> has_attr "r" attrs = false ->
     rx <> 0 -> ry <> 0 -> element_draws fuel "ellipse" attrs c (whole_ellipse x y rx ry)).
Proof.
  intros vb x y Hp Hx Hy. split.
  - intros H1 H2 H3 H4. destruct (circleF_real O attrs cx cy r r c Hp H4 H4) as (c' & H6 & H7); [apply (circle_fold (E := RealEnv O)); assumption|].
    exists circleF, c'. auto.
  - intros H1 H2 H3 H4 H5. destruct (circleF_real O attrs cx cy rx ry c Hp H4 H5) as (c' & H6 & H7); [apply (ellipse_fold (E := RealEnv O)); assumption|].
    exists circleF, c'. auto.
Qed.

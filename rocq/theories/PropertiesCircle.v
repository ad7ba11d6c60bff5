(** * PropertiesCircle: circles and ellipses in float64 (C63) *)
From Coq Require Import ZArith Lia Reals Lra Floats.SpecFloat.
From Flocq Require Import Core.Core.
From Verif Require Import F64 RealEnv SpecArc SpecClose SpecMeasure SpecCircle SpecLift ExTree PropertiesShape PropertiesStyle PropertiesTree PropertiesRead ProofsFlocq ProofsClose ProofsDec ProofsArc64 ProofsMeasure ProofsCircle ProofsCurve ProofsCircle2 PropertiesMeasure.
Local Open Scope R_scope.

(** ** C63: circles and ellipses drawn in float64 are the circles and ellipses they stand for *)
(** Whatever came before, a circle or an ellipse is drawn as 17 cubic curves whose points are within 1/64 of the exact ones; the
    outline runs along the ellipse with that centre and these radii, and nowhere else, up to 1/16. *)
Theorem C63_element : forall (O : Oracles) (Q : ROracles), fair_trig O ->
  forall (fuel : nat) (name : string) (attrs : list attr) (c : cursor (F64 O)) (cx cy rx ry : R), pc_path (c_pc c) = [] ->
  upto O 17 (bW (sv_viewBox (c_svg c))) -> upto O 17 (bH (sv_viewBox (c_svg c))) -> upto O 17 (fst (offset c)) -> upto O 17 (snd (offset c)) ->
  round_at Q (ex_bounds O Q (sv_viewBox (c_svg c))) (value64 (fst (offset c)), value64 (snd (offset c))) name attrs cx cy rx ry ->
  / 2 ^ 16 <= rx -> / 2 ^ 16 <= ry ->
  exists q, element_draws fuel name attrs c q /\ Forall2 (op_within 1) q (whole_ellipse cx cy rx ry) /\ follows_ellipse (1 / 16) cx cy rx ry q.
Proof. exact round_element. Qed.
Print Assumptions C63_element.
(** With a radius of 0 nothing is drawn. *)
Theorem C63_flat : forall (O : Oracles) (Q : ROracles), fair_trig O ->
  forall (fuel : nat) (name : string) (attrs : list attr) (c : cursor (F64 O)) (cx cy rx ry : R), pc_path (c_pc c) = [] ->
  upto O 17 (bW (sv_viewBox (c_svg c))) -> upto O 17 (bH (sv_viewBox (c_svg c))) -> upto O 17 (fst (offset c)) -> upto O 17 (snd (offset c)) ->
  round_at Q (ex_bounds O Q (sv_viewBox (c_svg c))) (value64 (fst (offset c)), value64 (snd (offset c))) name attrs cx cy rx ry ->
  rx = 0 \/ ry = 0 -> element_draws fuel name attrs c [].
Proof. exact flat_element. Qed.
Print Assumptions C63_flat.
(** In a document every stored outline is within 1/64 of the exact outline of its elements, and those of circles and ellipses
    follow their ellipses. *)
Theorem C63_document : forall (O : Oracles) (Q : ROracles), fair_trig O -> reads_exactly Q -> name_table (F64 O) ->
  forall (fuel : nat) (mode : errorMode) (lenient : bool) (dep : nat) (ns : list node) (vb : bounds (F64 O)) (w : world (F64 O)),
  (dep <= fuel)%nat -> document (F64 O) (meant O Q) lenient dep ns vb w -> (lenient = true -> mode <> StrictErrorMode) ->
  exists s log, parse (S fuel) mode (flat_map tokens ns) TermEOF = PSvg s None log /\ shows (F64 O) (curved O Q) vb w s
    /\ sv_width s = text_attr "width" "" (root_attrs ns) /\ sv_height s = text_attr "height" "" (root_attrs ns).
Proof. exact curved_document. Qed.
Print Assumptions C63_document.

(** oracles whose trigonometric functions cut off after 45 bits *)
Definition cut45 (r : R) : sf := sf_lit (Ztrunc (r * 2 ^ 45)) (2 ^ 45)%positive.
Definition trigO : Oracles := {|
  o_sin := fun x => cut45 (sin (value64 x)); o_cos := fun x => cut45 (cos (value64 x)); o_tan := fun x => cut45 (tan (value64 x)); o_atan2 := fun y x => cut45 (atan2 (value64 y) (value64 x));
  o_isLetterU := o_isLetterU demoO; o_isNumberU := o_isNumberU demoO; o_toLowerU := o_toLowerU demoO; o_colorname := o_colorname demoO;
  o_int := o_int demoO; o_i32 := o_i32 demoO; o_u32 := o_u32 demoO |}.
Lemma cut45_near44 r : Rabs r <= 4 -> finite64 (cut45 r) /\ Rabs (value64 (cut45 r) - r) <= / 2 ^ 44.
Proof.
  intros Hr. unfold cut45, sf_lit. set (k := Ztrunc (r * 2 ^ 45)). set (p := 2 ^ 45) in *. assert (Ep : p = 35184372088832) by (unfold p; lra).
  assert (Hk : Rabs (IZR k - r * p) <= 1).
  { unfold k. destruct (Rle_or_lt 0 (r * p)) as [P|P].
    - rewrite Ztrunc_floor by exact P. pose proof (Zfloor_lb (r * p)). pose proof (Zfloor_ub (r * p)). apply Rabs_le. lra.
    - rewrite Ztrunc_ceil by lra. pose proof (Zceil_ub (r * p)). pose proof (Zceil_lb (r * p)). apply Rabs_le. lra. }
  assert (Er : ratR (k <? 0)%Z (Z.abs_N k) (2 ^ 45) = IZR k / p).
  { unfold ratR. replace (IZR (Zpos (2 ^ 45))) with p by (rewrite Ep; reflexivity). rewrite N2Z.inj_abs_N. destruct (Z.ltb_spec k 0).
    - rewrite Z.abs_neq, opp_IZR by lia. field. lra.
    - rewrite Z.abs_eq by lia. field. lra. }
  assert (Hx : Rabs (IZR k / p - r) <= / p).
  { replace (IZR k / p - r) with ((IZR k - r * p) * / p) by (field; lra). rewrite Rabs_mult, (Rabs_pos_eq (/ p)) by (apply Rlt_le, Rinv_0_lt_compat; lra).
    assert (0 < / p) by (apply Rinv_0_lt_compat; lra). nra. }
  assert (Hi : 0 < / p <= / 8) by (split; [apply Rinv_0_lt_compat; lra|apply Rinv_le; lra]).
  assert (Hb : Rabs (IZR k / p) <= bpow radix2 3). { change (bpow radix2 3) with 8. apply Rabs_le_inv in Hx, Hr. apply Rabs_le. lra. }
  destruct (rat_round (k <? 0)%Z (Z.abs_N k) (2 ^ 45)) as [H1 H2]. { rewrite Er. apply no_over with (b := 3%Z); [lia|exact Hb]. }
  rewrite Er in H2. split; [split; [apply rat_valid|exact H1]|]. rewrite H2.
  pose proof (rnd_err 3 (IZR k / p) ltac:(lia) Hb) as He. rewrite pow_Z in He by lia. rewrite <- bpow_plus in He. change (3 + 47 + -100)%Z with (- (50))%Z in He. rewrite bpow_opp in He.
  change (bpow radix2 50) with 1125899906842624 in He. replace (2 ^ 44) with 17592186044416 by lra. assert (Ei : / p = / 35184372088832) by (rewrite Ep; reflexivity). rewrite Ei in Hx. set (z := IZR k / p) in *. clearbody z. apply Rabs_le_inv in Hx, He. apply Rabs_le. lra.
Qed.
Lemma cut45_near r : Rabs r <= 4 -> finite64 (cut45 r) /\ Rabs (value64 (cut45 r) - r) <= / 2 ^ 40.
Proof. intros Hr. destruct (cut45_near44 r Hr) as [H1 H2]. split; [exact H1|]. apply Rle_trans with (1 := H2). apply Rinv_le; lra. Qed.
Lemma trigO_fair : fair_trig trigO.
Proof.
  assert (E0 : cut45 0 = S754_zero false) by (unfold cut45; rewrite Rmult_0_l; change 0 with (IZR 0); rewrite Ztrunc_IZR; reflexivity).
  assert (E1 : cut45 1 = sf_lit 1 1). { unfold cut45. replace (1 * 2 ^ 45) with (IZR (2 ^ 45)) by (change (2 ^ 45)%Z with 35184372088832%Z; lra). rewrite Ztrunc_IZR. reflexivity. }
  split.
  - split; [change (cut45 (sin 0) = S754_zero false); rewrite sin_0; exact E0|change (cut45 (cos 0) = sf_lit 1 1); rewrite cos_0; exact E1].
  - intros x _ _. apply cut45_near. pose proof (SIN_bound (value64 x)). apply Rabs_le. lra.
  - intros x _ _. apply cut45_near. pose proof (COS_bound (value64 x)). apply Rabs_le. lra.
  - intros x _ Hx. apply cut45_near. set (y := value64 x) in *. pose proof pi_bounds as Hp. unfold tan.
    assert (Hc : / 2 <= cos y).
    { replace (/ 2) with (cos (PI / 3)) by (rewrite cos_PI3; lra). replace (cos y) with (cos (Rabs y)) by (unfold Rabs; destruct (Rcase_abs y); [apply cos_neg|reflexivity]).
      pose proof (Rabs_pos y). apply cos_decr_1; lra. }
    pose proof (SIN_bound y) as Hs. apply Rabs_le. split.
    + apply Rmult_le_reg_r with (cos y); [lra|]. replace (sin y / cos y * cos y) with (sin y) by (field; lra). lra.
    + apply Rmult_le_reg_r with (cos y); [lra|]. replace (sin y / cos y * cos y) with (sin y) by (field; lra). lra.
  - intros x _ Hx. change (cut45 (atan2 0 (value64 x)) = S754_zero false). unfold atan2. destruct (Rlt_dec 0 (value64 x)) as [_|N]; [|contradiction]. replace (0 / value64 x) with 0 by (field; lra). rewrite atan_0. exact E0.
Qed.
(** a circle in the middle of the view box *)
Definition disc_attrs : list attr := [mkAttr "cx" "50%"; mkAttr "cy" "1 cm "; mkAttr "r" "12.1"].
Definition trig_box : bounds (F64 trigO) := mkB (E := F64 trigO) (bX ex_box) (bY ex_box) (bW ex_box) (bH ex_box).
Lemma trig_box_size : bW (ex_bounds trigO exactQ trig_box) = 200 /\ bH (ex_bounds trigO exactQ trig_box) = 100.
Proof. exact (proj2 box_upto). Qed.
Ltac real_len2 := unfold num_exact, length_value, full, px_per; cbn [n_sign n_int n_frac n_exp decimal append String.length Z.of_nat Pos.of_succ_nat fst snd fmul fdiv flit RealEnv]; rewrite ?fnum_real, ?(proj1 trig_box_size), ?(proj2 trig_box_size); cbn; change (Pos.to_nat 1) with 1%nat.
Ltac len2 n m u r v := eexists; split; [exists ""%string, n, m, u, r; split; [reflexivity|]; do 5 (split; [reflexivity|]); split; [discriminate|];
  split; [real_len2; apply Rabs_le; lra|]; split; [|apply Rabs_le; instantiate (1 := v); lra]; real_len2; lra|reflexivity].
Lemma disc_round : round_at exactQ (ex_bounds trigO exactQ trig_box) (0, 0) "circle" disc_attrs (100 + 0) (9600 / 254 + 0) (121 / 10) (121 / 10).
Proof.
  apply (ra_circle exactQ (ex_bounds trigO exactQ trig_box) (0, 0) disc_attrs 100 (9600 / 254) (121 / 10)).
  - len2 (mkNum NoSign "50" None None) ""%string UPercent ""%string 100.
  - len2 (mkNum NoSign "1" None None) " "%string UCm " "%string (9600 / 254).
  - len2 (mkNum NoSign "12" (Some "1"%string) None) ""%string UNone ""%string (121 / 10).
  - reflexivity.
  - reflexivity.
Qed.
Lemma disc_meant : meant trigO exactQ trig_box (origin (F64 trigO)) "circle" disc_attrs (whole_ellipse (100 + 0) (9600 / 254 + 0) (121 / 10) (121 / 10)).
Proof. split; [exact (proj1 box_upto)|]. split; [exact at_origin|]. right. split; [exact trigO_fair|]. apply xr_whole; [exact disc_round|lra|lra]. Qed.
Definition trig_cursor : cursor (F64 trigO) := start_at (F64 trigO) StrictErrorMode trig_box (origin (F64 trigO)).
Lemma trig_view : view_box (E := F64 trigO) [mkAttr "viewBox" "0 0 200 100"] trig_box.
Proof.
  exists (V 0 1), (V 0 1), (V 200 1), (V 100 1), (V 0 1), (V 0 1). split; [|split; [reflexivity|split; reflexivity]].
  cbn [value_attr a_name a_val String.eqb Ascii.eqb Bool.eqb]. exists (V 0 1, V 0 1, V 200 1, V 100 1). split; [|reflexivity].
  exists [(""%string, num NoSign "0" None); (" "%string, num NoSign "0" None); (" "%string, num NoSign "200" None); (" "%string, num NoSign "100" None)], ""%string.
  split; [reflexivity|]. repeat split; reflexivity.
Qed.
Example C63_example : fair_trig trigO /\ reads_exactly exactQ /\ name_table (F64 trigO) /\ pc_path (c_pc trig_cursor) = []
  /\ (upto trigO 17 (bW (sv_viewBox (c_svg trig_cursor))) /\ upto trigO 17 (bH (sv_viewBox (c_svg trig_cursor)))
       /\ upto trigO 17 (fst (offset trig_cursor)) /\ upto trigO 17 (snd (offset trig_cursor)))
  /\ round_at exactQ (ex_bounds trigO exactQ (sv_viewBox (c_svg trig_cursor))) (value64 (fst (offset trig_cursor)), value64 (snd (offset trig_cursor)))
       "circle" disc_attrs (100 + 0) (9600 / 254 + 0) (121 / 10) (121 / 10)
  /\ exists w, document (F64 trigO) (meant trigO exactQ) false 0 [Elem "svg" [mkAttr "viewBox" "0 0 200 100"] [Elem "circle" disc_attrs []]] trig_box w
  /\ w_figs (F64 trigO) w = [mkFig (F64 trigO) [(origin (F64 trigO), "circle"%string, disc_attrs)] defaultStyle].
Proof.
  split; [exact trigO_fair|]. split; [exact exactQ_reads|]. split; [exact names_D|]. split; [reflexivity|].
  split; [exact (conj (proj1 (proj1 box_upto)) (conj (proj2 (proj1 box_upto)) at_origin))|]. split; [exact disc_round|].
  pose proof disc_meant as Hm.
  eexists. split.
  - exists [], [mkAttr "viewBox" "0 0 200 100"], [Elem "circle" disc_attrs []], [], defaultStyle. eexists _, _. split; [reflexivity|]. split; [reflexivity|]. split; [reflexivity|].
    split; [plain_style|]. split; [exact trig_view|].
    eapply sems_cons; [|apply sems_nil]. eapply sem_shape; [plain_style| |apply sems_nil].
    eexists. split; [apply (ProofsTree.one_outline (meant trigO exactQ)); exact Hm|reflexivity].
  - reflexivity.
Qed.

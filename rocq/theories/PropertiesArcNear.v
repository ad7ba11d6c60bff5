(** * PropertiesArcNear: arcs in float64 against the arcs of SVG (C70) *)
From Coq Require Import ZArith Lia Reals Lra Floats.SpecFloat.
From Flocq Require Import Core.Core IEEE754.BinarySingleNaN.
From Verif Require Import F64 RealEnv SpecTree SpecLift SpecArc SpecArc64 SpecArcNear ProofsArc ProofsLift2 ProofsLift3 ProofsCircle ProofsArcNear9 ExPath ExTree PropertiesStyle PropertiesTree PropertiesLift PropertiesArc64 PropertiesCircle ProofsFlocq.
Local Open Scope R_scope.

(** ** C70: arcs in float64 are the arcs of SVG, up to rounding *)
(** For every implementation of sin, cos, tan and atan2 within 2^-44 of the truth, every path data of the commands M L H V Q T C S Z and
    single arcs A, a, every legal spelling and every parser state outside a use: every arc of ordinary measures ([ordinary_arc]) is
    drawn as cubic curves near the arc of SVG appendix F.6 ([near_arc]): the radii are scaled up as far as needed and no further, the
    direction is that of the sweep flag, the longer or the shorter way that of the large-arc flag, the points of the curves are those
    of the ellipse within one unit of the grid of 1/64, and the last curve ends at the end point, which becomes the current point.  As
    sets of points the curves and that part of the ellipse are the same up to 1/32 of a unit and one 800000th of the radii. *)
Theorem C70_arcs : forall (O : Oracles), fair_angles O -> forall lead body (ks : list (step (F64 O))) (c : pcur (F64 O)),
  (pc_curX c, pc_curY c) = origin (F64 O) ->
  seps lead = true -> spells_steps (F64 O) body ks -> steps_close (F64 O) false ks = true ->
  exists c' o s, compilePath (lead ++ body) c = (c', Ret tt)
    /\ SpecArc.drawn (F64 O) (arc_near O) (origin (F64 O)) (pen0 (F64 O)) ks o s
    /\ pc_path c' = o /\ (pc_placeX c', pc_placeY c') = at_ s /\ pc_log c' = pc_log c.
Proof. exact (fun O HO lead body ks c H => arcs_near64 O HO lead body ks c (f_equal fst H) (f_equal snd H)). Qed.
Print Assumptions C70_arcs.

(** The same in whole documents: every path element outside a use is stored with such curves for its arcs. *)
Theorem C70_document : forall (O : Oracles), let K := F64 O in fair_angles O -> name_table K ->
  forall (fuel : nat) (mode : errorMode) (lenient : bool) (dep m : nat) (ns : list node) (vb : bounds K) (w : world K),
  (m + dep <= fuel)%nat -> document K (alone K mode m) lenient dep ns vb w -> (lenient = true -> mode <> StrictErrorMode) ->
  exists s log, parse (S fuel) mode (flat_map tokens ns) TermEOF = PSvg s None log
    /\ stores K (fun f p => forall l attrs lead body ks, fg_shapes K f = (l ++ [(origin K, "path"%string, attrs)])%list -> attr_once "d" attrs (lead ++ body) ->
         seps lead = true -> spells_steps K body ks -> steps_close K false ks = true ->
         exists e, SpecArc.drawn K (arc_near O) (origin K) (pen0 K) ks p e) w s.
Proof.
  exact (fun O HT Hn fuel mode lenient dep m ns vb w => document_stores Hn _ fuel mode lenient dep m ns vb w
    (fun f p Ha l attrs lead body ks Hp Hd => last_path mode m vb _ l _ attrs _ p _ (fun Ha => arc_figure_near O HT mode m vb _ p lead body ks Ha Hd) Ha Hp Hd)).
Qed.
Print Assumptions C70_document.

(** the functions of [trigO], cut off after 45 bits, are fair *)
Lemma trigO_angles : fair_angles trigO.
Proof.
  split.
  - intros x _ _. apply cut45_near44. pose proof (SIN_bound (value64 x)). apply Rabs_le. lra.
  - intros x _ _. apply cut45_near44. pose proof (COS_bound (value64 x)). apply Rabs_le. lra.
  - intros x _ Hx. apply cut45_near44. set (y := value64 x) in *. pose proof pi_bounds as Hp. unfold tan.
    assert (Hc : / 2 <= cos y).
    { replace (/ 2) with (cos (PI / 3)) by (rewrite cos_PI3; lra). replace (cos y) with (cos (Rabs y)) by (unfold Rabs; destruct (Rcase_abs y); [apply cos_neg|reflexivity]).
      pose proof (Rabs_pos y). apply cos_decr_1; lra. }
    pose proof (SIN_bound y) as Hs. apply Rabs_le. split.
    + apply Rmult_le_reg_r with (cos y); [lra|]. replace (sin y / cos y * cos y) with (sin y) by (field; lra). lra.
    + apply Rmult_le_reg_r with (cos y); [lra|]. replace (sin y / cos y * cos y) with (sin y) by (field; lra). lra.
  - intros y x _ _ H. change (o_atan2 trigO y x) with (cut45 (atan2 (value64 y) (value64 x))). set (v := value64 y) in *. set (w := value64 x) in *. pose proof pi_bounds as Hp. cbv zeta.
    assert (H' : w <> 0 \/ v <> 0) by tauto. destruct (atan2_dir v w H') as [E1 E2]. pose proof (ProofsArc.atan2_range v w) as Rg. set (a := atan2 v w) in *.
    destruct (cut45_near44 a) as [F1 F2]; [apply Rabs_le; lra|]. set (t := value64 (cut45 a)) in *. split; [exact F1|]. split; [|split].
    + clearbody t a. apply Rabs_le_inv in F2. apply Rabs_le. lra.
    + rewrite <- E1. apply Rle_trans with (1 := cos_lip t a). exact F2.
    + rewrite <- E2. apply Rle_trans with (1 := sin_lip t a). exact F2.
Qed.
(** an arc of radii 5 and 1 around 40 degrees from (10, 0) to (40, 0), which these radii do not reach *)
Definition reach_arc : spec_float * spec_float * spec_float * spec_float * spec_float := (W 5 1, W 1 1, W 40 1, W 0 1, W 1 1).
Lemma reach_ordinary : ordinary_arc (W 10 1, W 0 1) reach_arc (W 40 1, W 0 1).
Proof.
  assert (P12 : 2 ^ 12 = 4096) by lra. assert (P9 : 2 ^ 9 = 512) by lra.
  assert (H0 : sized (2 ^ 12) (W 0 1)). { split; [vm_compute; auto|]. rewrite lit0, Rabs_R0. lra. }
  assert (H1 : sized (2 ^ 12) (W 1 1)). { split; [vm_compute; auto|]. rewrite lit1, Rabs_R1. lra. }
  assert (H5 : sized (2 ^ 12) (W 5 1)). { split; [vm_compute; auto|]. rewrite lit5, Rabs_pos_eq; lra. }
  assert (H10 : sized (2 ^ 12) (W 10 1)). { split; [vm_compute; auto|]. rewrite lit10, Rabs_pos_eq; lra. }
  assert (H40 : sized (2 ^ 12) (W 40 1)). { split; [vm_compute; auto|]. rewrite lit40, Rabs_pos_eq; lra. }
  assert (H40' : sized (2 ^ 9) (W 40 1)). { split; [vm_compute; auto|]. rewrite lit40, Rabs_pos_eq; lra. }
  unfold ordinary_arc, reach_arc. cbn [fst snd]. split; [exact H10|]. split; [exact H0|]. split; [exact H40|]. split; [exact H0|]. split; [left; rewrite lit40, lit10, Rabs_pos_eq; lra|].
  split; [exact H5|]. split; [exact H1|]. split; [rewrite lit5, lit1; lra|]. split; [rewrite lit5, lit1; lra|]. split; [exact H40'|]. split; [exact (proj1 H0)|exact (proj1 H1)].
Qed.
Notation KO := (F64 trigO).
Definition reach_steps : list (step KO) := [Plain (MoveTo (E := KO) false (W 10 1, W 0 1) []); ArcTo (E := KO) false reach_arc (W 40 1, W 0 1)].
Lemma reach_spelled : spells_steps KO "M10 0A5 1 40 0 1 40 0" reach_steps.
Proof.
  apply (spells_s_cons KO (Plain (MoveTo (E := KO) false (W 10 1, W 0 1) [])) "10 0" "A5 1 40 0 1 40 0").
  { exists [(""%string, num NoSign "10" None); (" "%string, num NoSign "0" None)], ""%string. repeat split; reflexivity. }
  apply (spells_s_cons KO (ArcTo (E := KO) false reach_arc (W 40 1, W 0 1)) "5 1 40 0 1 40 0" "").
  { exists [(""%string, num NoSign "5" None); (" "%string, num NoSign "1" None); (" "%string, num NoSign "40" None); (" "%string, num NoSign "0" None);
      (" "%string, num NoSign "1" None); (" "%string, num NoSign "40" None); (" "%string, num NoSign "0" None)], ""%string. repeat split; reflexivity. }
  constructor.
Qed.
Lemma drawn_two (E : Env) arc off s c rel a p o s' : SpecArc.drawn E arc off s [Plain c; ArcTo rel a p] o s' ->
  exists o1 e, o = (snd (exec E off s c) ++ o1)%list /\ arc (at_ (fst (exec E off s c))) a (absolute E rel (at_ (fst (exec E off s c))) p) o1 e.
Proof. intros H. inversion H; subst. match goal with K : SpecArc.drawn _ _ _ _ [_] _ _ |- _ => inversion K; subst end. match goal with K : SpecArc.drawn _ _ _ _ [] _ _ |- _ => inversion K; subst end. rewrite app_nil_r. eauto. Qed.
(** the path data is compiled to an arc near the one of SVG, drawn with the sweep flag from (10, 0) to (40, 0) *)
Example C70_example : fair_angles trigO /\ ordinary_arc (W 10 1, W 0 1) reach_arc (W 40 1, W 0 1)
  /\ spells_steps KO "M10 0A5 1 40 0 1 40 0" reach_steps /\ steps_close KO false reach_steps = true
  /\ exists (c' : pcur KO) o, compilePath "M10 0A5 1 40 0 1 40 0" (pc0 StrictErrorMode) = (c', Ret tt) /\ pc_path c' = OpMoveTo (640, 0)%Z :: o /\ near_arc (10, 0) 5 1 40 false true (40, 0) o.
Proof.
  split; [exact trigO_angles|]. split; [exact reach_ordinary|]. split; [exact reach_spelled|]. split; [reflexivity|].
  destruct (C70_arcs trigO trigO_angles "" _ _ (pc0 StrictErrorMode) eq_refl eq_refl reach_spelled eq_refl) as (c' & o & s & H & Hd & Hp & _).
  apply drawn_two in Hd as (o1 & e & Eo & Ha).
  assert (E1 : at_ (fst (exec KO (origin KO) (pen0 KO) (MoveTo (E := KO) false (W 10 1, W 0 1) []))) = (W 10 1, W 0 1)) by reflexivity. rewrite E1 in Ha. clear E1.
  exists c', o1. split; [exact H|]. split; [rewrite Hp, Eo; reflexivity|].
  destruct (Ha reach_ordinary) as (_ & _ & N). specialize (N false true). cbn [fst snd absolute] in N. rewrite lit10, lit0, lit5, lit1, lit40 in N. refine (N _ _); clear.
  - split; [discriminate|intros K; exfalso; apply K; reflexivity].
  - split; [intros _; exact R1_neq_R0|reflexivity].
Qed.

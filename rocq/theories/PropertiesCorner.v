(** * PropertiesCorner: rectangles with rounded corners in float64 (C68) *)
From Coq Require Import ZArith Lia Reals Lra Floats.SpecFloat.
From Flocq Require Import Core.Core IEEE754.BinarySingleNaN.
From Verif Require Import F64 RealEnv SpecArc SpecTrig SpecClose SpecMeasure SpecLift SpecCorner ProofsClose ProofsCircle ProofsMeasure ProofsCorner7 ExTree PropertiesShape PropertiesStyle PropertiesTree PropertiesRead PropertiesMeasure PropertiesCircle ProofsFlocq.
Local Open Scope R_scope.

(** ** C68: rectangles with rounded corners run along the outline SVG gives them *)
(** A rect element whose radii, defaulted and clamped as SVG prescribes, are the same radius [r] of at least 1/8 is drawn as a path that follows
    the set of points at distance [r] from the rectangle made smaller by [r]: every point of the path is near one of these points, and
    every one of these points is near the path, within 1/700 of the radius and 3/32 of a unit. *)
Theorem C68_element : forall (O : Oracles) (Q : ROracles),
  forall (fuel : nat) (attrs : list attr) (c : cursor (F64 O)) (p : path), (1 <= fuel)%nat -> pc_path (c_pc c) = [] ->
  rounded O Q (sv_viewBox (c_svg c)) (offset c) "rect" attrs p ->
  exists q, element_draws fuel "rect" attrs c q /\ cornered O Q (sv_viewBox (c_svg c)) (offset c) "rect" attrs q.
Proof. exact cornered_element. Qed.
Print Assumptions C68_element.
(** A document of such rectangles and the elements of C59, with groups, definitions, uses, masks and gradients, is parsed, and every
    outline stored follows the outlines of its elements. *)
Theorem C68_document : forall (O : Oracles) (Q : ROracles), trig0 O -> reads_exactly Q -> name_table (F64 O) ->
  forall (fuel : nat) (mode : errorMode) (lenient : bool) (dep : nat) (ns : list node) (vb : bounds (F64 O)) (w : world (F64 O)),
  (1 + dep <= fuel)%nat -> document (F64 O) (rounded_or_meant O Q) lenient dep ns vb w -> (lenient = true -> mode <> StrictErrorMode) ->
  exists s log, parse (S fuel) mode (flat_map tokens ns) TermEOF = PSvg s None log /\ shows (F64 O) (cornered_or_near O Q) vb w s
    /\ sv_width s = text_attr "width" "" (root_attrs ns) /\ sv_height s = text_attr "height" "" (root_attrs ns).
Proof. exact cornered_document. Qed.
Print Assumptions C68_document.

(** the oracles of C63 are fair on the axes, too *)
Lemma atan2_bound y x : Rabs (atan2 y x) <= 4.
Proof.
  pose proof pi_bounds as Hp. unfold atan2. assert (B : forall t, - (PI / 2) < atan t < PI / 2) by (intros t; pose proof (atan_bound t); lra). pose proof (B (y / x)) as Bt. apply Rabs_le.
  destruct (Rlt_dec 0 x) as [_|N1]; [lra|]. destruct (Rlt_dec x 0) as [L|N2].
  - destruct (Rle_dec 0 y) as [Py|Ny].
    + assert (H : atan (y / x) <= 0). { destruct (Req_dec y 0) as [->|N]; [replace (0 / x) with 0 by (field; lra); rewrite atan_0; lra|]. rewrite <- atan_0. apply Rlt_le, atan_increasing. unfold Rdiv. assert (/ x < 0) by (apply Rinv_lt_0_compat, L). nra. } lra.
    + assert (H : 0 <= atan (y / x)). { rewrite <- atan_0. apply Rlt_le, atan_increasing. unfold Rdiv. assert (/ x < 0) by (apply Rinv_lt_0_compat, L). nra. } lra.
  - destruct (Rlt_dec 0 y); [lra|]. destruct (Rlt_dec y 0); lra.
Qed.
Lemma trigO_axes : fair_axes trigO.
Proof.
  intros y x Hy Hx _ _. assert (V : forall z, (Z.abs z < 2 ^ 31)%Z -> value64 (f_of_Z (F64 trigO) z) = IZR z) by (intros z Hz; apply of_Z_val; lia).
  change (fatan2 (F64 trigO) (f_of_Z (F64 trigO) y) (f_of_Z (F64 trigO) x)) with (cut45 (atan2 (value64 (f_of_Z (F64 trigO) y)) (value64 (f_of_Z (F64 trigO) x)))). rewrite (V y Hy), (V x Hx). apply cut45_near, atan2_bound.
Qed.
(** a rectangle in percent and centimetres; ry is left out *)
Definition card_attrs : list attr := [mkAttr "x" "10%"; mkAttr "y" ".1"; mkAttr "width" "60.1"; mkAttr "height" "1 cm "; mkAttr "rx" "5.1"].
Lemma card_at : rounded_at exactQ (ex_bounds trigO exactQ trig_box) (0, 0) card_attrs (20 + 0) (1 / 10 + 0) (20 + 0 + 601 / 10) (1 / 10 + 0 + 9600 / 254) (51 / 10).
Proof.
  apply (rounded_rect exactQ (ex_bounds trigO exactQ trig_box) (0, 0) card_attrs 20 (1 / 10) (601 / 10) (9600 / 254) (51 / 10) 0 (51 / 10)).
  - len2 (mkNum NoSign "10" None None) ""%string UPercent ""%string 20.
  - len2 (mkNum NoSign "" (Some "1"%string) None) ""%string UNone ""%string (1 / 10).
  - len2 (mkNum NoSign "60" (Some "1"%string) None) ""%string UNone ""%string (601 / 10).
  - len2 (mkNum NoSign "1" None None) " "%string UCm " "%string (9600 / 254).
  - len2 (mkNum NoSign "5" (Some "1"%string) None) ""%string UNone ""%string (51 / 10).
  - reflexivity.
  - lra.
  - lra.
  - unfold auto_radius. destruct (Req_EM_T (51 / 10) 0); [lra|]. apply Rmin_left. lra.
  - unfold auto_radius. destruct (Req_EM_T 0 0); [|lra]. apply Rmin_left. lra.
  - lra.
Qed.
Lemma card_rounded : rounded trigO exactQ trig_box (origin (F64 trigO)) "rect" card_attrs [OpClose].
Proof.
  split; [exact (proj1 box_upto)|]. split.
  - assert (upto trigO 16 (fnum (F64 trigO) 0)). { split; [split; [reflexivity|exact I]|]. change (value64 (fnum (F64 trigO) 0)) with 0. rewrite Rabs_R0. apply pow_le. lra. } split; assumption.
  - split; [exact trigO_fair|]. split; [exact trigO_axes|]. split; [reflexivity|]. split; [discriminate|]. do 5 eexists. exact card_at.
Qed.
Example C68_example : trig0 trigO /\ reads_exactly exactQ /\ name_table (F64 trigO) /\ pc_path (c_pc trig_cursor) = []
  /\ rounded trigO exactQ (sv_viewBox (c_svg trig_cursor)) (offset trig_cursor) "rect" card_attrs [OpClose]
  /\ rounded_at exactQ (ex_bounds trigO exactQ trig_box) (0, 0) card_attrs (20 + 0) (1 / 10 + 0) (20 + 0 + 601 / 10) (1 / 10 + 0 + 9600 / 254) (51 / 10)
  /\ exists w, document (F64 trigO) (rounded_or_meant trigO exactQ) false 0 [Elem "svg" [mkAttr "viewBox" "0 0 200 100"] [Elem "rect" card_attrs []; Elem "circle" disc_attrs []]] trig_box w
  /\ w_figs (F64 trigO) w = [mkFig (F64 trigO) [(origin (F64 trigO), "rect"%string, card_attrs)] defaultStyle; mkFig (F64 trigO) [(origin (F64 trigO), "circle"%string, disc_attrs)] defaultStyle].
Proof.
  split; [exact (fair_zero _ trigO_fair)|]. split; [exact exactQ_reads|]. split; [exact names_D|]. split; [reflexivity|]. split; [exact card_rounded|]. split; [exact card_at|].
  pose proof (or_introl disc_meant : rounded_or_meant trigO exactQ trig_box (origin (F64 trigO)) "circle" disc_attrs _) as Hd. pose proof (or_intror card_rounded : rounded_or_meant trigO exactQ trig_box (origin (F64 trigO)) "rect" card_attrs _) as Hm.
  eexists. split.
  - exists [], [mkAttr "viewBox" "0 0 200 100"], [Elem "rect" card_attrs []; Elem "circle" disc_attrs []], [], defaultStyle. eexists _, _. split; [reflexivity|]. split; [reflexivity|]. split; [reflexivity|].
    split; [plain_style|]. split; [exact trig_view|].
    eapply sems_cons; [eapply sem_shape; [plain_style| |apply sems_nil]; eexists; split; [apply (ProofsTree.one_outline (rounded_or_meant trigO exactQ)); exact Hm|reflexivity]|].
    eapply sems_cons; [eapply sem_shape; [plain_style| |apply sems_nil]; eexists; split; [apply (ProofsTree.one_outline (rounded_or_meant trigO exactQ)); exact Hd|reflexivity]|]. apply sems_nil.
  - reflexivity.
Qed.

(** * PropertiesLand: from the text of a document to the points handed to the libraries (C62) *)
From Coq Require Import ZArith Lia Reals Lra Floats.SpecFloat.
From Flocq Require Import Core.Core.
From Verif Require Import F64 RealEnv SpecClose SpecMeasure SpecLand ProofsTarget ProofsFlocq ProofsClose ProofsMeasure ProofsLand ExTree PropertiesShape PropertiesStyle PropertiesTree PropertiesRead PropertiesMeasure.
Local Open Scope R_scope.

(** ** C62: every point handed to a library lies within (scale + 2)/64 pixels of the exact place of the exact point *)
(** A document of lines, polylines, polygons, paths and rects, with groups, definitions, uses, masks and gradients, is parsed,
    and rasterx gets the outline of every figure, to fill and to stroke it, with all points where exact arithmetic puts
    the exact points, but for two steps of 1/64 and the size of 1/64 of the document on the page. *)
Theorem C62_rasterx : forall (O : Oracles) (Q : ROracles), trig0 O -> reads_exactly Q -> name_table (F64 O) ->
  forall (fuel : nat) (mode : errorMode) (lenient : bool) (dep : nat) (ns : list node) (vb : bounds (F64 O)) (wd : world (F64 O)) (opts : list (renderOption (F64 O))) (x y w h : F (F64 O)),
  (dep <= fuel)%nat -> document (F64 O) (meant O Q) lenient dep ns vb wd -> (lenient = true -> mode <> StrictErrorMode) ->
  last_target opts = Some (x, y, w, h) -> sized_target O vb opts ->
  (forall f, List.In f (w_figs (F64 O) wd) -> page_fits O Q vb x y w h (turned O f) f) ->
  exists s log, parse (S fuel) mode (flat_map tokens ns) TermEOF = PSvg s None log
    /\ forall ext, exists ls, Forall2 (rx_figure O Q vb x y w h) (w_figs (F64 O) wd) ls /\ flat_map rx_trace (rxDrawSvg ext s opts) = concat ls.
Proof.
  intros O Q HT HQ HN fuel mode lenient dep ns vb wd opts x y w h H1 H2 H3 H4 H5 H6.
  destruct (meant_document O Q HT HQ HN fuel mode lenient dep ns vb wd H1 H2 H3) as (s & log & Hp & Hw & _). exists s, log. split; [exact Hp|]. intros ext. apply rx_document; assumption.
Qed.
Print Assumptions C62_rasterx.
(** draw2d gets the outline of every figure once. *)
Theorem C62_draw2d : forall (O : Oracles) (Q : ROracles), trig0 O -> reads_exactly Q -> name_table (F64 O) ->
  forall (fuel : nat) (mode : errorMode) (lenient : bool) (dep : nat) (ns : list node) (vb : bounds (F64 O)) (wd : world (F64 O)) (opts : list (renderOption (F64 O))) (x y w h : F (F64 O)),
  (dep <= fuel)%nat -> document (F64 O) (meant O Q) lenient dep ns vb wd -> (lenient = true -> mode <> StrictErrorMode) ->
  last_target opts = Some (x, y, w, h) -> sized_target O vb opts ->
  (forall f, List.In f (w_figs (F64 O) wd) -> page_fits O Q vb x y w h (turned O f) f) ->
  exists s log, parse (S fuel) mode (flat_map tokens ns) TermEOF = PSvg s None log
    /\ exists ls, Forall2 (fun f => pen_figure O Q vb x y w h (turned O f) f) (w_figs (F64 O) wd) ls /\ flat_map d2_trace (d2DrawSvg s opts) = concat ls.
Proof.
  intros O Q HT HQ HN fuel mode lenient dep ns vb wd opts x y w h H1 H2 H3 H4 H5 H6.
  destruct (meant_document O Q HT HQ HN fuel mode lenient dep ns vb wd H1 H2 H3) as (s & log & Hp & Hw & _). exists s, log. split; [exact Hp|]. apply d2_document; assumption.
Qed.
Print Assumptions C62_draw2d.
(** So does gg; the figures of masks are drawn with the transform of the masked figure. *)
Theorem C62_gg : forall (O : Oracles) (Q : ROracles), trig0 O -> reads_exactly Q -> name_table (F64 O) ->
  forall (fuel : nat) (mode : errorMode) (lenient : bool) (dep : nat) (ns : list node) (vb : bounds (F64 O)) (wd : world (F64 O)) (opts : list (renderOption (F64 O))) (x y w h : F (F64 O)),
  (dep <= fuel)%nat -> document (F64 O) (meant O Q) lenient dep ns vb wd -> (lenient = true -> mode <> StrictErrorMode) ->
  last_target opts = Some (x, y, w, h) -> sized_target O vb opts ->
  (forall f, List.In f (w_figs (F64 O) wd) -> page_fits O Q vb x y w h (turned O f) f) ->
  (forall f id m g, List.In f (w_figs (F64 O) wd) -> w_masks (F64 O) wd id = Some m -> List.In g (snd m) -> page_fits O Q vb x y w h (turned O f) g) ->
  exists s log, parse (S fuel) mode (flat_map tokens ns) TermEOF = PSvg s None log
    /\ forall gfuel calls, ggDrawSvg gfuel s opts = Ret calls -> gg_lands O Q vb x y w h wd (map (fun f => (turned O f, f)) (w_figs (F64 O) wd)) calls.
Proof.
  intros O Q HT HQ HN fuel mode lenient dep ns vb wd opts x y w h H1 H2 H3 H4 H5 H6 H7.
  destruct (meant_document O Q HT HQ HN fuel mode lenient dep ns vb wd H1 H2 H3) as (s & log & Hp & Hw & _). exists s, log. split; [exact Hp|]. intros gfuel calls. apply gg_document; assumption.
Qed.
Print Assumptions C62_gg.
(** Without a transform, and with the rectangle's corner at the origin (or as large as the view box), the exact place is
    the one the rectangle gives the view box, and the tolerance is 2/64 plus the scale/64. *)
Theorem C62_place : forall (O : Oracles) (Q : ROracles) (vb : bounds (F64 O)) (x y w h : F (F64 O)) (p : R * R),
  value64 (bW vb) <> 0 -> value64 (bH vb) <> 0 -> value64 x * (value64 w - value64 (bW vb)) = 0 -> value64 y * (value64 h - value64 (bH vb)) = 0 ->
  dest O vb x y w h identity p = place (ex_bounds O Q vb) (value64 x) (value64 y) (value64 w) (value64 h) p
  /\ tol_x O vb w h identity = Rabs (value64 w / value64 (bW vb)) + 2 /\ tol_y O vb w h identity = Rabs (value64 h / value64 (bH vb)) + 2.
Proof.
  intros O Q vb x y w h p Hw Hh Hx Hy. destruct (num_val O 1 ltac:(lia)) as [_ V1]. assert (V0 : value64 (fnum (F64 O) 0) = 0) by reflexivity.
  unfold dest, scaled_pt, scale_x, scale_y, tol_x, tol_y, place, identity, ex_bounds, scale_x, scale_y. cbn [mA mB mC mD mE mF fst snd bX bY bW bH]. rewrite V1, V0.
  assert (Q1 : value64 x * (value64 w / value64 (bW vb)) = value64 x).
  { apply (Rmult_eq_reg_r (value64 (bW vb))); [|exact Hw]. replace (value64 x * (value64 w / value64 (bW vb)) * value64 (bW vb)) with (value64 x * value64 w) by (field; exact Hw). lra. }
  assert (Q2 : value64 y * (value64 h / value64 (bH vb)) = value64 y).
  { apply (Rmult_eq_reg_r (value64 (bH vb))); [|exact Hh]. replace (value64 y * (value64 h / value64 (bH vb)) * value64 (bH vb)) with (value64 y * value64 h) by (field; exact Hh). lra. }
  split; [|rewrite !Rmult_0_l, !Rmult_1_l, !Rabs_R0; split; ring].
  f_equal.
  - rewrite <- Q1 at 2. unfold Rdiv. ring.
  - rewrite <- Q2 at 2. unfold Rdiv. ring.
Qed.
Print Assumptions C62_place.
(** the document of C59 drawn on 300 by 300 pixels: the scales are 1.5 and 3 *)
Lemma trunc_upto r (n : Z) : Rabs r <= IZR n -> (Z.abs (Ztrunc r) <= n)%Z.
Proof.
  intros H. apply Rabs_le_inv in H. apply Z.abs_le. split.
  - rewrite <- (Ztrunc_IZR (- n)). apply Ztrunc_le. rewrite opp_IZR. lra.
  - rewrite <- (Ztrunc_IZR n). apply Ztrunc_le. lra.
Qed.
Lemma D_one : finite64 (fnum D 1) /\ value64 (fnum D 1) = 1.
Proof. exact (num_val demoO 1 ltac:(lia)). Qed.
Lemma D_300 : finite64 (fnum D 300) /\ value64 (fnum D 300) = 300.
Proof. exact (num_val demoO 300 ltac:(lia)). Qed.
Definition box_opts : list (renderOption D) := [Opacity (fnum D 1); Target (fnum D 0) (fnum D 0) (fnum D 300) (fnum D 300)].
Lemma box_page : page_fits demoO exactQ ex_box (fnum D 0) (fnum D 0) (fnum D 300) (fnum D 300) (turned demoO (mkFig D [(origin D, "rect"%string, box_attrs)] defaultStyle)) (mkFig D [(origin D, "rect"%string, box_attrs)] defaultStyle).
Proof.
  destruct D_one as [A1 V1], D_300 as [A3 V3].
  assert (U1 : upto demoO 10 (fnum D 1)) by (split; [exact A1|rewrite V1, Rabs_pos_eq; lra]).
  assert (U0 : forall n, upto demoO n (fnum D 0)) by (intros n; split; [split; [reflexivity|exact I]|change (value64 (fnum D 0)) with 0; rewrite Rabs_R0; apply pow_le; lra]).
  split; [exact (conj U1 (conj (U0 10%nat) (conj (U0 10%nat) (conj U1 (conj (U0 17%nat) (U0 17%nat))))))|].
  exists [OpMoveTo (on_grid (0, 0) (20, 1 / 10)); OpLineTo (on_grid (0, 0) (20 + 11 / 10, 1 / 10)); OpLineTo (on_grid (0, 0) (20 + 11 / 10, 1 / 10 + 9600 / 254)); OpLineTo (on_grid (0, 0) (20, 1 / 10 + 9600 / 254)); OpClose].
  split.
  - apply (ProofsTree.one_outline (meant demoO exactQ)). split; [exact (proj1 box_upto)|]. split; [exact at_origin|].
    left. apply (xs_rect exactQ _ _ box_attrs 20 (1 / 10) (11 / 10) (9600 / 254) 0 0).
    + len (mkNum NoSign "10" None None) ""%string UPercent ""%string 20.
    + len (mkNum NoSign "" (Some "1"%string) None) ""%string UNone ""%string (1 / 10).
    + len (mkNum NoSign "1" (Some "1"%string) None) ""%string UNone ""%string (11 / 10).
    + len (mkNum NoSign "1" None None) " "%string UCm " "%string (9600 / 254).
    + reflexivity.
    + reflexivity.
    + rewrite Rabs_pos_eq; lra.
    + rewrite Rabs_pos_eq; lra.
    + lra.
    + lra.
  - intros o a Ho Ha. destruct box_upto as (_ & VW & VH).
    assert (K : forall u v, 0 <= u <= 100 -> 0 <= v <= 100 -> (Z.abs (fst (on_grid (0, 0)%R (u, v))) <= 6400 /\ Z.abs (snd (on_grid (0, 0)%R (u, v))) <= 6400)%Z).
    { intros u v Hu Hv. unfold on_grid. cbn [fst snd]. split; apply trunc_upto; rewrite Rabs_pos_eq; lra. }
    assert (H : (Z.abs (fst a) <= 6400 /\ Z.abs (snd a) <= 6400)%Z).
    { cbn in Ho. decompose [or] Ho; subst; cbn [op_points] in Ha; cbn in Ha; decompose [or] Ha; subst; try contradiction; apply K; lra. }
    assert (NW : value64 (bW ex_box) <> 0) by (rewrite VW; lra). assert (NH : value64 (bH ex_box) <> 0) by (rewrite VH; lra).
    assert (NZ : forall r, value64 (fnum D 0) * r = 0) by (intros r; change (value64 (fnum D 0)) with 0; ring).
    split; [lia|]. unfold on_page. destruct (C62_place demoO exactQ ex_box (fnum D 0) (fnum D 0) (fnum D 300) (fnum D 300) (IZR (fst a) / 64, IZR (snd a) / 64)) as (H1 & _); [exact NW|exact NH|apply NZ|apply NZ|].
    change (turned demoO _) with (identity (E := D)). unfold D in *. rewrite H1. unfold place. cbn [fst snd]. rewrite V3. change (bX (ex_bounds demoO exactQ ex_box)) with 0. change (bY (ex_bounds demoO exactQ ex_box)) with 0.
    rewrite (proj1 exact_box), (proj2 exact_box). change (value64 (fnum (F64 demoO) 0)) with 0. destruct H as [Ha1 Ha2]. apply IZR_le in Ha1, Ha2. rewrite <- Rabs_Zabs in Ha1, Ha2. apply Rabs_le_inv in Ha1, Ha2.
    split; apply Rabs_le; lra.
Qed.
Example C62_example : trig0 demoO /\ reads_exactly exactQ /\ name_table D /\ exists wd,
  document D (meant demoO exactQ) false 0 [Elem "svg" [mkAttr "viewBox" "0 0 200 100"; mkAttr "width" "7"] [Elem "rect" box_attrs []]] ex_box wd
  /\ last_target box_opts = Some (fnum D 0, fnum D 0, fnum D 300, fnum D 300) /\ sized_target demoO ex_box box_opts
  /\ List.length (w_figs D wd) = 1%nat
  /\ forall f, List.In f (w_figs D wd) -> page_fits demoO exactQ ex_box (fnum D 0) (fnum D 0) (fnum D 300) (fnum D 300) (turned demoO f) f.
Proof.
  destruct C59_example as (H1 & H2 & H3 & wd & H4 & H5). split; [exact H1|]. split; [exact H2|]. split; [exact H3|]. exists wd. split; [exact H4|]. split; [reflexivity|]. split.
  - destruct D_one as [A1 V1], D_300 as [A3 V3]. destruct box_upto as ((UW & UH) & VW & VH).
    assert (U0 : forall n, upto demoO n (fnum D 0)) by (intros n; split; [split; [reflexivity|exact I]|change (value64 (fnum D 0)) with 0; rewrite Rabs_R0; apply pow_le; lra]).
    assert (NW : value64 (bW ex_box) <> 0) by (rewrite VW; lra). assert (NH : value64 (bH ex_box) <> 0) by (rewrite VH; lra).
    assert (S1 : Rabs (value64 (fnum D 300) / value64 (bW ex_box)) <= 2 ^ 10) by (rewrite V3, VW, Rabs_pos_eq; lra). assert (S2 : Rabs (value64 (fnum D 300) / value64 (bH ex_box)) <= 2 ^ 10) by (rewrite V3, VH, Rabs_pos_eq; lra).
    assert (P1 : SpecClose.part demoO (fnum D 1)) by (split; [exact A1|rewrite V1; lra]).
    split; [exact (U0 17%nat)|]. split; [exact (U0 17%nat)|]. split; [exact (proj1 UW)|]. split; [exact (proj1 UH)|]. split; [exact NW|]. split; [exact NH|].
    split; [exact P1|]. do 4 eexists. split; [reflexivity|]. split; [exact (U0 17%nat)|]. split; [exact (U0 17%nat)|]. split; [exact A3|]. split; [exact A3|].
    split; [exact S1|exact S2].
  - rewrite H5. split; [reflexivity|]. intros f [<-|[]]. exact box_page.
Qed.

(** * PropertiesPage: circles and ellipses from the text to the page (C64) *)
From Coq Require Import ZArith Lia Reals Lra Floats.SpecFloat.
From Flocq Require Import Core.Core.
From Verif Require Import F64 RealEnv SpecArc SpecClose SpecMeasure SpecPage ProofsTarget ExTree PropertiesShape PropertiesStyle PropertiesTree PropertiesRead ProofsFlocq ProofsClose ProofsMeasure ProofsLand ProofsCurve ProofsPage PropertiesMeasure PropertiesLand PropertiesCircle.
Local Open Scope R_scope.

(** ** C64: a circle of the document is the circle on the page *)
(** In a document drawn into a rectangle, what rasterx gets to fill and to stroke for a figure that is a circle or an ellipse runs
    along the image of that ellipse, and nowhere else, up to (k + 2)/16 pixels. *)
Theorem C64_rasterx : forall (O : Oracles) (Q : ROracles), fair_trig O -> reads_exactly Q -> name_table (F64 O) ->
  forall (fuel : nat) (mode : errorMode) (lenient : bool) (dep : nat) (ns : list node) (vb : bounds (F64 O)) (wd : world (F64 O)) (opts : list (renderOption (F64 O))) (x y w h : F (F64 O)),
  (dep <= fuel)%nat -> document (F64 O) (meant O Q) lenient dep ns vb wd -> (lenient = true -> mode <> StrictErrorMode) ->
  last_target opts = Some (x, y, w, h) -> sized_target O vb opts ->
  (forall f, List.In f (w_figs (F64 O) wd) -> page_fits O Q vb x y w h (turned O f) f) ->
  exists s log, parse (S fuel) mode (flat_map tokens ns) TermEOF = PSvg s None log
    /\ forall ext, exists ls, Forall2 (fun f l => rx_figure O Q vb x y w h f l /\ rx_round O Q vb x y w h f l) (w_figs (F64 O) wd) ls
                           /\ flat_map rx_trace (rxDrawSvg ext s opts) = concat ls.
Proof.
  intros O Q HF HQ HN fuel mode lenient dep ns vb wd opts x y w h H1 H2 H3 H4 H5 H6.
  destruct (C62_rasterx O Q (fair_zero _ HF) HQ HN fuel mode lenient dep ns vb wd opts x y w h H1 H2 H3 H4 H5 H6) as (s & log & Hp & Hr). exists s, log. split; [exact Hp|].
  intros ext. destruct (Hr ext) as (ls & Hl & Ht). exists ls. split; [|exact Ht]. revert Hl. apply all2_and. intros f l Hf. apply rx_figure_round; auto.
Qed.
Print Assumptions C64_rasterx.
(** So does what draw2d gets, *)
Theorem C64_draw2d : forall (O : Oracles) (Q : ROracles), fair_trig O -> reads_exactly Q -> name_table (F64 O) ->
  forall (fuel : nat) (mode : errorMode) (lenient : bool) (dep : nat) (ns : list node) (vb : bounds (F64 O)) (wd : world (F64 O)) (opts : list (renderOption (F64 O))) (x y w h : F (F64 O)),
  (dep <= fuel)%nat -> document (F64 O) (meant O Q) lenient dep ns vb wd -> (lenient = true -> mode <> StrictErrorMode) ->
  last_target opts = Some (x, y, w, h) -> sized_target O vb opts ->
  (forall f, List.In f (w_figs (F64 O) wd) -> page_fits O Q vb x y w h (turned O f) f) ->
  exists s log, parse (S fuel) mode (flat_map tokens ns) TermEOF = PSvg s None log
    /\ exists ls, Forall2 (fun f l => pen_figure O Q vb x y w h (turned O f) f l /\ pen_round O Q vb x y w h f l) (w_figs (F64 O) wd) ls
               /\ flat_map d2_trace (d2DrawSvg s opts) = concat ls.
Proof.
  intros O Q HF HQ HN fuel mode lenient dep ns vb wd opts x y w h H1 H2 H3 H4 H5 H6.
  destruct (C62_draw2d O Q (fair_zero _ HF) HQ HN fuel mode lenient dep ns vb wd opts x y w h H1 H2 H3 H4 H5 H6) as (s & log & Hp & ls & Hl & Ht). exists s, log. split; [exact Hp|].
  exists ls. split; [|exact Ht]. revert Hl. apply all2_and. intros f l Hf. apply pen_figure_round; auto.
Qed.
Print Assumptions C64_draw2d.
(** and what gg gets for the figures of the document. *)
Theorem C64_gg : forall (O : Oracles) (Q : ROracles), fair_trig O -> reads_exactly Q -> name_table (F64 O) ->
  forall (fuel : nat) (mode : errorMode) (lenient : bool) (dep : nat) (ns : list node) (vb : bounds (F64 O)) (wd : world (F64 O)) (opts : list (renderOption (F64 O))) (x y w h : F (F64 O)),
  (dep <= fuel)%nat -> document (F64 O) (meant O Q) lenient dep ns vb wd -> (lenient = true -> mode <> StrictErrorMode) ->
  last_target opts = Some (x, y, w, h) -> sized_target O vb opts ->
  (forall f, List.In f (w_figs (F64 O) wd) -> page_fits O Q vb x y w h (turned O f) f) ->
  (forall f id m g, List.In f (w_figs (F64 O) wd) -> w_masks (F64 O) wd id = Some m -> List.In g (snd m) -> page_fits O Q vb x y w h (turned O f) g) ->
  exists s log, parse (S fuel) mode (flat_map tokens ns) TermEOF = PSvg s None log
    /\ forall gfuel calls, ggDrawSvg gfuel s opts = Ret calls ->
       exists ls, Forall2 (fun f l => pen_figure O Q vb x y w h (turned O f) f l /\ pen_round O Q vb x y w h f l) (w_figs (F64 O) wd) ls
               /\ flat_map gg_trace calls = concat ls.
Proof.
  intros O Q HF HQ HN fuel mode lenient dep ns vb wd opts x y w h H1 H2 H3 H4 H5 H6 H7.
  destruct (C62_gg O Q (fair_zero _ HF) HQ HN fuel mode lenient dep ns vb wd opts x y w h H1 H2 H3 H4 H5 H6 H7) as (s & log & Hp & Hg). exists s, log. split; [exact Hp|].
  intros gfuel calls Hc. pose proof (Hg gfuel calls Hc) as K. inversion K as [tfs calls' ls Hl Ht _ E1 E2]. subst tfs calls'. exists ls. split; [|exact Ht].
  apply all2_and; [intros f l Hf; apply pen_figure_round; auto|]. revert Hl. generalize (w_figs (F64 O) wd) ls. intros fs. induction fs as [|f fs IH]; intros l Hl; inversion Hl; subst; constructor; auto.
Qed.
Print Assumptions C64_gg.
(** Without a transform, and with the rectangle's corner at the origin (or as large as the view box), the image of the ellipse is the
    ellipse around the place of its centre, with radii scaled like the view box. *)
Theorem C64_place : forall (O : Oracles) (Q : ROracles) (vb : bounds (F64 O)) (x y w h : F (F64 O)) (cx cy rx ry t : R),
  value64 (bW vb) <> 0 -> value64 (bH vb) <> 0 -> value64 x * (value64 w - value64 (bW vb)) = 0 -> value64 y * (value64 h - value64 (bH vb)) = 0 ->
  let c := place (ex_bounds O Q vb) (value64 x) (value64 y) (value64 w) (value64 h) (cx, cy) in
  dest O vb x y w h identity (ellipse_pt cx cy rx ry t) = ellipse_pt (fst c) (snd c) (rx * (value64 w / value64 (bW vb))) (ry * (value64 h / value64 (bH vb))) t.
Proof.
  intros O Q vb x y w h cx cy rx ry t Hw Hh Hx Hy c. rewrite (proj1 (C62_place O Q vb x y w h (ellipse_pt cx cy rx ry t) Hw Hh Hx Hy)).
  unfold c, place, ellipse_pt, ex_bounds. cbn [fst snd bX bY bW bH]. f_equal; field; assumption.
Qed.
Print Assumptions C64_place.

(** the circle of C63 on 300 by 300 pixels, where it is an ellipse *)
Definition disc_figure : figure (F64 trigO) := mkFig (F64 trigO) [(origin (F64 trigO), "circle"%string, disc_attrs)] defaultStyle.
Definition disc_opts : list (renderOption (F64 trigO)) := [Opacity (fnum (F64 trigO) 1); Target (fnum (F64 trigO) 0) (fnum (F64 trigO) 0) (fnum (F64 trigO) 300) (fnum (F64 trigO) 300)].
Lemma trig_one : finite64 (fnum (F64 trigO) 1) /\ value64 (fnum (F64 trigO) 1) = 1.
Proof. exact (num_val trigO 1 ltac:(lia)). Qed.
Lemma trig_300 : finite64 (fnum (F64 trigO) 300) /\ value64 (fnum (F64 trigO) 300) = 300.
Proof. exact (num_val trigO 300 ltac:(lia)). Qed.
Lemma trig_zero n : upto trigO n (fnum (F64 trigO) 0).
Proof. split; [split; [reflexivity|exact I]|change (value64 (fnum (F64 trigO) 0)) with 0; rewrite Rabs_R0; apply pow_le; lra]. Qed.
Lemma trig_sizes : value64 (bW trig_box) = 200 /\ value64 (bH trig_box) = 100.
Proof. exact trig_box_size. Qed.
Lemma disc_page : page_fits trigO exactQ trig_box (fnum (F64 trigO) 0) (fnum (F64 trigO) 0) (fnum (F64 trigO) 300) (fnum (F64 trigO) 300) (turned trigO disc_figure) disc_figure.
Proof.
  destruct trig_one as [A1 V1], trig_300 as [A3 V3], trig_sizes as [VW VH].
  assert (U1 : upto trigO 10 (fnum (F64 trigO) 1)) by (split; [exact A1|rewrite V1, Rabs_pos_eq; lra]).
  split; [exact (conj U1 (conj (trig_zero 10) (conj (trig_zero 10) (conj U1 (conj (trig_zero 17) (trig_zero 17))))))|].
  exists (whole_ellipse (100 + 0) (9600 / 254 + 0) (121 / 10) (121 / 10)). split; [apply (ProofsTree.one_outline (meant trigO exactQ)); exact disc_meant|].
  intros o a Ho Ha. destruct (ellipse_box _ _ _ _ _ _ Ho Ha) as (u & v & -> & Hu & Hv). apply Rabs_le_inv in Hu, Hv.
  assert (K : forall r, Rabs r <= 200 -> (Z.abs (wrap32 (Ztrunc (r * 64))) <= 12800)%Z).
  { intros r Hr. assert (H : (Z.abs (Ztrunc (r * 64)) <= 12800)%Z) by (apply trunc_upto; rewrite Rabs_mult, (Rabs_pos_eq 64) by lra; lra). rewrite wrap32_id; [exact H|]. unfold int32. lia. }
  assert (H : (Z.abs (fst (grid_R (100 + 0 + 121 / 10 * u, 9600 / 254 + 0 + 121 / 10 * v)%R)) <= 12800 /\ Z.abs (snd (grid_R (100 + 0 + 121 / 10 * u, 9600 / 254 + 0 + 121 / 10 * v)%R)) <= 12800)%Z)
    by (unfold grid_R; cbn [fst snd]; split; apply K; apply Rabs_le; lra).
  destruct (grid_R _) as [p q]. cbn [fst snd] in H. split; [cbn [fst snd]; lia|].
  assert (NW : value64 (bW trig_box) <> 0) by (rewrite VW; lra). assert (NH : value64 (bH trig_box) <> 0) by (rewrite VH; lra).
  assert (NZ : forall r, value64 (fnum (F64 trigO) 0) * r = 0) by (intros r; change (value64 (fnum (F64 trigO) 0)) with 0; ring).
  unfold on_page. destruct (C62_place trigO exactQ trig_box (fnum (F64 trigO) 0) (fnum (F64 trigO) 0) (fnum (F64 trigO) 300) (fnum (F64 trigO) 300) (IZR p / 64, IZR q / 64)) as (H1 & _); [exact NW|exact NH|apply NZ|apply NZ|].
  change (turned trigO _) with (identity (E := F64 trigO)). cbn [fst snd]. change (turned trigO disc_figure) with (identity (E := F64 trigO)). rewrite H1. unfold place. cbn [fst snd]. rewrite V3. change (bX (ex_bounds trigO exactQ trig_box)) with 0. change (bY (ex_bounds trigO exactQ trig_box)) with 0.
  rewrite (proj1 trig_box_size), (proj2 trig_box_size). change (value64 (fnum (F64 trigO) 0)) with 0. destruct H as [Ha1 Ha2]. apply IZR_le in Ha1, Ha2. rewrite <- Rabs_Zabs in Ha1, Ha2. apply Rabs_le_inv in Ha1, Ha2.
  split; apply Rabs_le; lra.
Qed.
Example C64_example : fair_trig trigO /\ reads_exactly exactQ /\ name_table (F64 trigO) /\ exists wd,
  document (F64 trigO) (meant trigO exactQ) false 0 [Elem "svg" [mkAttr "viewBox" "0 0 200 100"] [Elem "circle" disc_attrs []]] trig_box wd
  /\ last_target disc_opts = Some (fnum (F64 trigO) 0, fnum (F64 trigO) 0, fnum (F64 trigO) 300, fnum (F64 trigO) 300) /\ sized_target trigO trig_box disc_opts
  /\ w_figs (F64 trigO) wd = [disc_figure]
  /\ page_fits trigO exactQ trig_box (fnum (F64 trigO) 0) (fnum (F64 trigO) 0) (fnum (F64 trigO) 300) (fnum (F64 trigO) 300) (turned trigO disc_figure) disc_figure
  /\ round_figure trigO exactQ trig_box disc_figure (100 + 0) (9600 / 254 + 0) (121 / 10) (121 / 10).
Proof.
  destruct C63_example as (H1 & H2 & H3 & _ & _ & Hr & wd & H4 & H5). split; [exact H1|]. split; [exact H2|]. split; [exact H3|]. exists wd. split; [exact H4|]. split; [reflexivity|]. split; [|split; [exact H5|]].
  - destruct trig_one as [A1 V1], trig_300 as [A3 V3], trig_sizes as [VW VH]. destruct box_upto as ((UW & UH) & _).
    assert (NW : value64 (bW trig_box) <> 0) by (rewrite VW; lra). assert (NH : value64 (bH trig_box) <> 0) by (rewrite VH; lra).
    assert (S1 : Rabs (value64 (fnum (F64 trigO) 300) / value64 (bW trig_box)) <= 2 ^ 10) by (rewrite V3, VW, Rabs_pos_eq; lra). assert (S2 : Rabs (value64 (fnum (F64 trigO) 300) / value64 (bH trig_box)) <= 2 ^ 10) by (rewrite V3, VH, Rabs_pos_eq; lra).
    assert (P1 : SpecClose.part trigO (fnum (F64 trigO) 1)) by (split; [exact A1|rewrite V1; lra]).
    split; [exact (trig_zero 17)|]. split; [exact (trig_zero 17)|]. split; [exact (proj1 UW)|]. split; [exact (proj1 UH)|]. split; [exact NW|]. split; [exact NH|].
    split; [exact P1|]. do 4 eexists. split; [reflexivity|]. split; [exact (trig_zero 17)|]. split; [exact (trig_zero 17)|]. split; [exact A3|]. split; [exact A3|].
    split; [exact S1|exact S2].
  - split; [exact disc_page|]. exists (origin (F64 trigO)), "circle"%string, disc_attrs. split; [reflexivity|]. split; [lra|]. split; [lra|]. exact Hr.
Qed.

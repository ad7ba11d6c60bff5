(** * PropertiesOval: transformed circles and ellipses (C66) *)
From Coq Require Import ZArith Lia Reals Lra Floats.SpecFloat.
From Flocq Require Import Core.Core.
From Verif Require Import F64 RealEnv SpecArc SpecClose SpecMeasure SpecOval ExTree PropertiesShape PropertiesStyle PropertiesTree PropertiesRead ProofsFlocq ProofsClose ProofsMatrix ProofsMeasure ProofsLand ProofsCurve ProofsPage ProofsTurn ProofsTurn2 ProofsOval PropertiesMeasure PropertiesLand PropertiesCircle PropertiesPage PropertiesTurn.
Local Open Scope R_scope.

(** ** C66: a transformed circle or ellipse is drawn as the curve SVG makes of it *)
(** Drawn with the same scale in both directions and from the origin, a circle or ellipse whose transform consists of translations
    and scalings, then at most one rotation, slant or matrix: what rasterx gets to fill and to stroke runs along the exact image of
    the exact ellipse, and nowhere else, up to a sixteenth of three pixels and the size of one unit of the figure. *)
Theorem C66_rasterx : forall (O : Oracles) (Q : ROracles), fair_trig O -> reads_exactly Q -> name_table (F64 O) ->
  forall (fuel : nat) (mode : errorMode) (lenient : bool) (dep : nat) (ns : list node) (vb : bounds (F64 O)) (wd : world (F64 O)) (opts : list (renderOption (F64 O))) (x y w h : F (F64 O)),
  (dep <= fuel)%nat -> document (F64 O) (meant O Q) lenient dep ns vb wd -> (lenient = true -> mode <> StrictErrorMode) ->
  last_target opts = Some (x, y, w, h) -> sized_target O vb opts -> square_page O vb x y w h ->
  (forall f, List.In f (w_figs (F64 O) wd) -> page_fits O Q vb x y w h (turned O f) f) ->
  exists s log, parse (S fuel) mode (flat_map tokens ns) TermEOF = PSvg s None log
    /\ forall ext, exists ls, Forall2 (rx_oval O Q vb x y w h) (w_figs (F64 O) wd) ls /\ flat_map rx_trace (rxDrawSvg ext s opts) = concat ls.
Proof.
  intros O Q HF HQ HN fuel mode lenient dep ns vb wd opts x y w h H1 H2 H3 H4 H5 HS H6.
  destruct (C62_rasterx O Q (fair_zero _ HF) HQ HN fuel mode lenient dep ns vb wd opts x y w h H1 H2 H3 H4 H5 H6) as (s & log & Hp & Hr). exists s, log. split; [exact Hp|].
  intros ext. destruct (Hr ext) as (ls & Hl & Ht). exists ls. split; [|exact Ht]. revert Hl. apply all2_imp_in. intros f l Hf. apply rx_ovals; auto.
Qed.
Print Assumptions C66_rasterx.
(** So it is for draw2d, *)
Theorem C66_draw2d : forall (O : Oracles) (Q : ROracles), fair_trig O -> reads_exactly Q -> name_table (F64 O) ->
  forall (fuel : nat) (mode : errorMode) (lenient : bool) (dep : nat) (ns : list node) (vb : bounds (F64 O)) (wd : world (F64 O)) (opts : list (renderOption (F64 O))) (x y w h : F (F64 O)),
  (dep <= fuel)%nat -> document (F64 O) (meant O Q) lenient dep ns vb wd -> (lenient = true -> mode <> StrictErrorMode) ->
  last_target opts = Some (x, y, w, h) -> sized_target O vb opts -> square_page O vb x y w h ->
  (forall f, List.In f (w_figs (F64 O) wd) -> page_fits O Q vb x y w h (turned O f) f) ->
  exists s log, parse (S fuel) mode (flat_map tokens ns) TermEOF = PSvg s None log
    /\ exists ls, Forall2 (pen_oval O Q vb x y w h) (w_figs (F64 O) wd) ls /\ flat_map d2_trace (d2DrawSvg s opts) = concat ls.
Proof.
  intros O Q HF HQ HN fuel mode lenient dep ns vb wd opts x y w h H1 H2 H3 H4 H5 HS H6.
  destruct (C62_draw2d O Q (fair_zero _ HF) HQ HN fuel mode lenient dep ns vb wd opts x y w h H1 H2 H3 H4 H5 H6) as (s & log & Hp & ls & Hl & Ht). exists s, log. split; [exact Hp|].
  exists ls. split; [|exact Ht]. revert Hl. apply all2_imp_in. intros f l Hf. apply pen_ovals; auto.
Qed.
Print Assumptions C66_draw2d.
(** and for gg, apart from masks. *)
Theorem C66_gg : forall (O : Oracles) (Q : ROracles), fair_trig O -> reads_exactly Q -> name_table (F64 O) ->
  forall (fuel : nat) (mode : errorMode) (lenient : bool) (dep : nat) (ns : list node) (vb : bounds (F64 O)) (wd : world (F64 O)) (opts : list (renderOption (F64 O))) (x y w h : F (F64 O)),
  (dep <= fuel)%nat -> document (F64 O) (meant O Q) lenient dep ns vb wd -> (lenient = true -> mode <> StrictErrorMode) ->
  last_target opts = Some (x, y, w, h) -> sized_target O vb opts -> square_page O vb x y w h ->
  (forall f, List.In f (w_figs (F64 O) wd) -> page_fits O Q vb x y w h (turned O f) f) ->
  (forall f id m g, List.In f (w_figs (F64 O) wd) -> w_masks (F64 O) wd id = Some m -> List.In g (snd m) -> page_fits O Q vb x y w h (turned O f) g) ->
  exists s log, parse (S fuel) mode (flat_map tokens ns) TermEOF = PSvg s None log
    /\ forall gfuel calls, ggDrawSvg gfuel s opts = Ret calls ->
       exists ls, Forall2 (pen_oval O Q vb x y w h) (w_figs (F64 O) wd) ls /\ flat_map gg_trace calls = concat ls.
Proof.
  intros O Q HF HQ HN fuel mode lenient dep ns vb wd opts x y w h H1 H2 H3 H4 H5 HS H6 H7.
  destruct (C62_gg O Q (fair_zero _ HF) HQ HN fuel mode lenient dep ns vb wd opts x y w h H1 H2 H3 H4 H5 H6 H7) as (s & log & Hp & Hg). exists s, log. split; [exact Hp|].
  intros gfuel calls Hc. pose proof (Hg gfuel calls Hc) as K. inversion K as [tfs calls' ls Hl Ht _ E1 E2]. subst tfs calls'. exists ls. split; [|exact Ht].
  clear H2 H7 Ht K Hg. revert ls Hl. generalize (w_figs (F64 O) wd) H6. clear H6. intros fs H6. induction fs as [|f fs IH]; intros l Hl; inversion Hl; subst; constructor.
  - apply pen_ovals; try assumption. apply H6. now left.
  - apply IH; [|assumption]. intros g Hg. apply H6. now right.
Qed.
Print Assumptions C66_gg.
(** Translations, scalings by one factor and rotations turn a circle into the circle around the image of its centre, as many
    times larger as the page and the factors make it. *)
Theorem C66_circle : forall (O : Oracles) (Q : ROracles) (vb : bounds (F64 O)) (x y w h : F (F64 O)) (fs : list (tfun (RealEnv Q))) (k cx cy r : R),
  square_page O vb x y w h -> enlarges fs k ->
  let c := image O Q vb x y w h fs (cx, cy) in let r' := Rabs (scale_x O vb w) * k * r in
  exists phi, forall u, image O Q vb x y w h fs (ellipse_pt cx cy r r u) = ellipse_pt (fst c) (snd c) r' r' (u + phi).
Proof. intros O Q vb x y w h fs k cx cy r. exact (circle_image O Q vb x y w h fs k cx cy r). Qed.
Print Assumptions C66_circle.

(** the circle of C63 under translate(10 20) scale(2) rotate(45), drawn twice as large as the view box *)
Definition oval_attrs : list attr := disc_attrs ++ [mkAttr "transform" turn_text].
Definition oval_fig (fs : list (tfun T)) : figure T := mkFig T [(origin T, "circle"%string, oval_attrs)] (put_part Transform (fold_left (tfun_apply T) (rev fs) identity) defaultStyle).
Lemma oval_round : round_at exactQ (ex_bounds trigO exactQ trig_box) (0, 0) "circle" oval_attrs (100 + 0) (9600 / 254 + 0) (121 / 10) (121 / 10).
Proof.
  apply (ra_circle exactQ (ex_bounds trigO exactQ trig_box) (0, 0) oval_attrs 100 (9600 / 254) (121 / 10)).
  - len2 (mkNum NoSign "50" None None) ""%string UPercent ""%string 100.
  - len2 (mkNum NoSign "1" None None) " "%string UCm " "%string (9600 / 254).
  - len2 (mkNum NoSign "12" (Some "1"%string) None) ""%string UNone ""%string (121 / 10).
  - reflexivity.
  - reflexivity.
Qed.
Lemma oval_meant : meant trigO exactQ trig_box (origin T) "circle" oval_attrs (whole_ellipse (100 + 0) (9600 / 254 + 0) (121 / 10) (121 / 10)).
Proof. split; [exact (proj1 box_upto)|]. split; [exact at_origin|]. right. split; [exact trigO_fair|]. apply xr_whole; [exact oval_round|lra|lra]. Qed.
Lemma oval_turned fs : transform_text T turn_text fs -> turned_by trigO turn_text (oval_fig fs).
Proof. intros H. exists fs. split; [exact H|reflexivity]. Qed.
Lemma oval_points o a : List.In o (whole_ellipse (100 + 0) (9600 / 254 + 0) (121 / 10) (121 / 10)) -> List.In a (op_points o) -> (Z.abs (fst a) <= 12800 /\ Z.abs (snd a) <= 12800)%Z.
Proof.
  intros Ho Ha. destruct (ellipse_box _ _ _ _ _ _ Ho Ha) as (u & v & -> & Hu & Hv). apply Rabs_le_inv in Hu, Hv.
  assert (K : forall r, Rabs r <= 200 -> (Z.abs (wrap32 (Ztrunc (r * 64))) <= 12800)%Z).
  { intros r Hr. assert (H : (Z.abs (Ztrunc (r * 64)) <= 12800)%Z) by (apply trunc_upto; rewrite Rabs_mult, (Rabs_pos_eq 64) by lra; lra). rewrite wrap32_id; [exact H|]. unfold int32. lia. }
  unfold grid_R; cbn [fst snd]; split; apply K; apply Rabs_le; lra.
Qed.
Lemma oval_page fs : transform_text T turn_text fs -> page_fits trigO exactQ trig_box (fnum T 0) (fnum T 0) (fnum T 400) (fnum T 200) (turned trigO (oval_fig fs)) (oval_fig fs).
Proof.
  intros Ht. pose proof (oval_turned fs Ht) as Hv. pose proof turn_spells as Hs.
  destruct (turned_near trigO exactQ trigO_fair exactQ_reads trig_box (fnum T 400) turn_text (oval_fig fs) turn_funs Hv Hs) as (m' & ((N1 & N2 & N3 & N4 & N5 & N6) & (U1 & U2 & U3 & U4 & U5 & U6)) & Hm).
  rewrite turn_growth in *. cbn [List.length turn_funs INR] in *.
  assert (K : forall n (a : F T) (b : F (RealEnv exactQ)), (10 <= n)%nat -> num_near trigO exactQ ((1 + 1 + 1) / 2 ^ 37 * 126) a b -> Rabs b <= 126 -> upto trigO n a).
  { intros n a b Hn [F1 H1] H2. split; [exact F1|]. apply Rle_trans with (2 ^ 10); [|apply Rle_pow; [lra|lia]]. pose proof (Rabs_triang (value64 a - b) b) as Q1. replace (value64 a - b + b) with (value64 a) in Q1 by ring. lra. }
  split.
  - split; [exact (K 10%nat _ _ ltac:(lia) N1 U1)|]. split; [exact (K 10%nat _ _ ltac:(lia) N2 U2)|]. split; [exact (K 10%nat _ _ ltac:(lia) N3 U3)|]. split; [exact (K 10%nat _ _ ltac:(lia) N4 U4)|]. split; [exact (K 17%nat _ _ ltac:(lia) N5 U5)|exact (K 17%nat _ _ ltac:(lia) N6 U6)].
  - exists (whole_ellipse (100 + 0) (9600 / 254 + 0) (121 / 10) (121 / 10)). split; [apply (ProofsTree.one_outline (meant trigO exactQ)); exact oval_meant|]. intros o a Ho Ha. pose proof (oval_points o a Ho Ha) as [P1 P2]. split; [lia|].
    apply IZR_le in P1, P2. rewrite <- Rabs_Zabs in P1, P2. unfold on_page.
    assert (B1 : Rabs (IZR (fst a) / 64) <= 200) by (unfold Rdiv; rewrite Rabs_mult, (Rabs_pos_eq (/ 64)) by lra; lra). assert (B2 : Rabs (IZR (snd a) / 64) <= 200) by (unfold Rdiv; rewrite Rabs_mult, (Rabs_pos_eq (/ 64)) by lra; lra).
    set (p := (IZR (fst a) / 64, IZR (snd a) / 64)) in *.
    destruct (turned_place trigO exactQ trigO_fair exactQ_reads trig_box (fnum T 0) (fnum T 0) (fnum T 400) (fnum T 200) turn_square turn_text (oval_fig fs) turn_funs p Hv Hs) as [[Q1 _] [Q2 _]]; [cbn [fst p]; lra|cbn [snd p]; lra|].
    assert (I : Rabs (fst (image trigO exactQ trig_box (fnum T 0) (fnum T 0) (fnum T 400) (fnum T 200) turn_funs p)) <= 2 ^ 20 /\ Rabs (snd (image trigO exactQ trig_box (fnum T 0) (fnum T 0) (fnum T 400) (fnum T 200) turn_funs p)) <= 2 ^ 20).
    { unfold image. cbv zeta. cbn [fst snd]. rewrite (proj1 turn_scale), (proj2 turn_scale), <- Hm. change (value64 (fnum T 0)) with 0. change (value64 (bX trig_box)) with 0. change (value64 (bY trig_box)) with 0. unfold maps. cbn [fst snd].
      assert (M : forall e f g, Rabs e <= 126 -> Rabs f <= 126 -> Rabs g <= 126 -> Rabs (0 + (e * fst p + f * snd p + g - 0) * 2) <= 2 ^ 20).
      { intros e f g He Hf Hg. replace (0 + (e * fst p + f * snd p + g - 0) * 2) with (2 * (e * fst p + (f * snd p + g))) by ring. rewrite Rabs_mult, (Rabs_pos_eq 2) by lra.
        pose proof (Rabs_triang (e * fst p) (f * snd p + g)). pose proof (Rabs_triang (f * snd p) g).
        assert (W : forall i j, Rabs i <= 126 -> Rabs j <= 200 -> Rabs (i * j) <= 126 * 200) by (intros; rewrite Rabs_mult; apply Rmult_le_compat; try apply Rabs_pos; assumption).
        pose proof (W e (fst p) He B1). pose proof (W f (snd p) Hf B2). lra. }
      split; apply M; assumption. }
    destruct I as [I1 I2]. split.
    + apply Rabs_le. apply Rabs_le_inv in Q1, I1. lra.
    + apply Rabs_le. apply Rabs_le_inv in Q2, I2. lra.
Qed.
Example C66_example : fair_trig trigO /\ reads_exactly exactQ /\ name_table T /\ exists fs wd,
  document T (meant trigO exactQ) false 0 [Elem "svg" [mkAttr "viewBox" "0 0 200 100"] [Elem "circle" oval_attrs []]] trig_box wd
  /\ last_target turn_opts = Some (fnum T 0, fnum T 0, fnum T 400, fnum T 200) /\ sized_target trigO trig_box turn_opts
  /\ square_page trigO trig_box (fnum T 0) (fnum T 0) (fnum T 400) (fnum T 200)
  /\ w_figs T wd = [oval_fig fs]
  /\ page_fits trigO exactQ trig_box (fnum T 0) (fnum T 0) (fnum T 400) (fnum T 200) (turned trigO (oval_fig fs)) (oval_fig fs)
  /\ oval_figure trigO exactQ trig_box (oval_fig fs) (100 + 0) (9600 / 254 + 0) (121 / 10) (121 / 10)
  /\ turned_by trigO turn_text (oval_fig fs) /\ spells_turn trigO exactQ trig_box (fnum T 400) turn_text turn_funs /\ enlarges turn_funs 2.
Proof.
  destruct C65_example as (E1 & E2 & E3 & _ & _ & _ & E4 & E5 & E6 & _ & _ & _ & _ & _ & E7 & _).
  destruct turn_reads64 as [fs Hfs]. split; [exact E1|]. split; [exact E2|]. split; [exact E3|]. exists fs. eexists. split.
  { exists [], [mkAttr "viewBox" "0 0 200 100"], [Elem "circle" oval_attrs []], [], defaultStyle. eexists _, _. split; [reflexivity|]. split; [reflexivity|]. split; [reflexivity|].
    split; [plain_style|]. split; [exact trig_view|].
    eapply sems_cons; [|apply sems_nil]. eapply (sem_shape _ _ _ _ _ _ _ _ _ (put_part Transform (fold_left (tfun_apply T) (rev fs) identity) defaultStyle)); [| |apply sems_nil].
    - exists [("transform"%string, turn_text)]. split.
      + do 3 (apply (ads_cons _ [] _ [("transform"%string, turn_text)]); [apply ad_skip; reflexivity|]). apply (ads_cons _ [("transform"%string, turn_text)] [] []); [|apply ads_nil].
        apply (ad_pres "transform" "transform" turn_text turn_text); [discriminate| | |reflexivity|reflexivity]; exists ""%string, ""%string; repeat split; reflexivity.
      + eapply decls_cons; [apply decl_transform; exact Hfs|apply decls_nil].
    - eexists. split; [apply (ProofsTree.one_outline (meant trigO exactQ)); exact oval_meant|reflexivity]. }
  split; [exact E4|]. split; [exact E5|]. split; [exact E6|]. split; [reflexivity|]. split; [now apply oval_page|]. split; [|split; [now apply oval_turned|split; [exact E7|]]].
  - split; [|rewrite !Rabs_pos_eq by lra; lra]. exists (origin T), "circle"%string, oval_attrs. split; [reflexivity|]. split; [lra|]. split; [lra|]. exact oval_round.
  - assert (H : enlarges turn_funs (Rabs 2 * 1)) by (unfold turn_funs; apply en_translate, en_scale, en_rotate, en_nil). rewrite Rabs_pos_eq, Rmult_1_r in H by lra. exact H.
Qed.

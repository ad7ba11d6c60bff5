(** * PropertiesTurn: transform attributes in float64 (C65) *)
From Coq Require Import ZArith Lia Reals Lra Floats.SpecFloat.
From Flocq Require Import Core.Core.
From Verif Require Import F64 RealEnv SpecArc SpecClose SpecMeasure SpecPage SpecTurn ExTree PropertiesShape PropertiesStyle PropertiesTree PropertiesRead ProofsFlocq ProofsClose ProofsMatrix ProofsMeasure ProofsLand ProofsPage ProofsTurn ProofsTurn2 PropertiesMeasure PropertiesLand PropertiesCircle PropertiesPage.
Local Open Scope R_scope.

(** ** C65: the matrix of a transform attribute in float64 is the exact one but for n 2^-37 of its size *)
(** The declaration transform, with any number of functions and under any parent, stores a matrix whose entries differ from those
    exact arithmetic gives by at most n 2^-37 g; n counts the functions of the element and its ancestors, g bounds the entries. *)
Theorem C65_matrix : forall (O : Oracles) (Q : ROracles), fair_trig O -> reads_exactly Q ->
  forall v fs g k (st : style (F64 O)) (c : cursor (F64 O)) par (par' : matrix (RealEnv Q)) rest,
  transform_text (RealEnv Q) v fs -> measured_list fs -> c_stack c = par :: rest ->
  1 <= g <= 2 ^ 150 -> (Z.of_nat k < 2 ^ 30)%Z -> off_by O Q k g (st_transform par) par' ->
  exists c' m, readStyleAttr st "transform" v c = (c', Ret (put_part Transform m st)) /\ same_but_points c c'
  /\ off_by O Q (k + List.length fs) (g * growths fs) m (fold_left (tfun_apply (RealEnv Q)) (rev fs) par').
Proof. intros O Q HF HQ v fs g k st c par par' rest H1 H2 H3 H4 H5 H6. exact (text_reads O Q HF v fs g k st c par par' rest HQ H1 H2 H3 H4 H5 H6). Qed.
Print Assumptions C65_matrix.
(** Drawn with the same scale in both directions and from the origin, a figure whose transform consists of translations and
    scalings, then at most one rotation, slant or matrix, is where SVG puts it: what rasterx gets to fill and to stroke has every
    point within three 64ths of a pixel, and the size of 1/64 of the figure, of the exact place of the exact point. *)
Theorem C65_rasterx : forall (O : Oracles) (Q : ROracles), fair_trig O -> reads_exactly Q -> name_table (F64 O) ->
  forall (fuel : nat) (mode : errorMode) (lenient : bool) (dep : nat) (ns : list node) (vb : bounds (F64 O)) (wd : world (F64 O)) (opts : list (renderOption (F64 O))) (x y w h : F (F64 O)),
  (dep <= fuel)%nat -> document (F64 O) (meant O Q) lenient dep ns vb wd -> (lenient = true -> mode <> StrictErrorMode) ->
  last_target opts = Some (x, y, w, h) -> sized_target O vb opts -> square_page O vb x y w h ->
  (forall f, List.In f (w_figs (F64 O) wd) -> page_fits O Q vb x y w h (turned O f) f) ->
  exists s log, parse (S fuel) mode (flat_map tokens ns) TermEOF = PSvg s None log
    /\ forall ext, exists ls, Forall2 (rx_turned O Q vb x y w h) (w_figs (F64 O) wd) ls /\ flat_map rx_trace (rxDrawSvg ext s opts) = concat ls.
Proof.
  intros O Q HF HQ HN fuel mode lenient dep ns vb wd opts x y w h H1 H2 H3 H4 H5 HS H6.
  destruct (C62_rasterx O Q (fair_zero _ HF) HQ HN fuel mode lenient dep ns vb wd opts x y w h H1 H2 H3 H4 H5 H6) as (s & log & Hp & Hr). exists s, log. split; [exact Hp|].
  intros ext. destruct (Hr ext) as (ls & Hl & Ht). exists ls. split; [|exact Ht]. revert Hl. apply all2_imp. intros f l. apply rx_turns; assumption.
Qed.
Print Assumptions C65_rasterx.
(** So it is for draw2d, *)
Theorem C65_draw2d : forall (O : Oracles) (Q : ROracles), fair_trig O -> reads_exactly Q -> name_table (F64 O) ->
  forall (fuel : nat) (mode : errorMode) (lenient : bool) (dep : nat) (ns : list node) (vb : bounds (F64 O)) (wd : world (F64 O)) (opts : list (renderOption (F64 O))) (x y w h : F (F64 O)),
  (dep <= fuel)%nat -> document (F64 O) (meant O Q) lenient dep ns vb wd -> (lenient = true -> mode <> StrictErrorMode) ->
  last_target opts = Some (x, y, w, h) -> sized_target O vb opts -> square_page O vb x y w h ->
  (forall f, List.In f (w_figs (F64 O) wd) -> page_fits O Q vb x y w h (turned O f) f) ->
  exists s log, parse (S fuel) mode (flat_map tokens ns) TermEOF = PSvg s None log
    /\ exists ls, Forall2 (pen_turned O Q vb x y w h) (w_figs (F64 O) wd) ls /\ flat_map d2_trace (d2DrawSvg s opts) = concat ls.
Proof.
  intros O Q HF HQ HN fuel mode lenient dep ns vb wd opts x y w h H1 H2 H3 H4 H5 HS H6.
  destruct (C62_draw2d O Q (fair_zero _ HF) HQ HN fuel mode lenient dep ns vb wd opts x y w h H1 H2 H3 H4 H5 H6) as (s & log & Hp & ls & Hl & Ht). exists s, log. split; [exact Hp|].
  exists ls. split; [|exact Ht]. revert Hl. apply all2_imp. intros f l. apply pen_turns; assumption.
Qed.
Print Assumptions C65_draw2d.
(** and for gg, apart from masks. *)
Theorem C65_gg : forall (O : Oracles) (Q : ROracles), fair_trig O -> reads_exactly Q -> name_table (F64 O) ->
  forall (fuel : nat) (mode : errorMode) (lenient : bool) (dep : nat) (ns : list node) (vb : bounds (F64 O)) (wd : world (F64 O)) (opts : list (renderOption (F64 O))) (x y w h : F (F64 O)),
  (dep <= fuel)%nat -> document (F64 O) (meant O Q) lenient dep ns vb wd -> (lenient = true -> mode <> StrictErrorMode) ->
  last_target opts = Some (x, y, w, h) -> sized_target O vb opts -> square_page O vb x y w h ->
  (forall f, List.In f (w_figs (F64 O) wd) -> page_fits O Q vb x y w h (turned O f) f) ->
  (forall f id m g, List.In f (w_figs (F64 O) wd) -> w_masks (F64 O) wd id = Some m -> List.In g (snd m) -> page_fits O Q vb x y w h (turned O f) g) ->
  exists s log, parse (S fuel) mode (flat_map tokens ns) TermEOF = PSvg s None log
    /\ forall gfuel calls, ggDrawSvg gfuel s opts = Ret calls ->
       exists ls, Forall2 (pen_turned O Q vb x y w h) (w_figs (F64 O) wd) ls /\ flat_map gg_trace calls = concat ls.
Proof.
  intros O Q HF HQ HN fuel mode lenient dep ns vb wd opts x y w h H1 H2 H3 H4 H5 HS H6 H7.
  destruct (C62_gg O Q (fair_zero _ HF) HQ HN fuel mode lenient dep ns vb wd opts x y w h H1 H2 H3 H4 H5 H6 H7) as (s & log & Hp & Hg). exists s, log. split; [exact Hp|].
  intros gfuel calls Hc. pose proof (Hg gfuel calls Hc) as K. inversion K as [tfs calls' ls Hl Ht _ E1 E2]. subst tfs calls'. exists ls. split; [|exact Ht].
  revert Hl. generalize (w_figs (F64 O) wd) ls. intros fs. induction fs as [|f fs IH]; intros l Hl; inversion Hl; subst; constructor; auto. apply pen_turns; assumption.
Qed.
Print Assumptions C65_gg.

(** a line under translate(10 20) scale(2) rotate(45), drawn twice as large as the view box *)
Notation T := (F64 trigO).
Definition turn_text : string := "translate(10 20) scale(2) rotate(45)".
Definition turn_funs : list (tfun (RealEnv exactQ)) := [Translate (RealEnv exactQ) 10 20; Scale (RealEnv exactQ) 2 2; Rotate (RealEnv exactQ) 45].
Lemma turn_reads : transform_text (RealEnv exactQ) turn_text turn_funs.
Proof.
  assert (V : forall n v, legal_numeral n = true -> short_exp n = true -> num_exact n = v -> num_value (RealEnv exactQ) n = Some v) by exact exact_value.
  apply (tt_cons (RealEnv exactQ) "" "translate" "" "10 20" [10; 20] _ " scale(2) rotate(45)"); [reflexivity|reflexivity|split; reflexivity| |discriminate|].
  { exists [(""%string, mkNum NoSign "10" None None); (" "%string, mkNum NoSign "20" None None)], ""%string. split; [reflexivity|]. split; [reflexivity|]. split; [reflexivity|]. cbn [map snd].
    f_equal; [|f_equal]; apply V; try reflexivity; unfold num_exact; cbn; lra. }
  apply (tt_cons (RealEnv exactQ) " " "scale" "" "2" [2] _ " rotate(45)"); [reflexivity|reflexivity|split; [reflexivity|right; split; reflexivity]| |discriminate|].
  { exists [(""%string, mkNum NoSign "2" None None)], ""%string. split; [reflexivity|]. split; [reflexivity|]. split; [reflexivity|]. cbn [map snd]. f_equal. apply V; try reflexivity; unfold num_exact; cbn; lra. }
  apply (tt_cons (RealEnv exactQ) " " "rotate" "" "45" [45] _ ""); [reflexivity|reflexivity|split; reflexivity| |discriminate|constructor; reflexivity].
  exists [(""%string, mkNum NoSign "45" None None)], ""%string. split; [reflexivity|]. split; [reflexivity|]. split; [reflexivity|]. cbn [map snd]. f_equal. apply V; try reflexivity; unfold num_exact; cbn; lra.
Qed.
Lemma turn_growth : growths turn_funs = 126.
Proof.
  unfold growths, turn_funs. cbn [fold_right growth largest]. rewrite (Rabs_pos_eq 10), (Rabs_pos_eq 20), (Rabs_pos_eq 2) by lra.
  rewrite (Rmax_left 20 1) by lra. rewrite (Rmax_right 10 20) by lra. rewrite (Rmax_left 2 1) by lra. rewrite (Rmax_left 2 2) by lra. lra.
Qed.
Lemma turn_measured : measured_list turn_funs.
Proof.
  split; [|split; [rewrite turn_growth; apply Rle_trans with (2 ^ 7); [lra|apply Rle_pow; [lra|lia]]|vm_compute; reflexivity]].
  apply Forall_cons; [split; rewrite Rabs_pos_eq; lra|]. apply Forall_cons; [split; rewrite Rabs_pos_eq; lra|]. apply Forall_cons; [|apply Forall_nil]. cbn. rewrite Rabs_pos_eq; lra.
Qed.
Lemma turn_orderly : orderly_list identity turn_funs.
Proof.
  exists [Translate (RealEnv exactQ) 10 20; Scale (RealEnv exactQ) 2 2], [Rotate (RealEnv exactQ) 45]. split; [reflexivity|]. split; [repeat constructor|]. split; [intros p; now rewrite !identity_maps|].
  cbn [linear_entries]. unfold identity. cbn [mE mF]. rewrite fnum_real. split; ring.
Qed.
Definition turn_attrs : list attr := [mkAttr "x1" "1"; mkAttr "y1" "2"; mkAttr "x2" "30"; mkAttr "y2" "40"; mkAttr "transform" turn_text].
Definition turn_opts : list (renderOption T) := [Opacity (fnum T 1); Target (fnum T 0) (fnum T 0) (fnum T 400) (fnum T 200)].
Definition turn_line : path := [OpMoveTo (on_grid (0, 0) (1, 2)); OpLineTo (on_grid (0, 0) (30, 40))].
Lemma turn_meant : meant trigO exactQ trig_box (origin T) "line" turn_attrs turn_line.
Proof.
  split; [exact (proj1 box_upto)|]. split; [exact at_origin|]. left. apply (xs_line exactQ _ _ turn_attrs 1 2 30 40).
  - len2 (mkNum NoSign "1" None None) ""%string UNone ""%string 1.
  - len2 (mkNum NoSign "2" None None) ""%string UNone ""%string 2.
  - len2 (mkNum NoSign "30" None None) ""%string UNone ""%string 30.
  - len2 (mkNum NoSign "40" None None) ""%string UNone ""%string 40.
Qed.
Lemma trig_400 : finite64 (fnum T 400) /\ value64 (fnum T 400) = 400.
Proof. exact (num_val trigO 400 ltac:(lia)). Qed.
Lemma trig_200 : finite64 (fnum T 200) /\ value64 (fnum T 200) = 200.
Proof. exact (num_val trigO 200 ltac:(lia)). Qed.
Lemma turn_square : square_page trigO trig_box (fnum T 0) (fnum T 0) (fnum T 400) (fnum T 200).
Proof. unfold square_page. rewrite (proj2 trig_400), (proj2 trig_200), (proj1 trig_sizes), (proj2 trig_sizes). split; [lra|]. repeat split; reflexivity. Qed.
Lemma turn_scale : scale_x trigO trig_box (fnum T 400) = 2 /\ scale_y trigO trig_box (fnum T 200) = 2.
Proof. unfold scale_x, scale_y. rewrite (proj2 trig_400), (proj2 trig_200), (proj1 trig_sizes), (proj2 trig_sizes). split; lra. Qed.
Lemma turn_spells : spells_turn trigO exactQ trig_box (fnum T 400) turn_text turn_funs.
Proof.
  split; [exact turn_reads|]. split; [exact turn_measured|]. split; [exact turn_orderly|]. rewrite turn_growth, (proj1 turn_scale), Rabs_pos_eq by lra. cbn [List.length turn_funs INR]. lra.
Qed.
(** the float64 reading of the text *)
Lemma turn_reads64 : exists fs, transform_text T turn_text fs.
Proof. destruct (text_near trigO exactQ turn_text turn_funs exactQ_reads turn_reads (proj1 turn_measured)) as (fs & H & _). exists fs. exact H. Qed.
Definition turn_figure (fs : list (tfun T)) : figure T := mkFig T [(origin T, "line"%string, turn_attrs)] (put_part Transform (fold_left (tfun_apply T) (rev fs) identity) defaultStyle).
Lemma turn_turned fs : transform_text T turn_text fs -> turned_by trigO turn_text (turn_figure fs).
Proof. intros H. exists fs. split; [exact H|reflexivity]. Qed.
Lemma turn_points o a : List.In o turn_line -> List.In a (op_points o) -> (Z.abs (fst a) <= 2560 /\ Z.abs (snd a) <= 2560)%Z.
Proof.
  assert (K : forall u v, 0 <= u <= 40 -> 0 <= v <= 40 -> (Z.abs (fst (on_grid (0, 0)%R (u, v))) <= 2560 /\ Z.abs (snd (on_grid (0, 0)%R (u, v))) <= 2560)%Z).
  { intros u v Hu Hv. unfold on_grid. cbn [fst snd]. split; apply trunc_upto; rewrite Rabs_pos_eq; lra. }
  intros Ho Ha. cbn in Ho. decompose [or] Ho; subst; try contradiction; cbn [op_points] in Ha; cbn in Ha; decompose [or] Ha; subst; try contradiction; apply K; lra.
Qed.
Lemma turn_page fs : transform_text T turn_text fs -> page_fits trigO exactQ trig_box (fnum T 0) (fnum T 0) (fnum T 400) (fnum T 200) (turned trigO (turn_figure fs)) (turn_figure fs).
Proof.
  intros Ht. pose proof (turn_turned fs Ht) as Hv. pose proof turn_spells as Hs.
  destruct (turned_near trigO exactQ trigO_fair exactQ_reads trig_box (fnum T 400) turn_text (turn_figure fs) turn_funs Hv Hs) as (m' & ((N1 & N2 & N3 & N4 & N5 & N6) & (U1 & U2 & U3 & U4 & U5 & U6)) & Hm).
  rewrite turn_growth in *. cbn [List.length turn_funs INR] in *.
  assert (K : forall n (a : F T) (b : F (RealEnv exactQ)), (10 <= n)%nat -> num_near trigO exactQ ((1 + 1 + 1) / 2 ^ 37 * 126) a b -> Rabs b <= 126 -> upto trigO n a).
  { intros n a b Hn [F1 H1] H2. split; [exact F1|]. apply Rle_trans with (2 ^ 10); [|apply Rle_pow; [lra|lia]]. pose proof (Rabs_triang (value64 a - b) b) as Q1. replace (value64 a - b + b) with (value64 a) in Q1 by ring. lra. }
  split.
  - split; [exact (K 10%nat _ _ ltac:(lia) N1 U1)|]. split; [exact (K 10%nat _ _ ltac:(lia) N2 U2)|]. split; [exact (K 10%nat _ _ ltac:(lia) N3 U3)|]. split; [exact (K 10%nat _ _ ltac:(lia) N4 U4)|]. split; [exact (K 17%nat _ _ ltac:(lia) N5 U5)|exact (K 17%nat _ _ ltac:(lia) N6 U6)].
  - exists turn_line. split; [apply (ProofsTree.one_outline (meant trigO exactQ)); exact turn_meant|]. intros o a Ho Ha. pose proof (turn_points o a Ho Ha) as [P1 P2]. split; [lia|].
    apply IZR_le in P1, P2. rewrite <- Rabs_Zabs in P1, P2. unfold on_page.
    assert (B1 : Rabs (IZR (fst a) / 64) <= 40) by (unfold Rdiv; rewrite Rabs_mult, (Rabs_pos_eq (/ 64)) by lra; lra). assert (B2 : Rabs (IZR (snd a) / 64) <= 40) by (unfold Rdiv; rewrite Rabs_mult, (Rabs_pos_eq (/ 64)) by lra; lra).
    set (p := (IZR (fst a) / 64, IZR (snd a) / 64)) in *.
    destruct (turned_place trigO exactQ trigO_fair exactQ_reads trig_box (fnum T 0) (fnum T 0) (fnum T 400) (fnum T 200) turn_square turn_text (turn_figure fs) turn_funs p Hv Hs) as [[Q1 _] [Q2 _]]; [cbn [fst p]; lra|cbn [snd p]; lra|].
    assert (I : Rabs (fst (image trigO exactQ trig_box (fnum T 0) (fnum T 0) (fnum T 400) (fnum T 200) turn_funs p)) <= 2 ^ 20 /\ Rabs (snd (image trigO exactQ trig_box (fnum T 0) (fnum T 0) (fnum T 400) (fnum T 200) turn_funs p)) <= 2 ^ 20).
    { unfold image. cbv zeta. cbn [fst snd]. rewrite (proj1 turn_scale), (proj2 turn_scale), <- Hm. change (value64 (fnum T 0)) with 0. change (value64 (bX trig_box)) with 0. change (value64 (bY trig_box)) with 0. unfold maps. cbn [fst snd].
      assert (M : forall e f g, Rabs e <= 126 -> Rabs f <= 126 -> Rabs g <= 126 -> Rabs (0 + (e * fst p + f * snd p + g - 0) * 2) <= 2 ^ 20).
      { intros e f g He Hf Hg. replace (0 + (e * fst p + f * snd p + g - 0) * 2) with (2 * (e * fst p + (f * snd p + g))) by ring. rewrite Rabs_mult, (Rabs_pos_eq 2) by lra.
        pose proof (Rabs_triang (e * fst p) (f * snd p + g)). pose proof (Rabs_triang (f * snd p) g).
        assert (W : forall i j, Rabs i <= 126 -> Rabs j <= 40 -> Rabs (i * j) <= 126 * 40) by (intros; rewrite Rabs_mult; apply Rmult_le_compat; try apply Rabs_pos; assumption).
        pose proof (W e (fst p) He B1). pose proof (W f (snd p) Hf B2). lra. }
      split; apply M; assumption. }
    destruct I as [I1 I2]. split.
    + apply Rabs_le. apply Rabs_le_inv in Q1, I1. lra.
    + apply Rabs_le. apply Rabs_le_inv in Q2, I2. lra.
Qed.
Example C65_example : fair_trig trigO /\ reads_exactly exactQ /\ name_table T /\ exists fs wd,
  document T (meant trigO exactQ) false 0 [Elem "svg" [mkAttr "viewBox" "0 0 200 100"] [Elem "line" turn_attrs []]] trig_box wd
  /\ last_target turn_opts = Some (fnum T 0, fnum T 0, fnum T 400, fnum T 200) /\ sized_target trigO trig_box turn_opts
  /\ square_page trigO trig_box (fnum T 0) (fnum T 0) (fnum T 400) (fnum T 200)
  /\ w_figs T wd = [turn_figure fs]
  /\ page_fits trigO exactQ trig_box (fnum T 0) (fnum T 0) (fnum T 400) (fnum T 200) (turned trigO (turn_figure fs)) (turn_figure fs)
  /\ exact_outline trigO exactQ trig_box (turn_figure fs) turn_line /\ small_outline turn_line
  /\ turned_by trigO turn_text (turn_figure fs) /\ spells_turn trigO exactQ trig_box (fnum T 400) turn_text turn_funs
  /\ image trigO exactQ trig_box (fnum T 0) (fnum T 0) (fnum T 400) (fnum T 200) turn_funs (3, 3) = (20, 40 + 12 * sqrt 2).
Proof.
  destruct turn_reads64 as [fs Hfs]. split; [exact trigO_fair|]. split; [exact exactQ_reads|]. split; [exact names_D|]. exists fs. eexists. split.
  { exists [], [mkAttr "viewBox" "0 0 200 100"], [Elem "line" turn_attrs []], [], defaultStyle. eexists _, _. split; [reflexivity|]. split; [reflexivity|]. split; [reflexivity|].
    split; [plain_style|]. split; [exact trig_view|].
    eapply sems_cons; [|apply sems_nil]. eapply (sem_shape _ _ _ _ _ _ _ _ _ (put_part Transform (fold_left (tfun_apply T) (rev fs) identity) defaultStyle)); [| |apply sems_nil].
    - exists [("transform"%string, turn_text)]. split.
      + do 4 (apply (ads_cons _ [] _ [("transform"%string, turn_text)]); [apply ad_skip; reflexivity|]). apply (ads_cons _ [("transform"%string, turn_text)] [] []); [|apply ads_nil].
        apply (ad_pres "transform" "transform" turn_text turn_text); [discriminate| | |reflexivity|reflexivity]; exists ""%string, ""%string; repeat split; reflexivity.
      + eapply decls_cons; [apply decl_transform; exact Hfs|apply decls_nil].
    - eexists. split; [apply (ProofsTree.one_outline (meant trigO exactQ)); exact turn_meant|reflexivity]. }
  split; [reflexivity|]. split; [|split; [exact turn_square|split; [reflexivity|]]].
  - destruct trig_one as [A1 V1], trig_400 as [A3 V3], trig_200 as [A2 V2], trig_sizes as [VW VH]. destruct box_upto as ((UW & UH) & _).
    assert (NW : value64 (bW trig_box) <> 0) by (rewrite VW; lra). assert (NH : value64 (bH trig_box) <> 0) by (rewrite VH; lra).
    assert (S1 : Rabs (value64 (fnum T 400) / value64 (bW trig_box)) <= 2 ^ 10) by (rewrite V3, VW, Rabs_pos_eq; lra). assert (S2 : Rabs (value64 (fnum T 200) / value64 (bH trig_box)) <= 2 ^ 10) by (rewrite V2, VH, Rabs_pos_eq; lra).
    assert (P1 : SpecClose.part trigO (fnum T 1)) by (split; [exact A1|rewrite V1; lra]).
    split; [exact (trig_zero 17)|]. split; [exact (trig_zero 17)|]. split; [exact (proj1 UW)|]. split; [exact (proj1 UH)|]. split; [exact NW|]. split; [exact NH|].
    split; [exact P1|]. do 4 eexists. split; [reflexivity|]. split; [exact (trig_zero 17)|]. split; [exact (trig_zero 17)|]. split; [exact A3|]. split; [exact A2|].
    split; [exact S1|exact S2].
  - split; [now apply turn_page|]. split; [apply (ProofsTree.one_outline (meant trigO exactQ)); exact turn_meant|].
    split; [intros o a Ho Ha; pose proof (turn_points o a Ho Ha); lia|]. split; [now apply turn_turned|]. split; [exact turn_spells|].
    unfold image. cbv zeta. rewrite (proj1 turn_scale), (proj2 turn_scale). change (value64 (fnum T 0)) with 0. change (value64 (bX trig_box)) with 0. change (value64 (bY trig_box)) with 0.
    unfold moves_list, turn_funs. cbn [fold_right moves turn fst snd]. unfold turn. cbn [fst snd]. replace (rad 45) with (PI / 4) by (unfold rad; lra). rewrite cos_PI4, sin_PI4.
    assert (Hq : sqrt 2 * sqrt 2 = 2) by (apply sqrt_sqrt; lra). assert (sqrt 2 <> 0) by (intros Hz; rewrite Hz in Hq; lra).
    assert (Hi : 1 / sqrt 2 = sqrt 2 / 2) by (apply (Rmult_eq_reg_r (sqrt 2)); [|assumption]; unfold Rdiv; rewrite Rmult_assoc, Rinv_l by assumption; lra). rewrite Hi. f_equal; lra.
Qed.

(** * PropertiesPlane: the points of a figure on the page (C67) *)
From Coq Require Import ZArith Lia Reals Lra Floats.SpecFloat.
From Flocq Require Import Core.Core.
From Verif Require Import F64 RealEnv SpecArc SpecClose SpecMeasure SpecPlane ExTree PropertiesShape PropertiesStyle PropertiesTree PropertiesRead ProofsFlocq ProofsClose ProofsMatrix ProofsMeasure ProofsLand ProofsCurve ProofsPage ProofsTurn ProofsTurn2 ProofsOval ProofsPlane PropertiesMeasure PropertiesLand PropertiesCircle PropertiesPage PropertiesTurn.
Local Open Scope R_scope.

(** ** C67: what is drawn of a figure is the figure *)
(** In a document drawn into a rectangle, what rasterx gets to fill and to stroke for a figure, whatever its shapes, has a point near
    the image of every point of the figure, and no others, up to a sixteenth of two pixels and the size of a unit of the figure. The
    figure is the set of points that its text means, in exact arithmetic. With a transform as in C65, the image is the one SVG gives. *)
Theorem C67_rasterx : forall (O : Oracles) (Q : ROracles), fair_trig O -> reads_exactly Q -> name_table (F64 O) ->
  forall (fuel : nat) (mode : errorMode) (lenient : bool) (dep : nat) (ns : list node) (vb : bounds (F64 O)) (wd : world (F64 O)) (opts : list (renderOption (F64 O))) (x y w h : F (F64 O)),
  (dep <= fuel)%nat -> document (F64 O) (meant O Q) lenient dep ns vb wd -> (lenient = true -> mode <> StrictErrorMode) ->
  last_target opts = Some (x, y, w, h) -> sized_target O vb opts ->
  (forall f, List.In f (w_figs (F64 O) wd) -> page_fits O Q vb x y w h (turned O f) f) ->
  exists s log, parse (S fuel) mode (flat_map tokens ns) TermEOF = PSvg s None log
    /\ forall ext, exists ls, Forall2 (fun f l => rx_covers O Q vb x y w h f l /\ (square_page O vb x y w h -> rx_sits O Q vb x y w h f l)) (w_figs (F64 O) wd) ls /\ flat_map rx_trace (rxDrawSvg ext s opts) = concat ls.
Proof.
  intros O Q HF HQ HN fuel mode lenient dep ns vb wd opts x y w h H1 H2 H3 H4 H5 H6.
  destruct (C62_rasterx O Q (fair_zero _ HF) HQ HN fuel mode lenient dep ns vb wd opts x y w h H1 H2 H3 H4 H5 H6) as (s & log & Hp & Hr). exists s, log. split; [exact Hp|].
  intros ext. destruct (Hr ext) as (ls & Hl & Ht). exists ls. split; [|exact Ht]. revert Hl. apply all2_imp. intros f l Hf. split; [now apply rx_figure_covers|]. intros HS. now apply rx_figure_sits.
Qed.
Print Assumptions C67_rasterx.
(** So it is for draw2d, apart from the lines that close subpaths, *)
Theorem C67_draw2d : forall (O : Oracles) (Q : ROracles), fair_trig O -> reads_exactly Q -> name_table (F64 O) ->
  forall (fuel : nat) (mode : errorMode) (lenient : bool) (dep : nat) (ns : list node) (vb : bounds (F64 O)) (wd : world (F64 O)) (opts : list (renderOption (F64 O))) (x y w h : F (F64 O)),
  (dep <= fuel)%nat -> document (F64 O) (meant O Q) lenient dep ns vb wd -> (lenient = true -> mode <> StrictErrorMode) ->
  last_target opts = Some (x, y, w, h) -> sized_target O vb opts ->
  (forall f, List.In f (w_figs (F64 O) wd) -> page_fits O Q vb x y w h (turned O f) f) ->
  exists s log, parse (S fuel) mode (flat_map tokens ns) TermEOF = PSvg s None log
    /\ exists ls, Forall2 (fun f l => pen_covers O Q vb x y w h f l /\ (square_page O vb x y w h -> pen_sits O Q vb x y w h f l)) (w_figs (F64 O) wd) ls /\ flat_map d2_trace (d2DrawSvg s opts) = concat ls.
Proof.
  intros O Q HF HQ HN fuel mode lenient dep ns vb wd opts x y w h H1 H2 H3 H4 H5 H6.
  destruct (C62_draw2d O Q (fair_zero _ HF) HQ HN fuel mode lenient dep ns vb wd opts x y w h H1 H2 H3 H4 H5 H6) as (s & log & Hp & ls & Hl & Ht). exists s, log. split; [exact Hp|].
  exists ls. split; [|exact Ht]. revert Hl. apply all2_imp. intros f l Hf. split; [now apply pen_figure_covers|]. intros HS. now apply pen_figure_sits.
Qed.
Print Assumptions C67_draw2d.
(** and for gg, apart from these and from masks. *)
Theorem C67_gg : forall (O : Oracles) (Q : ROracles), fair_trig O -> reads_exactly Q -> name_table (F64 O) ->
  forall (fuel : nat) (mode : errorMode) (lenient : bool) (dep : nat) (ns : list node) (vb : bounds (F64 O)) (wd : world (F64 O)) (opts : list (renderOption (F64 O))) (x y w h : F (F64 O)),
  (dep <= fuel)%nat -> document (F64 O) (meant O Q) lenient dep ns vb wd -> (lenient = true -> mode <> StrictErrorMode) ->
  last_target opts = Some (x, y, w, h) -> sized_target O vb opts ->
  (forall f, List.In f (w_figs (F64 O) wd) -> page_fits O Q vb x y w h (turned O f) f) ->
  (forall f id m g, List.In f (w_figs (F64 O) wd) -> w_masks (F64 O) wd id = Some m -> List.In g (snd m) -> page_fits O Q vb x y w h (turned O f) g) ->
  exists s log, parse (S fuel) mode (flat_map tokens ns) TermEOF = PSvg s None log
    /\ forall gfuel calls, ggDrawSvg gfuel s opts = Ret calls ->
       exists ls, Forall2 (fun f l => pen_covers O Q vb x y w h f l /\ (square_page O vb x y w h -> pen_sits O Q vb x y w h f l)) (w_figs (F64 O) wd) ls /\ flat_map gg_trace calls = concat ls.
Proof.
  intros O Q HF HQ HN fuel mode lenient dep ns vb wd opts x y w h H1 H2 H3 H4 H5 H6 H7.
  destruct (C62_gg O Q (fair_zero _ HF) HQ HN fuel mode lenient dep ns vb wd opts x y w h H1 H2 H3 H4 H5 H6 H7) as (s & log & Hp & Hg). exists s, log. split; [exact Hp|].
  intros gfuel calls Hc. pose proof (Hg gfuel calls Hc) as K. inversion K as [tfs calls' ls Hl Ht _ E1 E2]. subst tfs calls'. exists ls. split; [|exact Ht].
  clear H2 H7 Ht K Hg. revert ls Hl. generalize (w_figs (F64 O) wd). intros fs. induction fs as [|f fs IH]; intros l Hl; inversion Hl as [|a b c d Hf Hr]; subst; constructor; [|exact (IH _ Hr)].
  split; [now apply pen_figure_covers|]. intros HS. now apply pen_figure_sits.
Qed.
Print Assumptions C67_gg.

(** the path m.1.2l.3.3-1e-2,7q1 1 2 .5t.1 0z under translate(10 20) scale(2) rotate(45), drawn twice as large as the view box *)
Definition bent_attrs : list attr := [mkAttr "d" tenths_text; mkAttr "transform" turn_text].
Definition bent_fig (fs : list (tfun T)) : figure T := mkFig T [(origin T, "path"%string, bent_attrs)] (put_part Transform (fold_left (tfun_apply T) (rev fs) identity) defaultStyle).
Definition bent : list bow := map (bow_cmd exactQ (0, 0)) (longhand (RealEnv exactQ) (pen0 (RealEnv exactQ)) tenths).
Lemma bent_plan : plan_of exactQ (ex_bounds trigO exactQ trig_box) (value64 (fst (origin T)), value64 (snd (origin T))) "path" bent_attrs (Strokes bent).
Proof.
  apply (po_path exactQ _ (0, 0) bent_attrs tenths_text); [exists [], [mkAttr "transform" turn_text]; repeat split; reflexivity|exact tenths_spell|reflexivity|exact tenths_small|reflexivity].
Qed.
Lemma bent_small : coords_upto exactQ 100 tenths.
Proof.
  intros c v Hc Hv. unfold tenths in Hc. cbn [longhand longhand_of each app exec many line hline vline quad smooth_quad cubic smooth_cubic fst snd absolute at_ from last_ctrl mirror pen0] in Hc. rewrite ?fnum_real in Hc. cbn [fadd fsub fmul RealEnv List.In] in Hc.
  repeat (destruct Hc as [<-|Hc]; [cbn [args flat_map p1 p2 app fst snd List.In] in Hv; repeat (destruct Hv as [<-|Hv]; [apply Rabs_le; unfold mirror; cbn [fst snd fadd fsub fmul RealEnv]; rewrite ?fnum_real; lra|]); contradiction|]). contradiction.
Qed.
Lemma bent_points o a : List.In o (draws (RealEnv exactQ) (0, 0) tenths) -> List.In a (op_points o) -> (Z.abs (fst a) <= 12800 /\ Z.abs (snd a) <= 12800)%Z.
Proof.
  intros Ho Ha. assert (P : forall p : R * R, Rabs (fst p) <= 100 -> Rabs (snd p) <= 100 -> (Z.abs (fst (dot (RealEnv exactQ) (0, 0)%R p)) <= 12800 /\ Z.abs (snd (dot (RealEnv exactQ) (0, 0)%R p)) <= 12800)%Z).
  { intros p H1 H2. unfold dot. cbn [fst snd f_to_i32 fadd fmul RealEnv]. rewrite !fnum_real.
    assert (K : forall r, Rabs r <= 200 -> (Z.abs (wrap32 (Ztrunc (r * 64))) <= 12800)%Z).
    { intros r Hr. assert (H : (Z.abs (Ztrunc (r * 64)) <= 12800)%Z) by (apply trunc_upto; rewrite Rabs_mult, (Rabs_pos_eq 64) by lra; lra). rewrite wrap32_id; [exact H|]. unfold int32. lia. }
    split; apply K; rewrite Rplus_0_r; [apply Rle_trans with (1 := H1)|apply Rle_trans with (1 := H2)]; lra. }
  unfold draws in Ho. rewrite <- (ProofsLong.longhand_same (E := RealEnv exactQ) (0, 0) tenths (pen0 (RealEnv exactQ))) in Ho.
  pose proof bent_small as B. unfold coords_upto in B. pose proof (ProofsLong.longhand_long (E := RealEnv exactQ) tenths (pen0 (RealEnv exactQ))) as L.
  set (cs := longhand (RealEnv exactQ) (pen0 (RealEnv exactQ)) tenths) in *. clearbody cs. revert Ho B L. generalize (pen0 (RealEnv exactQ)). unfold run.
  induction cs as [|c cs IH]; intros s Ho B L; [destruct Ho|]. cbn [forallb] in L. apply Bool.andb_true_iff in L as [Lc L].
  assert (S : exists s1 o1, exec (RealEnv exactQ) (0, 0) s c = (s1, [o1]) /\ (forall b, List.In b (op_points o1) -> (Z.abs (fst b) <= 12800 /\ Z.abs (snd b) <= 12800)%Z)).
  { pose proof (fun v => B c v (or_introl eq_refl)) as Hv. destruct c as [rel p ps|rel p ps|rel p ps|rel p ps|rel p ps|rel p ps|rel p ps|rel p ps|]; cbn [long_cmd] in Lc; try (destruct rel; [discriminate|]); try (destruct ps; [|discriminate]); try discriminate.
    - do 2 eexists. split; [reflexivity|]. intros b [<-|[]]. apply P; apply Hv; cbn; auto.
    - do 2 eexists. split; [reflexivity|]. intros b [<-|[]]. apply P; apply Hv; cbn; auto.
    - do 2 eexists. split; [reflexivity|]. intros b [<-|[<-|[]]]; apply P; apply Hv; cbn; auto.
    - destruct p as [[p1 p2] p3]. do 2 eexists. split; [reflexivity|]. intros b [<-|[<-|[<-|[]]]]; apply P; apply Hv; cbn; auto 10.
    - do 2 eexists. split; [reflexivity|]. intros b []. }
  destruct S as (s1 & o1 & E & Hb). cbn [many] in Ho. rewrite E in Ho. specialize (IH s1). destruct (many (RealEnv exactQ) (exec (RealEnv exactQ) (0, 0)) s1 cs) as [s2 o2]. cbn [snd app] in Ho, IH. destruct Ho as [<-|Ho]; [now apply Hb|].
  apply IH; [exact Ho|intros c' v Hi; apply B; now right|exact L].
Qed.
Lemma bent_meant : meant trigO exactQ trig_box (origin T) "path" bent_attrs (draws (RealEnv exactQ) (0, 0) tenths).
Proof.
  split; [exact (proj1 box_upto)|]. split; [exact at_origin|]. left. apply (xs_path exactQ _ (0, 0) bent_attrs tenths_text); [exists [], [mkAttr "transform" turn_text]; repeat split; reflexivity|exact tenths_spell|reflexivity|exact tenths_small|reflexivity].
Qed.
Lemma bent_turned fs : transform_text T turn_text fs -> turned_by trigO turn_text (bent_fig fs).
Proof. intros H. exists fs. split; [exact H|reflexivity]. Qed.
Lemma bent_page fs : transform_text T turn_text fs -> page_fits trigO exactQ trig_box (fnum T 0) (fnum T 0) (fnum T 400) (fnum T 200) (turned trigO (bent_fig fs)) (bent_fig fs).
Proof.
  intros Ht. pose proof (bent_turned fs Ht) as Hv. pose proof turn_spells as Hs.
  destruct (turned_near trigO exactQ trigO_fair exactQ_reads trig_box (fnum T 400) turn_text (bent_fig fs) turn_funs Hv Hs) as (m' & ((N1 & N2 & N3 & N4 & N5 & N6) & (U1 & U2 & U3 & U4 & U5 & U6)) & Hm).
  rewrite turn_growth in *. cbn [List.length turn_funs INR] in *.
  assert (K : forall n (a : F T) (b : F (RealEnv exactQ)), (10 <= n)%nat -> num_near trigO exactQ ((1 + 1 + 1) / 2 ^ 37 * 126) a b -> Rabs b <= 126 -> upto trigO n a).
  { intros n a b Hn [F1 H1] H2. split; [exact F1|]. apply Rle_trans with (2 ^ 10); [|apply Rle_pow; [lra|lia]]. pose proof (Rabs_triang (value64 a - b) b) as Q1. replace (value64 a - b + b) with (value64 a) in Q1 by ring. lra. }
  split.
  - split; [exact (K 10%nat _ _ ltac:(lia) N1 U1)|]. split; [exact (K 10%nat _ _ ltac:(lia) N2 U2)|]. split; [exact (K 10%nat _ _ ltac:(lia) N3 U3)|]. split; [exact (K 10%nat _ _ ltac:(lia) N4 U4)|]. split; [exact (K 17%nat _ _ ltac:(lia) N5 U5)|exact (K 17%nat _ _ ltac:(lia) N6 U6)].
  - exists (draws (RealEnv exactQ) (0, 0) tenths). split; [apply (ProofsTree.one_outline (meant trigO exactQ)); exact bent_meant|]. intros o a Ho Ha. pose proof (bent_points o a Ho Ha) as [P1 P2]. split; [lia|].
    apply IZR_le in P1, P2. rewrite <- Rabs_Zabs in P1, P2. unfold on_page.
    assert (B1 : Rabs (IZR (fst a) / 64) <= 200) by (unfold Rdiv; rewrite Rabs_mult, (Rabs_pos_eq (/ 64)) by lra; lra). assert (B2 : Rabs (IZR (snd a) / 64) <= 200) by (unfold Rdiv; rewrite Rabs_mult, (Rabs_pos_eq (/ 64)) by lra; lra).
    set (p := (IZR (fst a) / 64, IZR (snd a) / 64)) in *.
    destruct (turned_place trigO exactQ trigO_fair exactQ_reads trig_box (fnum T 0) (fnum T 0) (fnum T 400) (fnum T 200) turn_square turn_text (bent_fig fs) turn_funs p Hv Hs) as [[Q1 _] [Q2 _]]; [cbn [fst p]; lra|cbn [snd p]; lra|].
    assert (I : Rabs (fst (image trigO exactQ trig_box (fnum T 0) (fnum T 0) (fnum T 400) (fnum T 200) turn_funs p)) <= 2 ^ 20 /\ Rabs (snd (image trigO exactQ trig_box (fnum T 0) (fnum T 0) (fnum T 400) (fnum T 200) turn_funs p)) <= 2 ^ 20).
    { unfold image. cbv zeta. cbn [fst snd]. rewrite (proj1 turn_scale), (proj2 turn_scale), <- Hm. change (value64 (fnum T 0)) with 0. change (value64 (bX trig_box)) with 0. change (value64 (bY trig_box)) with 0. unfold maps. cbn [fst snd].
      assert (M : forall e f g, Rabs e <= 126 -> Rabs f <= 126 -> Rabs g <= 126 -> Rabs (0 + (e * fst p + f * snd p + g - 0) * 2) <= 2 ^ 20).
      { intros e f g He Hf Hg. replace (0 + (e * fst p + f * snd p + g - 0) * 2) with (2 * (e * fst p + (f * snd p + g))) by ring. rewrite Rabs_mult, (Rabs_pos_eq 2) by lra.
        pose proof (Rabs_triang (e * fst p) (f * snd p + g)). pose proof (Rabs_triang (f * snd p) g).
        assert (W : forall i j, Rabs i <= 126 -> Rabs j <= 200 -> Rabs (i * j) <= 126 * 200) by (intros; rewrite Rabs_mult; apply Rmult_le_compat; try apply Rabs_pos; assumption).
        pose proof (W e (fst p) He B1). pose proof (W f (snd p) Hf B2). lra. }
      split; apply M; assumption. }
    destruct I as [I1 I2]. split.
    + apply Rabs_le. apply Rabs_le_inv in Q1, I1. lra.
    + apply Rabs_le. apply Rabs_le_inv in Q2, I2. lra.
Qed.
Example C67_example : fair_trig trigO /\ reads_exactly exactQ /\ name_table T /\ exists fs wd,
  document T (meant trigO exactQ) false 0 [Elem "svg" [mkAttr "viewBox" "0 0 200 100"] [Elem "path" bent_attrs []]] trig_box wd
  /\ last_target turn_opts = Some (fnum T 0, fnum T 0, fnum T 400, fnum T 200) /\ sized_target trigO trig_box turn_opts
  /\ square_page trigO trig_box (fnum T 0) (fnum T 0) (fnum T 400) (fnum T 200)
  /\ w_figs T wd = [bent_fig fs]
  /\ page_fits trigO exactQ trig_box (fnum T 0) (fnum T 0) (fnum T 400) (fnum T 200) (turned trigO (bent_fig fs)) (bent_fig fs)
  /\ plan trigO exactQ trig_box (bent_fig fs) [Strokes bent] /\ Forall near_course [Strokes bent]
  /\ turned_by trigO turn_text (bent_fig fs) /\ spells_turn trigO exactQ trig_box (fnum T 400) turn_text turn_funs
  /\ points_of (Strokes bent) (2 / 10, 3 / 10).
Proof.
  destruct C65_example as (E1 & E2 & E3 & _ & _ & _ & E4 & E5 & E6 & _ & _ & _ & _ & _ & E7 & _).
  destruct turn_reads64 as [fs Hfs]. split; [exact E1|]. split; [exact E2|]. split; [exact E3|]. exists fs. eexists. split.
  { exists [], [mkAttr "viewBox" "0 0 200 100"], [Elem "path" bent_attrs []], [], defaultStyle. eexists _, _. split; [reflexivity|]. split; [reflexivity|]. split; [reflexivity|].
    split; [plain_style|]. split; [exact trig_view|].
    eapply sems_cons; [|apply sems_nil]. eapply (sem_shape _ _ _ _ _ _ _ _ _ (put_part Transform (fold_left (tfun_apply T) (rev fs) identity) defaultStyle)); [| |apply sems_nil].
    - exists [("transform"%string, turn_text)]. split.
      + do 1 (apply (ads_cons _ [] _ [("transform"%string, turn_text)]); [apply ad_skip; reflexivity|]). apply (ads_cons _ [("transform"%string, turn_text)] [] []); [|apply ads_nil].
        apply (ad_pres "transform" "transform" turn_text turn_text); [discriminate| | |reflexivity|reflexivity]; exists ""%string, ""%string; repeat split; reflexivity.
      + eapply decls_cons; [apply decl_transform; exact Hfs|apply decls_nil].
    - eexists. split; [apply (ProofsTree.one_outline (meant trigO exactQ)); exact bent_meant|reflexivity]. }
  split; [exact E4|]. split; [exact E5|]. split; [exact E6|]. split; [reflexivity|]. split; [now apply bent_page|]. split; [|split; [|split; [now apply bent_turned|split; [exact E7|]]]].
  - econstructor; [|exact bent_plan|constructor]. split; [exact (proj1 box_upto)|exact at_origin].
  - constructor; [|constructor]. cbn [near_course]. unfold bent. pose proof bent_small as B. unfold coords_upto in B. pose proof (ProofsLong.longhand_long (E := RealEnv exactQ) tenths (pen0 (RealEnv exactQ))) as L.
    revert B L. generalize (longhand (RealEnv exactQ) (pen0 (RealEnv exactQ)) tenths). intros cs. induction cs as [|c cs IH]; intros B L; constructor.
    + cbn [forallb] in L. apply Bool.andb_true_iff in L as [Lc L]. pose proof (fun v => B c v (or_introl eq_refl)) as Hv.
      assert (P : forall p : R * R, Rabs (fst p) <= 100 -> Rabs (snd p) <= 100 -> near_pt (shifted (0, 0) p)) by (intros p P1 P2; unfold near_pt, shifted; cbn [fst snd]; rewrite !Rplus_0_r; lra).
      destruct c as [rel p ps|rel p ps|rel p ps|rel p ps|rel p ps|rel p ps|rel p ps|rel p ps|]; cbn [long_cmd] in Lc; try (destruct rel; [discriminate|]); try (destruct ps; [|discriminate]); try discriminate; cbn [bow_cmd near_bow].
      * apply P; apply Hv; cbn; auto.
      * apply P; apply Hv; cbn; auto.
      * split; apply P; apply Hv; cbn; auto.
      * destruct p as [[p1 p2] p3]. cbn [fst snd]. split; [|split]; apply P; apply Hv; cbn; auto 10.
      * exact I.
    + apply IH; [intros c' v Hi; apply B; now right|]. cbn [forallb] in L. now apply Bool.andb_true_iff in L as [_ L].
  - cbn [points_of]. unfold bent, tenths. cbn [longhand longhand_of each app exec many line hline vline quad smooth_quad cubic smooth_cubic fst snd absolute at_ from last_ctrl mirror pen0 map bow_cmd]. unfold shifted. cbn [fst snd fadd fsub fmul RealEnv]. rewrite ?fnum_real.
    apply rt_after_move. eapply eq_ind; [apply (rt_line _ _ _ _ (1 / 3)); lra|]. cbn [fst snd]. unfold bezier1. f_equal; lra.
Qed.

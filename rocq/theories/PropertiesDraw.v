(** * PropertiesDraw: C34 (options), C35 (renderers), C36 (drawing does not panic or hang), C41 (stroke widths) *)
From Coq Require Import Reals Lra.
From Verif Require Import ExDraw ExPath.

(** ** C34: rendering options *)
(** the opacity is the last one given, or 1; the target matrix depends only on the last rectangle *)
Theorem C34_last : forall (E : Env) (s : svg E) (opts opts' : list (renderOption E)),
  ro_opacity (options s opts) = match last_opacity opts with Some o => o | None => fnum E 1 end
  /\ (last_target opts = last_target opts' -> ro_target (options s opts) = ro_target (options s opts')).
Proof. exact @options_determined. Qed.
Print Assumptions C34_last.
Example C34_last_example : forall (E : Env) (a b x : F E),
  last_opacity [Opacity a; Target x x x x; Opacity b; Target a a a a] = Some b
  /\ last_target [Opacity a; Target x x x x; Opacity b; Target a b a b; Opacity x] = Some (a, b, a, b).
Proof. split; reflexivity. Qed.
(** With exact arithmetic, Target(x, y, w, h) maps the view box onto that rectangle exactly when the
    rectangle starts at 0 or keeps the size of the view box, in each coordinate (missing: the other
    rectangles, for which it is false). *)
Theorem C34_target_partial : forall (O : ROracles) (s : svg (RealEnv O)) opts (x y w h : R),
  last_target opts = Some ((x, y, w, h) : F (RealEnv O) * F (RealEnv O) * F (RealEnv O) * F (RealEnv O)) ->
  bW (sv_viewBox s) <> 0%R -> bH (sv_viewBox s) <> 0%R ->
  ((forall p, maps (ro_target (options s opts)) p = place (sv_viewBox s) x y w h p)
   <-> (x * (w - bW (sv_viewBox s)) = 0 /\ y * (h - bH (sv_viewBox s)) = 0)%R).
Proof. exact @target_iff. Qed.
Print Assumptions C34_target_partial.
(** refuted: the rectangle (10, 0, 2, 2) for the view box (0, 0, 1, 1) starts at 20 *)
Theorem C34_target_refuted : forall (O : ROracles) (s : svg (RealEnv O)), sv_viewBox s = mkB (E := RealEnv O) 0%R 0%R 1%R 1%R ->
  maps (ro_target (options s [Target (E := RealEnv O) 10%R 0%R 2%R 2%R])) (0, 0)%R = (20, 0)%R
  /\ place (sv_viewBox s) 10%R 0%R 2%R 2%R (0, 0)%R = (10, 0)%R.
Proof. exact @target_wrong. Qed.
Print Assumptions C34_target_refuted.
(** What is drawn: the renderers use Transform.Mult(Target).  With view box and rectangle at the
    origin and the same factor in both directions this is the path's transform and then the target,
    for every transform. *)
Theorem C34_drawn_partial : forall (O : ROracles) (s : svg (RealEnv O)) (opts : list (renderOption (RealEnv O))) (w h : R) (t : matrix (RealEnv O)),
  let vb := sv_viewBox s in
  last_target opts = Some ((0, 0, w, h)%R : F (RealEnv O) * F (RealEnv O) * F (RealEnv O) * F (RealEnv O)) ->
  bX vb = 0%R -> bY vb = 0%R -> bW vb <> 0%R -> bH vb <> 0%R -> (w / bW vb = h / bH vb)%R ->
  forall p, maps (mMult t (ro_target (options s opts))) p = place vb 0%R 0%R w h (maps t p).
Proof. exact @drawn_uniform. Qed.
Print Assumptions C34_drawn_partial.
Example C34_drawn_example : forall (O : ROracles) (s : svg (RealEnv O)), sv_viewBox s = mkB (E := RealEnv O) 0%R 0%R 8%R 6%R ->
  maps (mMult (mkM (E := RealEnv O) 0%R 1%R (-1)%R 0%R 3%R 0%R) (ro_target (options s [Target (E := RealEnv O) 0%R 0%R 16%R 12%R]))) (2, 1)%R = (4, 4)%R.
Proof.
  intros O s Hs. rewrite (C34_drawn_partial O s _ 16%R 12%R); [|reflexivity|rewrite Hs; cbn; lra..].
  rewrite Hs. unfold place, maps. cbn. f_equal; lra.
Qed.
(** in general: exactly when the condition below holds *)
Theorem C34_drawn_iff_partial : forall (O : ROracles) (t : matrix (RealEnv O)) (vb : bounds (RealEnv O)) (x y w h : R),
  let sw := (w / bW vb)%R in let sh := (h / bH vb)%R in let e := ((x - bX vb) * sw)%R in let f := ((y - bY vb) * sh)%R in
  ((forall p, maps (mMult t (target vb x y w h)) p = maps (target vb x y w h) (maps t p))
   <-> (mB t * (sw - sh) = 0 /\ mC t * (sw - sh) = 0 /\ (mA t - 1) * e + mC t * f = 0 /\ mB t * e + (mD t - 1) * f = 0)%R).
Proof. exact @drawn_iff. Qed.
Print Assumptions C34_drawn_iff_partial.
(** refuted: without Target everything is drawn at the origin *)
Theorem C34_no_target_refuted : forall (O : ROracles) (s : svg (RealEnv O)) opts, last_target opts = None ->
  forall p, maps (ro_target (options s opts)) p = (0, 0)%R.
Proof. exact @no_target. Qed.
Print Assumptions C34_no_target_refuted.

(** ** C41: stroke widths
    The factor applied to stroke widths, for a transform that turns by [a] and multiplies lengths by
    [k], is k cos(a): right only without rotation. *)
Theorem C41_width_partial : forall (O : ROracles) (k a e f : R),
  let m := mkM (E := RealEnv O) (k * cos a)%R (k * sin a)%R (- (k * sin a))%R (k * cos a)%R e f in
  (forall p q, let d u v := ((fst u - fst v) * (fst u - fst v) + (snd u - snd v) * (snd u - snd v))%R in d (maps m p) (maps m q) = (k * k * d p q)%R)
  /\ lineWidthScale m = (k * cos a)%R.
Proof. exact @widen_similar. Qed.
Print Assumptions C41_width_partial.
(** refuted: after a quarter turn strokes have width 0 *)
Theorem C41_width_refuted : forall (O : ROracles) (e f : R),
  lineWidthScale (mkM (E := RealEnv O) (cos (PI / 2)) (sin (PI / 2)) (- sin (PI / 2))%R (cos (PI / 2)) e f) = 0%R.
Proof. exact @widen_quarter. Qed.
Print Assumptions C41_width_refuted.

(** ** C35: what the renderers paint *)
(** *** rasterx
    From any state of the context: the paths in order, each filled if it has a fill paint and then
    stroked if it has a stroke paint, with its own subpaths, paint, opacity and pen. The winding
    rule of a stroke is that of the last fill. *)
Theorem C35_rasterx : forall (E : Env) box (s : svg E) opts w pens q a cur,
  painted rx_step (mkRx w pens q a cur) (rxDrawSvg (fun cs => box (rx_area cs)) s opts) = rx_all box (options s opts) w (sv_paths s).
Proof. exact @rx_draws. Qed.
Print Assumptions C35_rasterx.
(** with the non-zero rule everywhere strokes are painted as they should, and no path affects another
    (missing: even-odd fills, which change the rule of the strokes after them; dashes and masks) *)
Theorem C35_rasterx_partial : forall (E : Env) box (s : svg E) opts pens q a cur,
  Forall (fun sp => st_nonZero (sp_style sp) = true) (sv_paths s) ->
  painted rx_step (mkRx true pens q a cur) (rxDrawSvg (fun cs => box (rx_area cs)) s opts)
  = flat_map (rx_items box (options s opts) true) (sv_paths s).
Proof. exact @rx_draws_nonzero. Qed.
Print Assumptions C35_rasterx_partial.

Example C35_rasterx_example : forall (E : Env),
  let s := demo_svg E [mkSvgPath (tri_path 5 ++ open_path 7) (demo_style E true (red E) (blue E) no_slice);
                       mkSvgPath (open_path 9) (demo_style E true None (red E) no_slice)] [] [] in
  Forall (fun sp => st_nonZero (sp_style sp) = true) (sv_paths s)
  /\ List.length (flat_map (rx_items (fun _ => (0, 0, 0, 0)%Z) (options s []) true) (sv_paths s)) = 3.
Proof. intros E s. split; [repeat constructor|reflexivity]. Qed.
(** refuted: the stroke of a path filled with the even-odd rule is painted with that rule, and so are
    the strokes of later paths *)
Theorem C35_rasterx_rule_refuted : forall (E : Env) box opts pens q a cur, exists s : svg E,
  map (i_nonZero (E := E)) (painted rx_step (mkRx true pens q a cur) (rxDrawSvg (fun cs => box (rx_area cs)) s opts))
    = [false; false; false]
  /\ map (fun sp => st_nonZero (sp_style sp)) (sv_paths s) = [false; true].
Proof.
  exact (fun E box opts pens q a cur =>
    let s := demo_svg E [mkSvgPath (tri_path 5) (demo_style E false (red E) (blue E) no_slice); mkSvgPath (tri_path 7) (demo_style E true None (blue E) no_slice)] [] [] in
    ex_intro _ s (conj (eq_trans (f_equal (map (i_nonZero (E := E))) (C35_rasterx E box s opts true pens q a cur)) eq_refl) eq_refl)).
Qed.
Print Assumptions C35_rasterx_rule_refuted.
(** refuted: rasterx ignores dashes and masks, draw2d ignores masks *)
Theorem C35_ignored_refuted : forall (E : Env) (s : svg E) opts ext (dash : list (F E)) off masks,
  let no_masks sp := mkSvgPath (sp_path sp) (put_part MaskList masks (sp_style sp)) in
  let no_dash sp := mkSvgPath (sp_path sp) (put_part DashArray dash (put_part DashOffset off (sp_style sp))) in
  let redo f s := mkSvg (sv_viewBox s) (sv_titles s) (sv_descs s) (map f (sv_paths s)) (sv_transform s) (sv_masks s) (sv_width s) (sv_height s) (sv_grads s) (sv_defs s) (sv_mheap s) in
  rxDrawSvg ext (redo no_dash s) opts = rxDrawSvg ext s opts
  /\ rxDrawSvg ext (redo no_masks s) opts = rxDrawSvg ext s opts
  /\ d2DrawSvg (redo no_masks s) opts = d2DrawSvg s opts.
Proof. exact @ignored. Qed.
Print Assumptions C35_ignored_refuted.

(** *** draw2d
    From any state of the context: the paths in order, each filled if it has a fill paint and then
    stroked if it has a stroke paint, with its own subpaths, colour, opacity, dashes and pen; for
    paths with one MoveTo and opaque plain colours (missing: several subpaths, which is false;
    gradients, which are painted with one colour; translucent colours). *)
Theorem C35_draw2d_partial : forall (E : Env) (s : svg E) opts s0,
  Forall (fun sp => one_move (sp_path sp) /\ plain_opaque (st_filler (sp_style sp)) /\ plain_opaque (st_liner (sp_style sp))) (sv_paths s) ->
  exists itemss, painted d2_step s0 (d2DrawSvg s opts) = concat itemss /\ Forall2 (d2_items (options s opts)) (sv_paths s) itemss.
Proof. exact @d2_draws_one. Qed.
Print Assumptions C35_draw2d_partial.
Example C35_draw2d_example : forall (E : Env),
  let s := demo_svg E [mkSvgPath (tri_path 5) (demo_style E false (red E) (blue E) no_slice); mkSvgPath (open_path 9) (demo_style E true None (red E) no_slice)] [] [] in
  Forall (fun sp => one_move (sp_path sp) /\ plain_opaque (st_filler (sp_style sp)) /\ plain_opaque (st_liner (sp_style sp))) (sv_paths s).
Proof.
  intros E s. repeat constructor; try (eexists; eexists; split; [reflexivity|reflexivity]); cbn; unfold byte; repeat split; try discriminate.
Qed.
(** refuted: of several subpaths only the last is painted *)
Theorem C35_draw2d_subpaths_refuted : forall (E : Env) opts (s0 : d2State (E := E)), exists (s : svg E) sp sub1 sub2 c,
  sv_paths s = [sp]
  /\ subpaths (moved_px (mMult (st_transform (sp_style sp)) (ro_target (options s opts)))) (sp_path sp) = [sub1; sub2]
  /\ painted d2_step s0 (d2DrawSvg s opts) = [D2Filled [sub2] true c].
Proof. exact @d2_loses. Qed.
Print Assumptions C35_draw2d_subpaths_refuted.

(** *** gg
    From any state of the context without a path: the paths in order, each filled if it has a fill
    paint or stroked if it has a stroke paint, limited by its last mask; for documents whose
    subpaths are closed before the next MoveTo, with opaque colours, no gradient on strokes, and
    paths either filled or stroked (missing: the other paths; see the refutations). *)
Theorem C35_gg_partial : forall (E : Env) (s : svg E) opts fuel calls st, neat_doc s -> clean st -> ggDrawSvg fuel s opts = Ret calls ->
  exists itemss, painted gg_step st calls = concat itemss
  /\ Forall2 (fun sp => gg_items s (mMult (st_transform (sp_style sp)) (ro_target (options s opts))) (ro_opacity (options s opts)) sp) (sv_paths s) itemss.
Proof. exact @gg_draws. Qed.
Print Assumptions C35_gg_partial.
Example C35_gg_example : forall (E : Env),
  let s := demo_svg E [mkSvgPath (tri_path 5 ++ open_path 7) (demo_style E false (red E) None (mkSl 0 1 1)); mkSvgPath (open_path 9) (demo_style E true None (red E) no_slice)]
     [("m", mkMask "m" (fnum E 0) (fnum E 0) (fnum E 0) (fnum E 0) [mkSvgPath (tri_path 3) (demo_style E true (blue E) None no_slice)] identity)]%string [["m"]]%string in
  neat_doc s /\ exists calls, ggDrawSvg 2 s [] = Ret calls.
Proof.
  intros E s. split; [|eexists; reflexivity]. intros p Hp.
  assert (Hp' : List.In p (sv_paths s ++ [mkSvgPath (tri_path 3) (demo_style E true (blue E) None no_slice)])).
  { destruct Hp as [Hp|(id & mk & Hg & Hp)]; apply in_or_app; [now left|]. cbn in Hg. destruct (String.eqb id "m"); [|discriminate]. injection Hg as <-. now right. }
  clear Hp. cbn in Hp'. repeat (destruct Hp' as [<-|Hp']; [cbn; unfold gg_neat, byte; cbn; unfold byte; repeat split; try discriminate; try congruence; eexists; eexists; reflexivity|]). destruct Hp'.
Qed.
(** refuted: a path with both paints is filled with the stroke colour *)
Theorem C35_gg_fill_refuted : forall (E : Env) m o st, clean st -> exists (sp : svgPath E) calls m1 m2 a1 a2 b1 p1 c,
  st_filler (sp_style sp) = red E /\ st_liner (sp_style sp) = blue E
  /\ ggDrawPath None sp m o = Ret calls
  /\ painted gg_step st calls = [GgFilled m1 a1 b1 (GgSolid c); GgStroked m2 a2 p1 (GgSolid c)].
Proof. exact @gg_fill_wrong. Qed.
Print Assumptions C35_gg_fill_refuted.
(** refuted: a path without paint is painted together with the next one *)
Theorem C35_gg_leak_refuted : forall (E : Env) m o st, clean st -> exists (sp1 sp2 : svgPath E) calls1 calls2 b p,
  st_filler (sp_style sp1) = None /\ st_liner (sp_style sp1) = None
  /\ ggDrawPath None sp1 m o = Ret calls1 /\ ggDrawPath None sp2 m o = Ret calls2
  /\ painted gg_step st (calls1 ++ calls2) = [GgFilled None (subpaths (moved_px m) (sp_path sp1 ++ sp_path sp2)) b p].
Proof. exact @gg_leaks. Qed.
Print Assumptions C35_gg_leak_refuted.
(** refuted: an open subpath is closed by the next MoveTo *)
Theorem C35_gg_open_refuted : forall (E : Env) m o st, clean st -> exists (sp : svgPath E) calls a b c p k,
  subpaths (moved_px m) (sp_path sp) = [mkSub a b false; c]
  /\ ggDrawPath None sp m o = Ret calls
  /\ painted gg_step st calls = [GgStroked None [mkSub a b true; c] p k].
Proof. exact @gg_closes. Qed.
Print Assumptions C35_gg_open_refuted.

(** ** C36: drawing parsed documents *)
(** gg: never a panic; it terminates when no mask leads back to itself *)
Theorem C36_gg_partial : forall (E : Env) fuel mode toks tm (s : svg E) err log fuel' opts, parse fuel mode toks tm = PSvg s err log ->
  ggDrawSvg fuel' s opts <> Panic
  /\ (masks_acyclic s -> List.length (sv_masks s) < fuel' -> exists calls, ggDrawSvg fuel' s opts = Ret calls).
Proof. exact @gg_parsed_calm. Qed.
Print Assumptions C36_gg_partial.
(** rasterx: gradients are handed over with five coordinates and a colour for each stop (draw2d is
    handed plain colours only) *)
Theorem C36_rasterx : forall (E : Env) fuel mode toks tm (s : svg E) err log ext opts, parse fuel mode toks tm = PSvg s err log ->
  forall t g o, List.In (RxSetColor t (RxGrad g o)) (rxDrawSvg ext s opts) ->
  Forall (fun x => stColor x <> None) (rg_stops g) /\ List.length (rg_points g) = 5.
Proof. exact @rx_parsed_complete'. Qed.
Print Assumptions C36_rasterx.
Definition C36_doc : node := Elem "svg" []
  [Elem "linearGradient" [mkAttr "id" "g"] [Elem "stop" [] []];
   Elem "mask" [mkAttr "id" "a"] [Elem "line" [mkAttr "x2" "5"; mkAttr "fill" "url(#g)"] []];
   Elem "line" [mkAttr "x2" "5"; mkAttr "mask" "url(#a)"] []]%string.
Definition flat_result (r : presult D) : bool := match r with PSvg s None _ => flat_masks s && (List.length (sv_masks s) =? 1) | _ => false end.
Lemma flat_result_ok r : flat_result r = true -> exists s log, r = PSvg s None log /\ masks_acyclic s /\ List.length (sv_masks s) = 1.
Proof.
  destruct r as [e|s [e|] log| |]; try discriminate. intros H. apply andb_prop in H as [H1 H2]. apply Nat.eqb_eq in H2. exists s, log. auto using flat_acyclic.
Qed.
Lemma doc_flat : flat_result (parse (E := D) 1 StrictErrorMode (tokens C36_doc) TermEOF) = true.
Proof. vm_compute. reflexivity. Qed.
Example C36_example : exists (s : svg D) log, parse 1 StrictErrorMode (tokens C36_doc) TermEOF = PSvg s None log
  /\ masks_acyclic s /\ List.length (sv_masks s) = 1 /\ forall opts, exists calls, ggDrawSvg 2 s opts = Ret calls.
Proof.
  destruct (flat_result_ok _ doc_flat) as (s & log & Hp & Ha & H2). exists s, log. split; [exact Hp|].
  split; [exact Ha|]. split; [exact H2|]. intros opts. apply (C36_gg_partial D _ _ _ _ _ _ _ 2 opts Hp); [exact Ha|]. rewrite H2. auto.
Qed.
(** refuted: a document with a path masked by the mask it belongs to is parsed, but gg does not end *)
Theorem C36_self_mask_refuted : exists (s : svg D) log, parse 1 StrictErrorMode (tokens C36_loop) TermEOF = PSvg s None log
  /\ forall fuel opts, ggDrawSvg fuel s opts = NoFuel.
Proof. exact gg_hangs. Qed.
Print Assumptions C36_self_mask_refuted.

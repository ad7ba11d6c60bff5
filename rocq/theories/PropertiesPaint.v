(** * PropertiesPaint: C35 (draw2d and gg, every document), C50 (the renderers agree) *)
From Verif Require Import ExPaint.

(** ** C35: exactly what draw2d and gg paint, for every document, every option and every state of the context *)
(** draw2d: each path with the part of its outline after the last MoveTo; gradients in one colour; a path
    without paints and without MoveTo is added to the next one *)
Theorem C35_draw2d : forall (E : Env) (s : svg E) opts s0 items,
  painted d2_step s0 (d2DrawSvg s opts) = items <-> d2_all (options s opts) (d_done s0, d_cur s0) (sv_paths s) items.
Proof. exact @d2_paints_iff. Qed.
Print Assumptions C35_draw2d.
(** a document with two subpaths, a translucent fill and a gradient on the stroke: the second subpath is painted *)
Example C35_draw2d_all_example : forall (E : Env) s0, exists a l c1 c2 c3 p,
  let area := [mkSub (Some a) l false] in
  painted d2_step s0 (d2DrawSvg (odd_svg E) []) = [D2Filled area true c1; D2Stroked area p c2; D2Filled c3 false (tone (CNRGBA 255 0 0 255) (fmul E (fnum E 1) (fnum E 1)))]
  /\ c1 = tone (CNRGBA 200 100 50 128) (fmul E (fnum E 1) (fnum E 1)) /\ c2 = tone (CRGBA 7 8 9 255) (fmul E (fnum E 1) (fnum E 1))
  /\ a = moved_px (mMult identity (ro_target (options (odd_svg E) []))) (6, 0)%Z /\ List.length l = 1.
Proof.
  intros E s0. destruct s0 as [rule f k [cap join width dash off] done cur]. do 6 eexists. split; [reflexivity|]. repeat split.
Qed.
(** gg: each path with its whole outline, open subpaths closed at the next MoveTo, after what earlier paths left; a
    fill has the colour of the stroke if there is one; limited by what the last mask shows *)
Theorem C35_gg : forall (E : Env) (s : svg E) opts fuel calls st items, ggDrawSvg fuel s opts = Ret calls ->
  (painted gg_step st calls = items <-> gg_all s (options s opts) (g_done st, g_cur st) (sv_paths s) items).
Proof. exact @gg_paints_iff. Qed.
Print Assumptions C35_gg.
(** the first path has no paint: its outline, closed, is painted with the second, twice in the colour of the stroke *)
Example C35_gg_all_example : forall (E : Env) st, g_done st = [] -> g_cur st = None -> exists calls c area p m last x,
  ggDrawSvg 2 (odd_svg E) [] = Ret calls
  /\ painted gg_step st calls = [GgFilled None area true (GgSolid c); GgStroked None area p (GgSolid c); GgFilled (Some [m]) last false (GgSolid x)]
  /\ map s_closed area = [true; true; false] /\ c = tone (CRGBA 7 8 9 255) (fmul E (fnum E 1) (fnum E 1)).
Proof.
  intros E st H1 H2. destruct st as [mk grule gf gk [gcap gjoin gwidth gdash goff] gdone gcur]. cbn in H1, H2. subst.
  do 7 eexists. split; [reflexivity|]. split; [reflexivity|]. split; reflexivity.
Qed.

(** ** C50: the renderers agree *)
(** each renderer shows the same marks in the same order, for documents with common styles whose paths have one
    MoveTo and one colour, without masks, and without strokes after even-odd fills (missing: the other documents,
    for which it is false) *)
Theorem C50_agree_partial : forall (E : Env) box (s : svg E) opts pens q a cur s0 st fuel, g_done st = [] -> g_cur st = None ->
  Forall (agreeable s) (sv_paths s) -> rules_fine true (sv_paths s) ->
  let marks := picture (options s opts) (sv_paths s) in
  Forall2 rx_like marks (painted rx_step (mkRx true pens q a cur) (rxDrawSvg (fun cs => box (rx_area cs)) s opts))
  /\ Forall2 d2_like marks (painted d2_step s0 (d2DrawSvg s opts))
  /\ exists calls, ggDrawSvg (S fuel) s opts = Ret calls /\ Forall2 gg_like marks (painted gg_step st calls).
Proof. exact @agree. Qed.
Print Assumptions C50_agree_partial.
Example C50_agree_example : forall E : Env,
  Forall (agreeable (agree_svg E)) (sv_paths (agree_svg E)) /\ rules_fine true (sv_paths (agree_svg E))
  /\ forall opts, List.length (picture (options (agree_svg E) opts) (sv_paths (agree_svg E))) = 4.
Proof. exact agree_svg_fine. Qed.
(** one by one, under weaker conditions: any outline and any two paints for rasterx; *)
Theorem C50_rasterx_partial : forall (E : Env) box (s : svg E) opts w pens q a cur,
  Forall (fun sp => common (sp_style sp)) (sv_paths s) -> rules_fine w (sv_paths s) ->
  Forall2 rx_like (picture (options s opts) (sv_paths s)) (painted rx_step (mkRx w pens q a cur) (rxDrawSvg (fun cs => box (rx_area cs)) s opts)).
Proof. exact @rx_shows_picture. Qed.
Print Assumptions C50_rasterx_partial.
(** any rules and any two paints for draw2d; *)
Theorem C50_draw2d_partial : forall (E : Env) (s : svg E) opts s0, Forall (fun sp => common (sp_style sp) /\ one_move (sp_path sp)) (sv_paths s) ->
  Forall2 d2_like (picture (options s opts) (sv_paths s)) (painted d2_step s0 (d2DrawSvg s opts)).
Proof. exact @d2_shows_picture. Qed.
Print Assumptions C50_draw2d_partial.
(** any rules, and outlines whose subpaths are closed before the next MoveTo, for gg *)
Theorem C50_gg_partial : forall (E : Env) (s : svg E) opts fuel st, g_done st = [] -> g_cur st = None ->
  Forall (fun sp => common (sp_style sp) /\ moves_closed true (sp_path sp) = true /\ one_colour (sp_style sp) /\ path_masks s sp = []) (sv_paths s) ->
  exists calls, ggDrawSvg (S fuel) s opts = Ret calls /\ Forall2 gg_like (picture (options s opts) (sv_paths s)) (painted gg_step st calls).
Proof. exact @gg_shows_picture. Qed.
Print Assumptions C50_gg_partial.
(** refuted: draw2d and gg stroke the same outline with different joins when the document asks for miter joins *)
Theorem C50_join_refuted : forall (E : Env) opts (s0 : d2State (E := E)) st fuel, g_done st = [] -> g_cur st = None ->
  exists area p q c k calls, painted d2_step s0 (d2DrawSvg (miter_svg E) opts) = [D2Stroked area p c]
  /\ ggDrawSvg (S fuel) (miter_svg E) opts = Ret calls /\ painted gg_step st calls = [GgStroked None area q k]
  /\ dp_join p = LjMiter /\ gp_join q = LjBevel.
Proof. exact @miter_differs. Qed.
Print Assumptions C50_join_refuted.

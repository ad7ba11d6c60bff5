(** * ProofsDraw: the renderers *)
From Coq Require Import Lia.
From Verif Require Export SpecDraw.
Section Run.
Context {St Call Item : Type} (step : St -> Call -> St * list Item).
Lemma run_app s a b : run step s (a ++ b) = let '(s1, i1) := run step s a in let '(s2, i2) := run step s1 b in (s2, i1 ++ i2).
Proof.
  revert s. induction a as [|c a IH]; intros s; cbn; [now destruct (run step s b)|]. destruct (step s c) as [s1 i1]. rewrite IH.
  destruct (run step s1 a) as [s2 i2], (run step s2 b) as [s3 i3]. now rewrite app_assoc.
Qed.
Lemma run_set s s1 c r : step s c = (s1, []) -> run step s (c :: r) = run step s1 r.
Proof. intros H. cbn. rewrite H. now destruct (run step s1 r). Qed.
End Run.

Section Rx.
Context {E : Env} (box : list (rxTag * sub pt) -> Z * Z * Z * Z).
Notation run := (run (rx_step (E := E))).
Lemma moved_fixed (m : matrix E) p : tFixed m p = moved m p. Proof. reflexivity. Qed.
(** drawing an outline *)
Definition rx_open (t : rxTarget) (tag : rxTag) (cur : open_sub pt) := match cur with None => None | Some x => Some (t, tag, x) end.
Notation tag_of pens t := (match t with Filler => Inside | Stroker => Along pens end).
Lemma rx_ops (m : matrix E) t w pens q ops : forall a cur,
  run (mkRx w pens q a (rx_open t (tag_of pens t) cur)) (flat_map (rxOp t m) ops ++ [RxStop t false])
  = (mkRx w pens q (a ++ map (pair (tag_of pens t)) (grouped (moved m) cur ops)) None, []).
Proof.
  induction ops as [|o ops IH]; intros a cur.
  - destruct cur as [[st l]|]; reflexivity.
  - cbn [flat_map]. rewrite <- app_assoc, run_app. unfold rxOp at 1.
    destruct o as [x|x|x y|x y z|]; cbn [mapOp grouped].
    + rewrite map_app, app_assoc, <- IH. destruct cur as [[st l]|], t; cbn; rewrite ?app_nil_r; destruct (SpecDraw.run _ _ _); reflexivity.
    + rewrite <- IH. destruct cur as [[st l]|], t; cbn; rewrite ?app_nil_r; destruct (SpecDraw.run _ _ _); reflexivity.
    + rewrite <- IH. destruct cur as [[st l]|], t; cbn; rewrite ?app_nil_r; destruct (SpecDraw.run _ _ _); reflexivity.
    + rewrite <- IH. destruct cur as [[st l]|], t; cbn; rewrite ?app_nil_r; destruct (SpecDraw.run _ _ _); reflexivity.
    + rewrite map_app, app_assoc. change None with (rx_open t (tag_of pens t) None) at 2. rewrite <- IH.
      destruct cur as [[st l]|], t; cbn; rewrite ?app_nil_r; destruct (SpecDraw.run _ _ _); reflexivity.
Qed.
Notation ext := (fun cs => box (rx_area cs)).
Lemma rx_paint_of area cs (p : pattern E) o : rx_area cs = area -> rxPaintOf ext cs p o = rx_paint box area p o.
Proof.
  intros H. destruct p as [r g b a|g]; [reflexivity|]. unfold rxPaintOf, rx_paint. rewrite H. destruct (box area) as [[[x0 y0] x1] y1].
  unfold toRasterxGradient, applyPathExtent. destruct g as [d st bo ma sp u]. destruct u, d as [[]|]; reflexivity.
Qed.
Lemma rx_pens_of (m : matrix E) st : let j := st_join st in
  mkPens (f_to_i32 E (fmul E (fmul E (st_lineWidth st) (fnum E 64)) (lineWidthScale m))) (jMiterLimit j)
    (rxLineCap (jLeadLineCap j) (rxLineCap (jTrailLineCap j) RxButt)) (rxLineCap (jTrailLineCap j) RxButt) (rxLineGap (jLineGap j)) (rxLineJoin (jLineJoin j)) = rx_pens m st.
Proof. destruct st as [? ? ? ? [ml lj tc lc lg]]. unfold rx_pens. cbn. destruct tc, lc, lg, lj; reflexivity. Qed.
Lemma rx_path opt sp w pens q a cur : exists pens' q' a',
  run (mkRx w pens q a cur) (rxDrawTransformed ext opt sp) = (mkRx (rule_after w sp) pens' q' a' (match st_filler (sp_style sp), st_liner (sp_style sp) with None, None => cur | _, _ => None end), rx_items box opt (rule_after w sp) sp).
Proof.
  unfold rxDrawTransformed, rx_items, rule_after. set (st := sp_style sp). set (m := mMult (st_transform st) (ro_target opt)).
  assert (HF : forall w pens q a cur p, exists q' a', run (mkRx w pens q a cur) (rxFill ext m opt sp p) = (mkRx (st_nonZero st) pens q' a' None,
     [mkRxItem (st_nonZero st) (map (pair Inside) (subpaths (moved m) (sp_path sp)))
        (Some (rx_paint box (map (pair Inside) (subpaths (moved m) (sp_path sp))) p (fmul E (st_fillOpacity st) (ro_opacity opt))))])).
  { clear. intros w pens q a cur p. unfold rxFill. fold st.
    assert (Hg : forall w pens q a cur, run (mkRx w pens q a cur) ([RxClear Filler; RxSetWinding (st_nonZero st)] ++ flat_map (rxOp Filler m) (sp_path sp) ++ [RxStop Filler false])
        = (mkRx (st_nonZero st) pens q (map (pair Inside) (subpaths (moved m) (sp_path sp))) None, [])).
    { clear. intros. pose proof (rx_ops m Filler (st_nonZero st) pens q (sp_path sp) [] None) as H. cbn [rx_open app] in H. cbn [app]. do 2 (erewrite run_set by reflexivity). exact H. }
    rewrite run_app, Hg, (rx_paint_of (map (pair Inside) (subpaths (moved m) (sp_path sp)))).
    - cbn. eauto.
    - unfold rx_area. rewrite Hg. cbn. apply app_nil_r. }
  assert (HS : forall w pens q a cur p, exists pens' q' a', run (mkRx w pens q a cur) (rxStrokeCalls ext m opt sp p) = (mkRx w pens' q' a' None,
     [mkRxItem w (map (pair (Along (Some (rx_pens m st)))) (subpaths (moved m) (sp_path sp)))
        (Some (rx_paint box (map (pair (Along (Some (rx_pens m st)))) (subpaths (moved m) (sp_path sp))) p (fmul E (st_lineOpacity st) (ro_opacity opt))))])).
  { clear. intros w pens q a cur p. unfold rxStrokeCalls. fold st. pose proof (rx_pens_of m st) as Hp. cbv zeta in Hp.
    match goal with |- context [[RxClear Stroker; ?x]] => set (setp := x) end.
    assert (Hg : forall w pens q a cur, run (mkRx w pens q a cur) ([RxClear Stroker; setp] ++ flat_map (rxOp Stroker m) (sp_path sp) ++ [RxStop Stroker false])
        = (mkRx w (Some (rx_pens m st)) q (map (pair (Along (Some (rx_pens m st)))) (subpaths (moved m) (sp_path sp))) None, [])).
    { intros w' pens' q' a' cur'. pose proof (rx_ops m Stroker w' (Some (rx_pens m st)) q' (sp_path sp) [] None) as H. cbn [rx_open app] in H.
      cbn [app]. do 2 (erewrite run_set by (subst setp; reflexivity)). rewrite Hp. exact H. }
    rewrite run_app, Hg, (rx_paint_of (map (pair (Along (Some (rx_pens m st)))) (subpaths (moved m) (sp_path sp)))).
    - cbn. eauto.
    - unfold rx_area. rewrite Hg. cbn. apply app_nil_r. }
  destruct (st_filler st) as [pf|], (st_liner st) as [pl|]; rewrite ?app_nil_r.
  - rewrite run_app. destruct (HF w pens q a cur pf) as (q1 & a1 & ->). destruct (HS (st_nonZero st) pens q1 a1 None pl) as (p2 & q2 & a2 & ->). cbn. eauto.
  - destruct (HF w pens q a cur pf) as (q1 & a1 & ->). eauto.
  - destruct (HS w pens q a cur pl) as (p2 & q2 & a2 & H). cbn [app]. rewrite H. eauto.
  - cbn. eauto.
Qed.
Theorem rx_draws (s : svg E) opts w pens q a cur :
  painted rx_step (mkRx w pens q a cur) (rxDrawSvg ext s opts) = rx_all box (options s opts) w (sv_paths s).
Proof.
  unfold rxDrawSvg, painted. generalize (options s opts) as opt. intros opt. revert w pens q a cur.
  induction (sv_paths s) as [|sp l IH]; intros w pens q a cur; [reflexivity|]. cbn [flat_map rx_all]. rewrite run_app.
  destruct (rx_path opt sp w pens q a cur) as (p1 & q1 & a1 & ->).
  specialize (IH (rule_after w sp) p1 q1 a1 (match st_filler (sp_style sp), st_liner (sp_style sp) with None, None => cur | _, _ => None end)).
  destruct (run _ _) as [s2 i2]. cbn [snd] in *. now rewrite IH.
Qed.
(** with non-zero winding everywhere *)
Theorem rx_draws_nonzero (s : svg E) opts pens q a cur : Forall (fun sp => st_nonZero (sp_style sp) = true) (sv_paths s) ->
  painted rx_step (mkRx true pens q a cur) (rxDrawSvg ext s opts) = flat_map (rx_items box (options s opts) true) (sv_paths s).
Proof.
  intros H. rewrite rx_draws. induction H as [|sp l Hs _ IH]; [reflexivity|]. cbn [rx_all flat_map].
  assert (rule_after true sp = true) as -> by (unfold rule_after; destruct (st_filler _); auto). now rewrite IH.
Qed.
End Rx.

(** ** Colours *)
Section Colour.
Context {E : Env}.
Lemma toColor_shade c (o : F E) : opaque c -> shade c o (toColor c o).
Proof.
  assert (B : forall z, byte z -> uint8 (z * 257 / 256) = z).
  { intros z Hz. unfold byte in Hz. unfold uint8. replace (z * 257 / 256)%Z with z; [apply Z.mod_small; lia|]. apply Z.div_unique with (r := z); lia. }
  assert (B' : forall z, byte z -> uint8 (z * 257 * 255 / 255 / 256) = z).
  { intros z Hz. rewrite Z.div_mul by lia. apply B, Hz. }
  destruct c as [r g b a|r g b a]; intros (Hr & Hg & Hb & ->); unfold toColor, colorRGBA.
  - rewrite !B' by assumption. now constructor.
  - rewrite !B by assumption. now constructor.
Qed.
Lemma px_of m p : toFloat (E := E) (tFixed m p) = moved_px m p. Proof. reflexivity. Qed.
End Colour.

Section D2.
Context {E : Env}.
Notation run := (run (d2_step (E := E))).
(** ops without a MoveTo *)
Lemma d2_ops (m : matrix E) rule f k p ops : existsb is_move ops = false -> forall done cur,
  exists done' cur', run (mkD2 rule f k p done cur) (flat_map (d2Op m) ops) = (mkD2 rule f k p done' cur', [])
  /\ done' ++ finish false cur' = done ++ grouped (moved_px m) cur ops.
Proof.
  destruct p as [cap join width dash off].
  induction ops as [|o ops IH]; intros Hm done cur.
  - exists done, cur. split; reflexivity.
  - cbn [existsb] in Hm. apply orb_false_elim in Hm. destruct Hm as [Ho Hm]. specialize (IH Hm). cbn [flat_map]. rewrite run_app. unfold d2Op at 1.
    destruct o as [x|x|x y|x y z|]; cbn [mapOp grouped]; rewrite ?px_of; try discriminate.
    + destruct (IH done (more cur (SLine (moved_px m x)))) as (d' & c' & H & <-). exists d', c'. cbn. rewrite H. auto.
    + destruct (IH done (more cur (SQuad (moved_px m x) (moved_px m y)))) as (d' & c' & H & <-). exists d', c'. cbn. rewrite H. auto.
    + destruct (IH done (more cur (SCube (moved_px m x) (moved_px m y) (moved_px m z)))) as (d' & c' & H & <-). exists d', c'. cbn. rewrite H. auto.
    + destruct (IH (done ++ finish true cur) None) as (d' & c' & H & H'). exists d', c'. cbn. rewrite H, H', app_assoc. auto.
Qed.
(** a MoveTo drops what came before *)
Lemma d2_from (m : matrix E) rule f k p pre x ops done cur : existsb is_move ops = false ->
  exists done' cur', run (mkD2 rule f k p done cur) (flat_map (d2Op m) (pre ++ OpMoveTo x :: ops)) = (mkD2 rule f k p done' cur', [])
  /\ done' ++ finish false cur' = subpaths (moved_px m) (OpMoveTo x :: ops).
Proof.
  intros Hm. rewrite flat_map_app, run_app.
  assert (Hp : forall done cur, exists done' cur', run (mkD2 rule f k p done cur) (flat_map (d2Op m) pre) = (mkD2 rule f k p done' cur', [])).
  { clear. induction pre as [|o pre IH]; intros done cur; [eexists; eexists; reflexivity|]. cbn [flat_map]. rewrite run_app. destruct p as [cap join width dash off].
    destruct o; cbn; match goal with |- context [SpecDraw.run d2_step (mkD2 _ _ _ _ ?d ?c)] => destruct (IH d c) as (d' & c' & H); rewrite H; eauto end. }
  destruct (Hp done cur) as (d1 & c1 & ->). cbn [flat_map]. rewrite run_app.
  destruct (d2_ops m rule f k p ops Hm [] (Some (Some (moved_px m x), []))) as (d' & c' & H & H'). exists d', c'. destruct p as [cap join width dash off]. unfold d2Op at 1. cbn [mapOp]. rewrite px_of. do 3 (erewrite run_set by reflexivity). cbn [SpecDraw.run app finish]. rewrite H. auto.
Qed.
(** the items of a path, its subpaths being replaced by [subs] *)
Definition d2_items' (opt : renderOptions E) (sp : svgPath E) (subs : list (sub (F E * F E))) (items : list d2Item) : Prop :=
  exists l1 l2, items = l1 ++ l2 /\ d2_fill opt (sp_style sp) subs l1 /\ d2_line opt (mMult (st_transform (sp_style sp)) (ro_target opt)) (sp_style sp) subs l2.
Lemma d2_path opt (sp : svgPath E) pre x ops rule f k p done cur :
  sp_path sp = pre ++ OpMoveTo x :: ops -> existsb is_move ops = false -> plain_opaque (st_filler (sp_style sp)) -> plain_opaque (st_liner (sp_style sp)) ->
  exists s' items, run (mkD2 rule f k p done cur) (d2DrawTransformed opt sp) = (s', items)
  /\ d2_items' opt sp (subpaths (moved_px (mMult (st_transform (sp_style sp)) (ro_target opt))) (OpMoveTo x :: ops)) items.
Proof.
  intros Hp Hm Hf Hl. unfold d2DrawTransformed. rewrite Hp. set (st := sp_style sp) in *. set (m := mMult _ _).
  destruct (st_filler st) as [[r1 g1 b1 a1|?]|] eqn:Ef; [|contradiction|]; (destruct (st_liner st) as [[r2 g2 b2 a2|?]|] eqn:El; [|contradiction|]); cbn [plain_opaque] in *;
    cbn [app]; rewrite ?run_app; destruct p as [cap join width dash off].
  - do 7 (erewrite run_set by reflexivity). rewrite run_app.
    match goal with |- context [SpecDraw.run d2_step (mkD2 ?a ?b ?c ?d ?e ?g)] => destruct (d2_from m a b c d pre x ops e g Hm) as (d' & c' & H & H') end. rewrite H.
    cbn. rewrite H'. eexists; eexists; split; [reflexivity|]. do 2 eexists. split; [|split].
    2:{ eapply df_plain; [exact Ef|]. exact (toColor_shade (CNRGBA r1 g1 b1 a1) (fmul E (st_fillOpacity st) (ro_opacity opt)) Hf). }
    2:{ eapply dl_plain; [exact El|]. exact (toColor_shade (CNRGBA r2 g2 b2 a2) (fmul E (st_lineOpacity st) (ro_opacity opt)) Hl). }
    reflexivity.
  - do 2 (erewrite run_set by reflexivity). rewrite run_app.
    match goal with |- context [SpecDraw.run d2_step (mkD2 ?a ?b ?c ?d ?e ?g)] => destruct (d2_from m a b c d pre x ops e g Hm) as (d' & c' & H & H') end. rewrite H.
    cbn. rewrite H'. eexists; eexists; split; [reflexivity|]. do 2 eexists. split; [|split].
    2:{ eapply df_plain; [exact Ef|]. exact (toColor_shade (CNRGBA r1 g1 b1 a1) (fmul E (st_fillOpacity st) (ro_opacity opt)) Hf). }
    2:{ apply dl_none, El. }
    reflexivity.
  - do 5 (erewrite run_set by reflexivity). rewrite run_app.
    match goal with |- context [SpecDraw.run d2_step (mkD2 ?a ?b ?c ?d ?e ?g)] => destruct (d2_from m a b c d pre x ops e g Hm) as (d' & c' & H & H') end. rewrite H.
    cbn. rewrite H'. eexists; eexists; split; [reflexivity|]. do 2 eexists. split; [|split].
    2:{ apply df_none, Ef. }
    2:{ eapply dl_plain; [exact El|]. exact (toColor_shade (CNRGBA r2 g2 b2 a2) (fmul E (st_lineOpacity st) (ro_opacity opt)) Hl). }
    reflexivity.
  - match goal with |- context [SpecDraw.run d2_step (mkD2 ?a ?b ?c ?d ?e ?g)] => destruct (d2_from m a b c d pre x ops e g Hm) as (d' & c' & H & H') end. rewrite H.
    cbn. eexists; eexists; split; [reflexivity|]. exists [], []. repeat split; [apply df_none, Ef|apply dl_none, El].
Qed.
(** in general: only what follows the last MoveTo of each path is painted *)
Theorem d2_draws (s : svg E) opts s0 (last : svgPath E -> path) :
  Forall (fun sp => (exists pre x ops, sp_path sp = pre ++ OpMoveTo x :: ops /\ existsb is_move ops = false /\ last sp = OpMoveTo x :: ops)
     /\ plain_opaque (st_filler (sp_style sp)) /\ plain_opaque (st_liner (sp_style sp))) (sv_paths s) ->
  exists itemss, painted d2_step s0 (d2DrawSvg s opts) = concat itemss
  /\ Forall2 (fun sp items => d2_items' (options s opts) sp (subpaths (moved_px (mMult (st_transform (sp_style sp)) (ro_target (options s opts)))) (last sp)) items) (sv_paths s) itemss.
Proof.
  unfold d2DrawSvg, painted. generalize (options s opts) as opt. intros opt H. revert s0.
  induction H as [|sp l ((pre & x & ops & Hp & Hm & Hlast) & Hf & Hl) _ IH]; intros s0; [exists []; split; [reflexivity|constructor]|].
  cbn [flat_map]. rewrite run_app. destruct s0 as [rule f k p done cur].
  destruct (d2_path opt sp pre x ops rule f k p done cur Hp Hm Hf Hl) as (s1 & items & -> & Hi). destruct (IH s1) as (itemss & Hq & Hr).
  exists (items :: itemss). destruct (run s1 _) as [s2 i2]. cbn [snd concat] in *. split; [now rewrite Hq|]. constructor; [|exact Hr]. now rewrite Hlast.
Qed.
Theorem d2_draws_one (s : svg E) opts s0 :
  Forall (fun sp => one_move (sp_path sp) /\ plain_opaque (st_filler (sp_style sp)) /\ plain_opaque (st_liner (sp_style sp))) (sv_paths s) ->
  exists itemss, painted d2_step s0 (d2DrawSvg s opts) = concat itemss /\ Forall2 (d2_items (options s opts)) (sv_paths s) itemss.
Proof.
  intros H. apply (d2_draws s opts s0 (fun sp => sp_path sp)). eapply Forall_impl; [|exact H]. intros sp ((a & r & Hp & Hm) & Hf & Hl). split; [|auto].
  exists [], a, r. auto.
Qed.
End D2.

Section Gg.
Context {E : Env}.
Notation run := (run (gg_step (E := E))).
Lemma gg_mask_step mask rule fill stroke pens done cur d :
  gg_step (mkGg mask rule fill stroke pens done cur) (GgSetMask d)
  = (mkGg (Some (painted (gg_step (E := E)) gg_new d)) rule fill stroke pens done cur, []).
Proof.
  destruct pens as [cap join width dash off]. cbn [gg_step]. unfold painted.
  assert (H : forall s, (fix go s l := match l with
                                      | [] => (s, [])
                                      | c :: r => let '(s1, i1) := gg_step s c in let '(s2, i2) := go s1 r in (s2, i1 ++ i2)
                                      end) s d = run s d).
  { induction d as [|c d IH]; intros s; [reflexivity|]. cbn [SpecDraw.run]. destruct (gg_step s c). now rewrite IH. }
  rewrite H. destruct (run gg_new d). reflexivity.
Qed.
Lemma gg_ops (m : matrix E) mask rule f k p ops : forall prev done cur, (prev = true -> cur = None) -> moves_closed prev ops = true ->
  exists done' cur', run (mkGg mask rule f k p done cur) (flat_map (ggOp m) ops) = (mkGg mask rule f k p done' cur', [])
  /\ done' ++ finish false cur' = done ++ grouped (moved_px m) cur ops.
Proof.
  destruct p as [cap join width dash off].
  induction ops as [|o ops IH]; intros prev done cur Hc Hm.
  - exists done, cur. split; reflexivity.
  - cbn [flat_map]. rewrite run_app. unfold ggOp at 1.
    destruct o as [x|x|x y|x y z|]; cbn [mapOp grouped moves_closed] in *; rewrite ?px_of; try discriminate.
    + apply andb_prop in Hm. destruct Hm as [-> Hm]. rewrite (Hc eq_refl) in *. cbn [finish app].
      destruct (IH false done (Some (Some (moved_px m x), [])) ltac:(discriminate) Hm) as (d' & c' & H & <-). exists d', c'.
      do 3 (erewrite run_set by reflexivity). cbn [SpecDraw.run app finish]. rewrite !app_nil_r, H. auto.
    + destruct (IH false done (more cur (SLine (moved_px m x))) ltac:(discriminate) Hm) as (d' & c' & H & <-). exists d', c'. cbn. rewrite H. auto.
    + destruct (IH false done (more cur (SQuad (moved_px m x) (moved_px m y))) ltac:(discriminate) Hm) as (d' & c' & H & <-). exists d', c'. cbn. rewrite H. auto.
    + destruct (IH false done (more cur (SCube (moved_px m x) (moved_px m y) (moved_px m z))) ltac:(discriminate) Hm) as (d' & c' & H & <-). exists d', c'. cbn. rewrite H. auto.
    + destruct (IH true (done ++ finish true cur) None ltac:(auto) Hm) as (d' & c' & H & H'). exists d', c'. cbn. rewrite H, H', app_assoc. auto.
Qed.
Lemma ggStops_ok (o : F E) l : Forall (fun s => exists c, stColor s = Some c /\ opaque c) l ->
  exists l', ggStops l o = Ret l' /\ Forall2 (gg_stop o) l l'.
Proof.
  induction 1 as [|[sc so sp] l (c & Hc & Ho) _ (l' & Hl & Hf)]; [exists []; split; [reflexivity|constructor]|].
  cbn in Hc. subst sc. cbn. rewrite Hl. eexists. split; [reflexivity|]. constructor; [|exact Hf]. constructor. now apply toColor_shade.
Qed.
Lemma ggGradient_ok g (o : F E) : opaque_paint (Some (PGrad g)) -> exists x, ggToGradient g o = Ret x /\ gg_paint (PGrad g) o (GgGrad x).
Proof.
  intros (Hd & Hs). destruct (ggStops_ok o (gStops g) Hs) as (l & Hl & Hf). unfold ggToGradient. destruct (gDirection g) as [[]|] eqn:Ed; [| |congruence]; rewrite Hl; eexists; (split; [reflexivity|]).
  - now constructor. - now constructor.
Qed.
Definition clean (s : ggState (E := E)) : Prop := g_done s = [] /\ g_cur s = None.
Lemma gg_path mask (sp : svgPath E) m o calls s : gg_neat sp -> clean s -> ggDrawPath mask sp m o = Ret calls ->
  exists s' l1 l2, run s calls = (s', l1 ++ l2) /\ clean s'
  /\ gg_fill (option_map (painted gg_step gg_new) mask) o (sp_style sp) (subpaths (moved_px m) (sp_path sp)) l1
  /\ gg_line (option_map (painted gg_step gg_new) mask) o m (sp_style sp) (subpaths (moved_px m) (sp_path sp)) l2.
Proof.
  intros ((x0 & r0 & Hb) & Hm & Hf & Hl & Hv) [Hd Hc] Hcalls. destruct s as [mk0 rule f k p done cur]. cbn in Hd, Hc. subst done cur. unfold ggDrawPath in Hcalls.
  set (st := sp_style sp) in *. set (mask' := option_map _ mask).
  assert (Hmask : forall r, run (mkGg mk0 rule f k p [] None) ((match mask with Some d => [GgSetMask d] | None => [GgResetClip] end) ++ r) = run (mkGg mask' rule f k p [] None) r).
  { intros r. subst mask'. destruct mask as [d|]; cbn [app option_map]; apply run_set; [apply gg_mask_step|destruct p; reflexivity]. }
  destruct (st_filler st) as [[r1 g1 b1 a1|g]|] eqn:Ef; (destruct (st_liner st) as [[r2 g2 b2 a2|?]|] eqn:El; try contradiction;
    try (exfalso; destruct Hv as [H1 H2]; now (discriminate H2 || apply H1)); try (exfalso; destruct Hv as [H1 H2]; assert (Some (PPlain r2 g2 b2 a2) <> None) as H3 by discriminate; specialize (H2 H3); discriminate)).
  - cbn in Hcalls. injection Hcalls as <-. rewrite Hmask. destruct p as [cap join width dash off]. cbn [app]. do 2 (erewrite run_set by reflexivity). rewrite run_app.
    match goal with |- context [SpecDraw.run gg_step (mkGg ?a ?b ?c ?d ?e ?h ?i)] => destruct (gg_ops m a b c d e (sp_path sp) true h i ltac:(auto) Hm) as (d' & c' & H & H') end. rewrite H.
    cbn. rewrite H'. cbn [app]. eexists; exists [GgFilled mask' (subpaths (moved_px m) (sp_path sp)) (st_nonZero st) (GgSolid (toColor (CNRGBA r1 g1 b1 a1) (fmul E (st_fillOpacity st) o)))], []. split; [reflexivity|]. split; [split; reflexivity|]. split; [|now apply gl_none].
    apply (gf_some _ _ _ _ _ _ Ef). constructor. now apply toColor_shade.
  - destruct (ggGradient_ok g (fmul E (st_fillOpacity st) o) Hf) as (x & Hx & Hg). rewrite Hx in Hcalls.
    cbn in Hcalls. injection Hcalls as <-. rewrite Hmask. destruct p as [cap join width dash off]. cbn [app]. do 2 (erewrite run_set by reflexivity). rewrite run_app.
    match goal with |- context [SpecDraw.run gg_step (mkGg ?a ?b ?c ?d ?e ?h ?i)] => destruct (gg_ops m a b c d e (sp_path sp) true h i ltac:(auto) Hm) as (d' & c' & H & H') end. rewrite H.
    cbn. rewrite H'. cbn [app]. eexists; exists [GgFilled mask' (subpaths (moved_px m) (sp_path sp)) (st_nonZero st) (GgGrad x)], []. split; [reflexivity|]. split; [split; reflexivity|]. split; [|now apply gl_none].
    now apply (gf_some _ _ _ _ _ _ Ef).
  - cbn in Hcalls. injection Hcalls as <-. rewrite Hmask. destruct p as [cap join width dash off]. cbn [app]. do 6 (erewrite run_set by reflexivity). rewrite run_app.
    match goal with |- context [SpecDraw.run gg_step (mkGg ?a ?b ?c ?d ?e ?h ?i)] => destruct (gg_ops m a b c d e (sp_path sp) true h i ltac:(auto) Hm) as (d' & c' & H & H') end. rewrite H.
    cbn. rewrite H'. cbn [app]. eexists; exists [], [GgStroked mask' (subpaths (moved_px m) (sp_path sp)) (gg_pens m st) (GgSolid (toColor (CNRGBA r2 g2 b2 a2) (fmul E (st_lineOpacity st) o)))]. split; [reflexivity|]. split; [split; reflexivity|]. split; [now apply gf_none|].
    apply (gl_some _ _ _ _ _ _ _ _ _ _ El). now apply toColor_shade.
Qed.
Lemma omap_ret {A B} (f : A -> outcome (list B)) l r : omap f l = Ret r -> exists rs, r = concat rs /\ Forall2 (fun a x => f a = Ret x) l rs.
Proof.
  revert r. induction l as [|a l IH]; intros r H; [injection H as <-; exists []; split; [reflexivity|constructor]|].
  cbn in H. destruct (f a) as [x| | |] eqn:Ha; try discriminate. cbn in H. destruct (omap f l) as [y| | |]; try discriminate. cbn in H. injection H as <-.
  destruct (IH y eq_refl) as (rs & -> & Hr). exists (x :: rs). split; [reflexivity|]. now constructor.
Qed.
Definition neat_doc (s : svg E) : Prop := forall p, has_path s p -> gg_neat p.
Lemma gg_transformed (s : svg E) : neat_doc s -> forall fuel sp m o calls, gg_neat sp -> ggDrawTransformed fuel s sp m o = Ret calls ->
  forall st, clean st -> exists st' items, run st calls = (st', items) /\ clean st' /\ gg_items s m o sp items.
Proof.
  intros Hs. induction fuel as [|fuel IH]; intros sp m o calls Hn H st Hst; [discriminate|]. cbn [ggDrawTransformed] in H.
  assert (Hread : slice_read (sv_mheap s) (st_masks (sp_style sp)) = path_masks s sp) by reflexivity. rewrite Hread in H. clear Hread.
  destruct (path_masks s sp) as [|id0 ids0 _] eqn:Em using rev_ind.
  - cbn in H. destruct (gg_path None sp m o calls st Hn Hst H) as (s' & l1 & l2 & Hr & Hc & H1 & H2). exists s', (l1 ++ l2). split; [exact Hr|]. split; [exact Hc|]. apply gi_plain; auto.
  - rewrite rev_unit in H. destruct (mget id0 (sv_masks s)) as [mk|] eqn:Eg.
    + destruct (omap _ (mk_paths mk)) as [mcalls| | |] eqn:Eo; try discriminate. cbn in H.
      destruct (gg_path (Some mcalls) sp m o calls st Hn Hst H) as (s' & l1 & l2 & Hr & Hc & H1 & H2). exists s', (l1 ++ l2). split; [exact Hr|]. split; [exact Hc|].
      apply (gi_masked s m o sp ids0 id0 mk (painted gg_step gg_new mcalls)); auto.
      destruct (omap_ret _ _ _ Eo) as (rs & -> & Hf). assert (Hp : forall p, List.In p (mk_paths mk) -> gg_neat p) by (intros p Hp; apply Hs; right; eauto). clear Eo H Hr H1 H2 Eg.
      assert (Hk : clean gg_new) by (split; reflexivity). revert Hk. unfold painted. generalize (gg_new (E := E)) as st0. revert Hp.
      induction Hf as [|q x l rs Hq _ IHf]; intros Hp st0 Hk; [constructor|]. cbn [concat]. rewrite run_app.
      destruct (IH q m (fnum E 1) x (Hp q (or_introl eq_refl)) Hq st0 Hk) as (st1 & its & -> & Hk1 & Hi).
      specialize (IHf (fun p Hin => Hp p (or_intror Hin)) st1 Hk1). destruct (run st1 (concat rs)) as [st2 its2]. cbn [snd] in *. now constructor.
    + cbn in H. destruct (gg_path None sp m o calls st Hn Hst H) as (s' & l1 & l2 & Hr & Hc & H1 & H2). exists s', (l1 ++ l2). split; [exact Hr|]. split; [exact Hc|]. apply gi_plain; eauto.
Qed.
Theorem gg_draws (s : svg E) opts fuel calls st : neat_doc s -> clean st -> ggDrawSvg fuel s opts = Ret calls ->
  exists itemss, painted gg_step st calls = concat itemss
  /\ Forall2 (fun sp => gg_items s (mMult (st_transform (sp_style sp)) (ro_target (options s opts))) (ro_opacity (options s opts)) sp) (sv_paths s) itemss.
Proof.
  intros Hs Hst H. unfold ggDrawSvg in H. destruct (omap_ret _ _ _ H) as (rs & -> & Hf). clear H.
  assert (Hp : forall p, List.In p (sv_paths s) -> gg_neat p) by (intros p Hp; apply Hs; now left).
  revert Hp st Hst. unfold painted. induction Hf as [|q x l rs Hq _ IHf]; intros Hp st Hst; [exists []; split; [reflexivity|constructor]|]. cbn [concat]. rewrite run_app.
  destruct (gg_transformed s Hs fuel q _ _ x (Hp q (or_introl eq_refl)) Hq st Hst) as (st1 & its & -> & Hk1 & Hi).
  destruct (IHf (fun p Hin => Hp p (or_intror Hin)) st1 Hk1) as (itemss & H1 & H2). exists (its :: itemss). destruct (run st1 (concat rs)) as [st2 its2]. cbn [snd concat] in *.
  split; [now rewrite H1|]. now constructor.
Qed.
End Gg.

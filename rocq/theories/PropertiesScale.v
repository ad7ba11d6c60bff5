(** * PropertiesScale: C54 (a larger target gives a larger picture) *)
From Coq Require Import Reals Lra.
From Flocq Require Import Core.Raux.
From Verif Require Import SpecScale ProofsScale ExDraw.
Local Open Scope R_scope.

(** ** C54: enlarging the rectangle of Target, up to the largest coordinate, enlarges the drawing *)
(** rasterx, for documents without gradients *)
Theorem C54_rasterx_partial : forall (O : ROracles) (k : R), 1 <= k -> forall ext (s : svg (RealEnv O)) opts opts', enlarged O k opts opts' ->
  (forall sp, List.In sp (sv_paths s) -> fits O (drawn_by O s opts' sp) sp /\ pen_fits O (drawn_by O s opts' sp) sp
    /\ plain_paint O (st_filler (sp_style sp)) /\ plain_paint O (st_liner (sp_style sp))) ->
  Forall2 (rx_scaled O k) (rxDrawSvg ext s opts) (rxDrawSvg ext s opts').
Proof. exact rx_drawing. Qed.
Print Assumptions C54_rasterx_partial.
(** draw2d, for documents without dashes; gradients are drawn as one colour *)
Theorem C54_draw2d_partial : forall (O : ROracles) (k : R), 1 <= k -> forall (s : svg (RealEnv O)) opts opts', enlarged O k opts opts' ->
  (forall sp, List.In sp (sv_paths s) -> fits O (drawn_by O s opts' sp) sp /\ undashed O sp) ->
  Forall2 (d2_scaled O k) (d2DrawSvg s opts) (d2DrawSvg s opts').
Proof. exact d2_drawing. Qed.
Print Assumptions C54_draw2d_partial.
(** gg, with masks, for documents without dashes and without gradient fills *)
Theorem C54_gg_partial : forall (O : ROracles) (k : R), 1 <= k -> forall fuel (s : svg (RealEnv O)) opts opts' calls, enlarged O k opts opts' ->
  (forall sp, List.In sp (sv_paths s) -> fits O (drawn_by O s opts' sp) sp /\ plainly O sp
    /\ forall q, mask_path O s q -> fits O (drawn_by O s opts' sp) q /\ plainly O q) ->
  ggDrawSvg fuel s opts = Ret calls -> exists calls', ggDrawSvg fuel s opts' = Ret calls' /\ Forall2 (gg_scaled O k) calls calls'.
Proof. exact gg_drawing. Qed.
Print Assumptions C54_gg_partial.
(** a masked triangle with fill and stroke, on a target of 10 by 10 and one of 20 by 20 *)
Definition scale_style (O : ROracles) (masks : sslice) : style (RealEnv O) :=
  mkStyle (E := RealEnv O) 1 1 2 true (mkJoin 0 Bevel RoundCap NilCap NilGap) [] 0 (red (RealEnv O)) (blue (RealEnv O)) masks identity.
Definition scale_svg (O : ROracles) : svg (RealEnv O) :=
  demo_svg (RealEnv O) [mkSvgPath (tri_path 5) (scale_style O (mkSl 0 1 1))]
    [("m"%string, mkMask (E := RealEnv O) "m" 0 0 1 1 [mkSvgPath (open_path 9) (scale_style O no_slice)] identity)] [["m"%string]].
Example C54_example : forall (O : ROracles) ext,
  let E := RealEnv O in let s := scale_svg O in
  let opts := [Target (E := E) 0 0 10 10] in let opts' := [Opacity (E := E) 1; Target (E := E) 0 0 20 20; Opacity (E := E) 1] in
  enlarged O 2 (Opacity (E := E) 1 :: opts) opts'
  /\ (forall sp, List.In sp (sv_paths s) -> fits O (drawn_by O s opts' sp) sp /\ pen_fits O (drawn_by O s opts' sp) sp
      /\ plain_paint O (st_filler (sp_style sp)) /\ plain_paint O (st_liner (sp_style sp)) /\ plainly O sp
      /\ forall q, mask_path O s q -> fits O (drawn_by O s opts' sp) q /\ plainly O q)
  /\ List.length (rxDrawSvg ext s opts) = 20%nat
  /\ exists calls, ggDrawSvg 2 s opts = Ret calls /\ List.length calls = 17%nat.
Proof.
  intros O ext E0. subst E0. intros s opts opts'.
  assert (Hm : forall sp, st_transform (sp_style sp) = identity (E := RealEnv O) -> drawn_by O s opts' sp = mkM (E := RealEnv O) 20 0 0 20 0 0).
  { intros sp H. unfold drawn_by. rewrite H, (target_eq s opts' 0 0 20 20 eq_refl). unfold target, mMult, identity, s, scale_svg, demo_svg. rewrite !fnum_real. cbn. f_equal; field. }
  assert (Hf : forall n l, List.In n [5; 9]%Z -> (l = tri_path n \/ l = open_path n) -> forall st, fits O (mkM (E := RealEnv O) 20 0 0 20 0 0) (mkSvgPath l st)).
  { intros n l Hn Hl st o p Ho Hp. cbn in Ho. unfold maps. cbn.
    assert (Hb : Rabs (IZR (fst p)) <= 64 /\ Rabs (IZR (snd p)) <= 64).
    { destruct Hn as [<-|[<-|[]]], Hl as [->| ->]; cbn in Ho; decompose [or] Ho; subst; cbn in Hp; decompose [or] Hp; subst; try contradiction; cbn; split; rewrite Rabs_pos_eq; lra. }
    destruct Hb as [H1 H2]. apply Rabs_le_inv in H1, H2. split; apply Rabs_def1; lra. }
  split; [split; [reflexivity|exists 0, 0, 10, 10; split; [reflexivity|cbn; repeat f_equal; ring]]|].
  split; [|split; [reflexivity|eexists; split; reflexivity]].
  intros sp [<-|[]]. rewrite Hm by reflexivity. split; [apply (Hf 5%Z); cbn; auto|]. split.
  { unfold pen_fits, widen. rewrite fnum_real. cbn. rewrite Rabs_pos_eq; lra. }
  split; [exact I|]. split; [exact I|]. split; [split; [reflexivity|exact I]|].
  intros q (id & mk & Hg & Hq). cbn in Hg. destruct (String.eqb id "m"); [|discriminate]. injection Hg as <-. destruct Hq as [<-|[]].
  split; [apply (Hf 9%Z); cbn; auto|split; [reflexivity|exact I]].
Qed.
(** Not enlarged: the dash patterns of draw2d and gg, the gradients of gg, and those of rasterx in user space. *)
Theorem C54_fixed_refuted : forall (E : Env) ext fuel (s : svg E) opts opts',
  flat_map d2_dash_of (d2DrawSvg s opts) = flat_map d2_dash_of (d2DrawSvg s opts')
  /\ flat_map rx_user_of (rxDrawSvg ext s opts) = flat_map rx_user_of (rxDrawSvg ext s opts')
  /\ forall calls calls', last_opacity opts' = last_opacity opts -> ggDrawSvg fuel s opts = Ret calls -> ggDrawSvg fuel s opts' = Ret calls' ->
     flat_map gg_fixed_of calls = flat_map gg_fixed_of calls'.
Proof. exact (fun E ext fuel s opts opts' => conj (d2_fixed s opts opts') (conj (rx_fixed ext s opts opts') (gg_fixed fuel s opts opts'))). Qed.
Print Assumptions C54_fixed_refuted.
Example C54_fixed_example : forall (E : Env) ext opts,
  let g := mkGrad (Some (Linear (fnum E 0) (fnum E 0) (fnum E 1) (fnum E 1))) [] (mkB (fnum E 0) (fnum E 0) (fnum E 1) (fnum E 1)) identity PadSpread UserSpaceOnUse in
  let s := demo_svg E [mkSvgPath (tri_path 5) (demo_style E true (Some (PGrad g)) (blue E) no_slice)] [] [] in
  flat_map d2_dash_of (d2DrawSvg s opts) = [([fnum E 3], fnum E 0)]
  /\ List.length (flat_map rx_user_of (rxDrawSvg ext s opts)) = 1%nat
  /\ exists calls, ggDrawSvg 1 s opts = Ret calls
     /\ flat_map gg_fixed_of calls = [Datatypes.inr (Some (GgLinear (fnum E 0) (fnum E 0) (fnum E 1) (fnum E 1) [])); Datatypes.inl [fnum E 3]].
Proof.
  intros E ext opts g s. split; [reflexivity|]. split; [|eexists; split; reflexivity].
  unfold rxDrawSvg. cbn -[options rxPaintOf]. unfold rxPaintOf. destruct (ext _) as [[[? ?] ?] ?]. reflexivity.
Qed.

(** * ProofsScale: drawings on a larger target *)
From Coq Require Import Lia Reals Lra.
From Flocq Require Import Core.Raux.
From Verif Require Import SpecScale ProofsFlocq ProofsRect ProofsTarget.
Local Open Scope R_scope.

Section Scale.
Context (O : ROracles) (k : R) (Hk : 1 <= k).
Notation E := (RealEnv O).
Notation near := (SpecScale.near k).

Lemma trunc_int32 x : Rabs x < 2147483648 -> int32 (Ztrunc x).
Proof using.
  intros H. pose proof (trunc_abs x) as H1. assert (H2 : Rabs (IZR (Ztrunc x)) < 2147483648) by lra. apply Rabs_def2 in H2. destruct H2 as [H2 H3].
  apply lt_IZR in H2. replace (- (2147483648)) with (IZR (-2147483648)) in H3 by lra. apply lt_IZR in H3. unfold int32. lia.
Qed.
Lemma trunc_scaled u : Rabs (k * u) < 2147483648 -> Rabs (IZR (wrap32 (Ztrunc (k * u))) - k * IZR (wrap32 (Ztrunc u))) <= k + 1.
Proof using Hk.
  intros H. assert (Hu : Rabs u < 2147483648). { rewrite Rabs_mult, (Rabs_pos_eq k) in H by lra. pose proof (Rabs_pos u). nra. }
  rewrite !wrap32_id by (apply trunc_int32; assumption). pose proof (trunc_near (k * u)) as H1. pose proof (trunc_near u) as H2.
  apply Rabs_le_inv in H1, H2. apply Rabs_le. nra.
Qed.

(** every entry of the second matrix is [k] times that of the first *)
Definition larger (m m' : matrix E) : Prop :=
  mA m' = k * mA m /\ mB m' = k * mB m /\ mC m' = k * mC m /\ mD m' = k * mD m /\ mE m' = k * mE m /\ mF m' = k * mF m.
Lemma larger_mult t m m' : larger m m' -> larger (mMult t m) (mMult t m').
Proof using. intros (H1 & H2 & H3 & H4 & H5 & H6). unfold larger, mMult. cbn. rewrite H1, H2, H3, H4, H5, H6. repeat split; ring. Qed.
Lemma larger_width m m' : larger m m' -> lineWidthScale m' = k * lineWidthScale m.
Proof using. intros (H1 & _ & _ & H4 & _). unfold lineWidthScale. rewrite fnum_real. cbn. rewrite H1, H4. field. Qed.
Lemma larger_target (s : svg E) (opts opts' : list (renderOption E)) (x y w h : R) : last_target opts = Some (x, y, w, h) -> last_target opts' = Some (x, y, k * w, k * h) ->
  larger (ro_target (options s opts)) (ro_target (options s opts')).
Proof using.
  intros H H'. rewrite (target_eq s opts x y w h H), (target_eq s opts' x y (k * w) (k * h) H'). unfold larger, target, Rdiv. cbn. repeat split; ring.
Qed.

Definition inside (m : matrix E) (p : pt) : Prop :=
  Rabs (fst (maps m (IZR (fst p) / 64, IZR (snd p) / 64))) < 33554432 /\ Rabs (snd (maps m (IZR (fst p) / 64, IZR (snd p) / 64))) < 33554432.
Lemma point_scaled m m' p : larger m m' -> inside m' p -> near (tFixed m p) (tFixed m' p).
Proof using Hk.
  intros (H1 & H2 & H3 & H4 & H5 & H6) [Ha Hb]. unfold SpecScale.near, tFixed. rewrite !fnum_real. cbn in *. rewrite H1, H3, H5 in *. rewrite H2, H4, H6 in *.
  set (X := IZR (fst p)) in *. set (Y := IZR (snd p)) in *. split.
  - replace (X * (k * mA m) + Y * (k * mC m) + k * mE m * 64) with (k * (X * mA m + Y * mC m + mE m * 64)) by ring. apply trunc_scaled.
    replace (k * (X * mA m + Y * mC m + mE m * 64)) with (64 * (k * mA m * (X / 64) + k * mC m * (Y / 64) + k * mE m)) by field.
    rewrite Rabs_mult, (Rabs_pos_eq 64) by lra. lra.
  - replace (X * (k * mB m) + Y * (k * mD m) + k * mF m * 64) with (k * (X * mB m + Y * mD m + mF m * 64)) by ring. apply trunc_scaled.
    replace (k * (X * mB m + Y * mD m + mF m * 64)) with (64 * (k * mB m * (X / 64) + k * mD m * (Y / 64) + k * mF m)) by field.
    rewrite Rabs_mult, (Rabs_pos_eq 64) by lra. lra.
Qed.
Lemma near_float a b : near a b -> nearF O k (toFloat (E := E) a) (toFloat (E := E) b).
Proof using.
  intros [H1 H2]. apply Rabs_le_inv in H1, H2. unfold nearF, toFloat. rewrite fnum_real. cbn. split; apply Rabs_le; lra.
Qed.

(** ** rasterx *)
Lemma flat_map_F2 {A B} (R : B -> B -> Prop) (f g : A -> list B) l : (forall a, List.In a l -> Forall2 R (f a) (g a)) -> Forall2 R (flat_map f l) (flat_map g l).
Proof using. induction l as [|a l IH]; intros H; cbn; [constructor|]. apply Forall2_app; [apply H; now left|]. apply IH. intros b Hb. apply H. now right. Qed.
Lemma in_points m sp o : fits O m sp -> List.In o (sp_path sp) -> forall p, List.In p (op_points o) -> inside m p.
Proof using. intros H Ho p Hp. exact (H o p Ho Hp). Qed.

Ltac f2 := repeat first [apply Forall2_nil | apply Forall2_cons].
Lemma rx_op t m m' o : larger m m' -> (forall p, List.In p (op_points o) -> inside m' p) -> Forall2 (rx_scaled O k) (rxOp t m o) (rxOp t m' o).
Proof using Hk.
  intros Hm Hp. assert (Hn : forall p, List.In p (op_points o) -> near (tFixed m p) (tFixed m' p)) by (intros p H; apply point_scaled; auto).
  unfold rxOp. destruct o; cbn [mapOp op_points] in *; f2; try constructor; apply Hn; cbn; tauto.
Qed.
Lemma d2_op m m' o : larger m m' -> (forall p, List.In p (op_points o) -> inside m' p) -> Forall2 (d2_scaled O k) (d2Op m o) (d2Op m' o).
Proof using Hk.
  intros Hm Hp. assert (Hn : forall p, List.In p (op_points o) -> near (tFixed m p) (tFixed m' p)) by (intros p H; apply point_scaled; auto).
  unfold d2Op. destruct o; cbn [mapOp op_points] in *; f2; try constructor; apply near_float; apply Hn; cbn; tauto.
Qed.
Lemma gg_op m m' o : larger m m' -> (forall p, List.In p (op_points o) -> inside m' p) -> Forall2 (gg_scaled O k) (ggOp m o) (ggOp m' o).
Proof using Hk.
  intros Hm Hp. assert (Hn : forall p, List.In p (op_points o) -> near (tFixed m p) (tFixed m' p)) by (intros p H; apply point_scaled; auto).
  unfold ggOp. destruct o; cbn [mapOp op_points] in *; f2; try constructor; apply near_float; apply Hn; cbn; tauto.
Qed.

Lemma opacity_same (s : svg E) (opts opts' : list (renderOption E)) : last_opacity opts' = last_opacity opts -> ro_opacity (options s opts') = ro_opacity (options s opts).
Proof using. intros H. destruct (options_last s opts) as [-> _], (options_last s opts') as [-> _]. now rewrite H. Qed.
Lemma rx_geometry t m m' sp : larger m m' -> fits O m' sp -> Forall2 (rx_scaled O k) (flat_map (rxOp t m) (sp_path sp)) (flat_map (rxOp t m') (sp_path sp)).
Proof using Hk. intros Hm Hf. apply flat_map_F2. intros o Ho. apply rx_op; [exact Hm|]. exact (in_points m' sp o Hf Ho). Qed.
Lemma width_scaled m m' sp : larger m m' -> pen_fits O m' sp ->
  Rabs (IZR (f_to_i32 E (fmul E (fmul E (st_lineWidth (sp_style sp)) (fnum E 64)) (lineWidthScale m')))
        - k * IZR (f_to_i32 E (fmul E (fmul E (st_lineWidth (sp_style sp)) (fnum E 64)) (lineWidthScale m)))) <= k + 1.
Proof using Hk.
  intros Hm Hp. unfold pen_fits in Hp. change (widen m') with (lineWidthScale m') in Hp. rewrite (larger_width m m' Hm) in *. rewrite fnum_real. cbn [fmul f_to_i32 RealEnv] in *.
  set (w := st_lineWidth (sp_style sp) : R) in *. set (z := lineWidthScale m : R) in *.
  replace (w * 64 * (k * z)) with (k * (w * 64 * z)) by ring. apply trunc_scaled. replace (k * (w * 64 * z)) with (64 * (w * (k * z))) by ring.
  rewrite Rabs_mult, (Rabs_pos_eq 64) by lra. lra.
Qed.
Theorem rx_drawing ext (s : svg E) opts opts' : enlarged O k opts opts' ->
  (forall sp, List.In sp (sv_paths s) -> fits O (drawn_by O s opts' sp) sp /\ pen_fits O (drawn_by O s opts' sp) sp
    /\ plain_paint O (st_filler (sp_style sp)) /\ plain_paint O (st_liner (sp_style sp))) ->
  Forall2 (rx_scaled O k) (rxDrawSvg ext s opts) (rxDrawSvg ext s opts').
Proof using Hk.
  intros (Ho & x & y & w & h & H1 & H2) Hs. unfold rxDrawSvg. apply flat_map_F2. intros sp Hsp. destruct (Hs sp Hsp) as (Hf & Hw & Hp & Hl).
  pose proof (larger_mult (st_transform (sp_style sp)) _ _ (larger_target s opts opts' x y w h H1 H2)) as Hm.
  unfold drawn_by in *. unfold rxDrawTransformed. rewrite (opacity_same s opts opts' Ho) || idtac.
  set (m := mMult _ (ro_target (options s opts))) in *. set (m' := mMult _ (ro_target (options s opts'))) in *.
  apply Forall2_app.
  - destruct (st_filler (sp_style sp)) as [[r g b a|g]|]; [|destruct Hp|constructor]. unfold rxFill.
    apply Forall2_app; [|cbn [rxPaintOf]; rewrite (opacity_same s opts opts' Ho); f2; constructor].
    apply Forall2_app; [f2; constructor|]. apply Forall2_app; [apply rx_geometry; assumption|f2; constructor].
  - destruct (st_liner (sp_style sp)) as [[r g b a|g]|]; [|destruct Hl|constructor]. unfold rxStrokeCalls.
    apply Forall2_app; [|cbn [rxPaintOf]; rewrite (opacity_same s opts opts' Ho); f2; constructor].
    apply Forall2_app; [f2; constructor; apply width_scaled; assumption|]. apply Forall2_app; [apply rx_geometry; assumption|f2; constructor].
Qed.
Theorem d2_drawing (s : svg E) opts opts' : enlarged O k opts opts' ->
  (forall sp, List.In sp (sv_paths s) -> fits O (drawn_by O s opts' sp) sp /\ undashed O sp) ->
  Forall2 (d2_scaled O k) (d2DrawSvg s opts) (d2DrawSvg s opts').
Proof using Hk.
  intros (Ho & x & y & w & h & H1 & H2) Hs. unfold d2DrawSvg. apply flat_map_F2. intros sp Hsp. destruct (Hs sp Hsp) as (Hf & Hd). unfold undashed in Hd.
  pose proof (larger_mult (st_transform (sp_style sp)) _ _ (larger_target s opts opts' x y w h H1 H2)) as Hm.
  unfold drawn_by in *. unfold d2DrawTransformed. rewrite (opacity_same s opts opts' Ho).
  set (m := mMult _ (ro_target (options s opts))) in *. set (m' := mMult _ (ro_target (options s opts'))) in *.
  apply Forall2_app; [|apply Forall2_app; [|apply Forall2_app]].
  - destruct (st_filler (sp_style sp)); f2; constructor.
  - destruct (st_liner (sp_style sp)); f2; try constructor.
    + rewrite (larger_width m m' Hm). cbn [fmul RealEnv].
      replace (st_lineWidth (sp_style sp) * (k * lineWidthScale m)) with (k * (st_lineWidth (sp_style sp) * lineWidthScale m)) by ring. constructor.
    + rewrite Hd. constructor.
  - apply flat_map_F2. intros o Hi. apply d2_op; [exact Hm|]. exact (in_points m' sp o Hf Hi).
  - destruct (st_filler (sp_style sp)), (st_liner (sp_style sp)); f2; constructor.
Qed.

(** ** gg *)
Lemma omap_F2 {A B} (R : B -> B -> Prop) (f g : A -> outcome (list B)) l r : omap f l = Ret r ->
  (forall a x, List.In a l -> f a = Ret x -> exists y, g a = Ret y /\ Forall2 R x y) -> exists r', omap g l = Ret r' /\ Forall2 R r r'.
Proof using.
  revert r. induction l as [|a l IH]; intros r H Hf; [injection H as <-; exists []; split; [reflexivity|constructor]|].
  cbn in H. destruct (f a) as [x| | |] eqn:Ha; try discriminate. cbn in H. destruct (omap f l) as [y| | |] eqn:Hl; try discriminate. cbn in H. injection H as <-.
  destruct (Hf a x (or_introl eq_refl) Ha) as (x' & Hx & H1). destruct (IH y eq_refl) as (y' & Hy & H2); [intros; eapply Hf; [right|]; eassumption|].
  exists (x' ++ y'). cbn. rewrite Hx. cbn. rewrite Hy. cbn. split; [reflexivity|]. now apply Forall2_app.
Qed.
Definition mask_scaled (d d' : option (list (ggCall E))) : Prop :=
  match d, d' with None, None => True | Some a, Some b => Forall2 (gg_scaled O k) a b | _, _ => False end.
Lemma gg_path d d' sp m m' o r : mask_scaled d d' -> larger m m' -> fits O m' sp -> plainly O sp -> ggDrawPath d sp m o = Ret r ->
  exists r', ggDrawPath d' sp m' o = Ret r' /\ Forall2 (gg_scaled O k) r r'.
Proof using Hk.
  intros Hd Hm Hf [Hu Hp] H. unfold ggDrawPath, undashed in *.
  assert (exists fs, match st_filler (sp_style sp) with
                | Some (PGrad g) => gr <~ ggToGradient g (fmul E (st_fillOpacity (sp_style sp)) o) ;; Ret (Some (GgGrad gr))
                | Some (PPlain r g b a) => Ret (Some (GgSolid (toColor (CNRGBA r g b a) (fmul E (st_fillOpacity (sp_style sp)) o))))
                | None => Ret None end = Ret fs /\ match fs with Some (GgGrad _) => False | _ => True end) as (fs & Hfs & Hplain).
  { destruct (st_filler (sp_style sp)) as [[r0 g b a|g]|]; [|destruct Hp|]; eexists; split; try reflexivity; exact I. }
  rewrite Hfs in *. cbn [obind] in *. injection H as <-. eexists. split; [reflexivity|].
  apply Forall2_app; [|apply Forall2_app; [|apply Forall2_app; [|apply Forall2_app; [|apply Forall2_app]]]].
  - destruct d, d'; cbn in Hd; try contradiction; f2; constructor; assumption.
  - destruct fs as [[c|g]|]; [|destruct Hplain|]; f2; constructor.
  - destruct (st_liner (sp_style sp)); f2; try constructor.
    + rewrite (larger_width m m' Hm). cbn [fmul RealEnv].
      replace (st_lineWidth (sp_style sp) * (k * lineWidthScale m)) with (k * (st_lineWidth (sp_style sp) * lineWidthScale m)) by ring. constructor.
    + rewrite Hu. constructor.
  - apply flat_map_F2. intros q Hi. apply gg_op; [exact Hm|]. exact (in_points m' sp q Hf Hi).
  - destruct (st_filler (sp_style sp)), (st_liner (sp_style sp)); f2; constructor.
  - destruct (st_liner (sp_style sp)); f2; constructor.
Qed.
Lemma gg_transformed (s : svg E) m m' : larger m m' -> (forall q, mask_path O s q -> fits O m' q /\ plainly O q) ->
  forall fuel sp o r, fits O m' sp -> plainly O sp -> ggDrawTransformed fuel s sp m o = Ret r ->
  exists r', ggDrawTransformed fuel s sp m' o = Ret r' /\ Forall2 (gg_scaled O k) r r'.
Proof using Hk.
  intros Hm Hs fuel. induction fuel as [|f IH]; intros sp o r Hf Hp H; [discriminate|]. cbn [ggDrawTransformed] in *.
  destruct (rev (slice_read (sv_mheap s) (st_masks (sp_style sp)))) as [|id l]; [eapply gg_path; eauto; exact I|].
  destruct (mget id (sv_masks s)) as [mk|] eqn:Eg; [|eapply gg_path; eauto; exact I].
  destruct (omap _ (mk_paths mk)) as [c| | |] eqn:Ec; try discriminate. cbn [obind] in H.
  destruct (omap_F2 (gg_scaled O k) _ (fun q => ggDrawTransformed f s q m' (fnum E 1)) _ _ Ec) as (c' & Hc & H2).
  { intros q x Hq Hx. destruct (Hs q) as [H3 H4]; [exists id, mk; auto|]. eapply IH; eassumption. }
  rewrite Hc. cbn [obind]. eapply gg_path; eauto; exact H2.
Qed.
Theorem gg_drawing fuel (s : svg E) opts opts' calls : enlarged O k opts opts' ->
  (forall sp, List.In sp (sv_paths s) -> fits O (drawn_by O s opts' sp) sp /\ plainly O sp
    /\ forall q, mask_path O s q -> fits O (drawn_by O s opts' sp) q /\ plainly O q) ->
  ggDrawSvg fuel s opts = Ret calls -> exists calls', ggDrawSvg fuel s opts' = Ret calls' /\ Forall2 (gg_scaled O k) calls calls'.
Proof using Hk.
  intros (Ho & x & y & w & h & H1 & H2) Hs H. unfold ggDrawSvg in *. eapply omap_F2; [exact H|]. intros sp r Hsp Hr. destruct (Hs sp Hsp) as (Hf & Hp & Hq).
  rewrite (opacity_same s opts opts' Ho). eapply gg_transformed; [|exact Hq|exact Hf|exact Hp|exact Hr].
  apply larger_mult. exact (larger_target s opts opts' x y w h H1 H2).
Qed.
End Scale.

(** ** What is not scaled *)
Section Fixed.
Context {E : Env}.
Lemma flat_flat {A B C} (h : B -> list C) (f : A -> list B) l : flat_map h (flat_map f l) = flat_map (fun a => flat_map h (f a)) l.
Proof. induction l as [|a l IH]; [reflexivity|]. cbn. now rewrite flat_map_app, IH. Qed.
Lemma flat_nil {A B} (f : A -> list B) l : (forall a, f a = []) -> flat_map f l = [].
Proof. intros H. induction l as [|a l IH]; [reflexivity|]. cbn. now rewrite H, IH. Qed.
Lemma d2_fixed (s : svg E) opts opts' : flat_map d2_dash_of (d2DrawSvg s opts) = flat_map d2_dash_of (d2DrawSvg s opts').
Proof.
  unfold d2DrawSvg. rewrite !flat_flat. apply flat_map_ext. intros sp. unfold d2DrawTransformed. rewrite !flat_map_app, !flat_flat, !(flat_nil (fun a => flat_map d2_dash_of (d2Op _ a))) by (intros []; reflexivity).
  destruct (st_filler (sp_style sp)), (st_liner (sp_style sp)); reflexivity.
Qed.
Lemma rx_user_paint ext ext' b b' t t' (p : pattern E) o o' : rx_user_of (RxSetColor t (rxPaintOf ext b p o)) = rx_user_of (RxSetColor t' (rxPaintOf ext' b' p o')).
Proof.
  destruct p as [r g b0 a|[d st bo ma spr u]]; [reflexivity|]. unfold rxPaintOf. destruct (ext b) as [[[x0 y0] x1] y1], (ext' b') as [[[x0' y0'] x1'] y1'].
  unfold toRasterxGradient, applyPathExtent. destruct u; cbn; [destruct d as [[]|]; reflexivity|reflexivity].
Qed.
Lemma rx_fixed ext (s : svg E) opts opts' : flat_map rx_user_of (rxDrawSvg ext s opts) = flat_map rx_user_of (rxDrawSvg ext s opts').
Proof.
  unfold rxDrawSvg. rewrite !flat_flat. apply flat_map_ext. intros sp. unfold rxDrawTransformed. rewrite !flat_map_app. f_equal.
  - destruct (st_filler (sp_style sp)) as [p|]; [|reflexivity]. unfold rxFill. rewrite !flat_map_app, !flat_flat, !(flat_nil (fun a => flat_map rx_user_of (rxOp _ _ a))) by (intros []; reflexivity).
    cbn [flat_map]. erewrite rx_user_paint. reflexivity.
  - destruct (st_liner (sp_style sp)) as [p|]; [|reflexivity]. unfold rxStrokeCalls. rewrite !flat_map_app, !flat_flat, !(flat_nil (fun a => flat_map rx_user_of (rxOp _ _ a))) by (intros []; reflexivity).
    cbn [flat_map]. erewrite rx_user_paint. reflexivity.
Qed.
Lemma gg_path_fixed d d' (sp : svgPath E) m m' o r r' : ggDrawPath d sp m o = Ret r -> ggDrawPath d' sp m' o = Ret r' -> flat_map gg_fixed_of r = flat_map gg_fixed_of r'.
Proof.
  unfold ggDrawPath. intros H H'. match type of H with obind ?a _ = _ => destruct a as [fs| | |]; try discriminate end. cbn [obind] in *. injection H as <-. injection H' as <-.
  rewrite !flat_map_app, !flat_flat, !(flat_nil (fun a => flat_map gg_fixed_of (ggOp _ a))) by (intros []; reflexivity).
  f_equal; [destruct d, d'; reflexivity|]. f_equal. f_equal. destruct (st_liner (sp_style sp)); reflexivity.
Qed.
Lemma gg_fixed fuel (s : svg E) opts opts' r r' : last_opacity opts' = last_opacity opts -> ggDrawSvg fuel s opts = Ret r -> ggDrawSvg fuel s opts' = Ret r' ->
  flat_map gg_fixed_of r = flat_map gg_fixed_of r'.
Proof.
  intros Ho. unfold ggDrawSvg. assert (Hop : ro_opacity (options s opts') = ro_opacity (options s opts)).
  { destruct (options_last s opts) as [-> _], (options_last s opts') as [-> _]. now rewrite Ho. }
  rewrite Hop. clear Hop. revert r r'. induction (sv_paths s) as [|sp l IH]; intros r r' H H'; cbn [omap] in *; [injection H as <-; injection H' as <-; reflexivity|].
  destruct (ggDrawTransformed fuel s sp _ (ro_opacity _)) as [a| | |] eqn:Ea in H; try discriminate. destruct (ggDrawTransformed fuel s sp _ (ro_opacity _)) as [a'| | |] eqn:Ea' in H'; try discriminate.
  cbn [obind] in *. destruct (omap _ l) as [b| | |] in H, IH; try discriminate. destruct (omap _ l) as [b'| | |] in H', IH; try discriminate. cbn [obind] in *. injection H as <-. injection H' as <-.
  rewrite !flat_map_app. f_equal; [|now apply IH]. destruct fuel as [|f]; [discriminate|]. cbn [ggDrawTransformed] in Ea, Ea'.
  match type of Ea with obind ?x _ = _ => destruct x; try discriminate end. match type of Ea' with obind ?x _ = _ => destruct x; try discriminate end. cbn [obind] in *.
  eapply gg_path_fixed; eassumption.
Qed.
End Fixed.

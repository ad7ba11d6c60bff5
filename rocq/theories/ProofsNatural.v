(** * ProofsNatural: drawing a document into its own view box (C60) *)
From Coq Require Import ZArith Lia Reals Lra Floats.SpecFloat.
From Flocq Require Import Core.Core IEEE754.BinarySingleNaN.
From Verif Require Export SpecNatural SpecArc64.
From Verif Require Import F64 ProofsSize3 ProofsDraw2 ProofsFlocq.
Local Open Scope go_scope.

(** ** The matrix *)
Section Matrix.
Context (O : Oracles).
Notation E := (F64 O).
Notation svg := (svg E).
Lemma div_self w : valid w -> finite w -> val w <> 0%R -> SFdiv 53 1024 w w = one.
Proof.
  intros V Fw Hn. assert (Hq : (val w / val w = val one)%R) by (rewrite one_val; field; exact Hn).
  assert (Hr : rnd (val w / val w) = val one) by (rewrite Hq; apply round_generic; [apply valid_rnd_N|apply val_format, one_valid]).
  destruct (div_round w w V V Fw Fw Hn) as [K1 K2].
  - rewrite Hr. apply val_lt, one_valid.
  - apply val_inj; [apply div_valid; assumption|apply one_valid|exact K1|rewrite one_eq; exact I|now rewrite K2, Hr|]. rewrite K2, Hr, one_val. lra.
Qed.
Lemma sub_self x : finite x -> SFsub 53 1024 x x = z0.
Proof.
  destruct x as [[]| | |s m e]; try contradiction; try reflexivity; intros _. unfold SFsub. cbv zeta. rewrite Z.sub_diag. reflexivity.
Qed.
Lemma identity_fixed p : int32 (fst p) -> int32 (snd p) -> tFixed (E := E) identity p = p.
Proof.
  intros Zx Zy. destruct p as [a b]. cbn [fst snd] in *. unfold tFixed, identity. cbn [mA mB mC mD mE mF fst snd].
  change (fadd E) with (SFadd 53 1024). change (fmul E) with (SFmul 53 1024). change (f_of_Z E) with sf_of_Z.
  change (f_to_i32 E) with (sf_to_i32 O). change (fnum E 0) with z0. change (fnum E 1) with one.
  replace (SFmul 53 1024 z0 (fnum E 64)) with z0 by (vm_compute; reflexivity).
  assert (Fz : forall z, int32 z -> finite (sf_of_Z z)) by (intros z Hz; apply of_Z_val; unfold int32 in Hz; lia).
  destruct (mul_zero (sf_of_Z a) (Fz a Zx)) as [s1 E1], (mul_zero (sf_of_Z b) (Fz b Zy)) as [s2 E2].
  rewrite E1, E2, !mul_one by auto using of_Z_valid. rewrite add_any0, any0_add by auto.
  assert (K : forall z, int32 z -> sf_to_i32 O match sf_of_Z z with S754_zero _ => z0 | _ => sf_of_Z z end = z).
  { intros z Hz. transitivity (sf_to_i32 O (sf_of_Z z)); [|apply of_to_i32, Hz]. destruct (sf_of_Z z); reflexivity. }
  now rewrite !K.
Qed.
Lemma natural_matrix (s : svg) opts : natural_size s opts -> finite64 (bX (sv_viewBox s)) -> finite64 (bY (sv_viewBox s)) ->
  finite64 (bW (sv_viewBox s)) -> finite64 (bH (sv_viewBox s)) -> value64 (bW (sv_viewBox s)) <> 0%R -> value64 (bH (sv_viewBox s)) <> 0%R ->
  mMult identity (ro_target (options s opts)) = identity.
Proof.
  intros Hn [_ Fx] [_ Fy] [Vw Fw] [Vh Fh] Nw Nh.
  assert (HT : ro_target (options s opts) = identity).
  { destruct (options_last s opts) as [_ ->]. unfold natural_size in Hn. rewrite Hn.
    unfold mScale, mTranslate, identity. cbn [mA mB mC mD mE mF].
    change (fadd E) with (SFadd 53 1024). change (fmul E) with (SFmul 53 1024). change (fdiv E) with (SFdiv 53 1024). change (fsub E) with (SFsub 53 1024).
    change (fnum E 0) with z0. change (fnum E 1) with one.
    rewrite (div_self _ Vw Fw Nw), (div_self _ Vh Fh Nh), (sub_self _ Fx), (sub_self _ Fy).
    f_equal; vm_compute; reflexivity. }
  rewrite HT. unfold mMult, identity. cbn [mA mB mC mD mE mF].
  change (fadd E) with (SFadd 53 1024). change (fmul E) with (SFmul 53 1024). change (fnum E 0) with z0. change (fnum E 1) with one.
  f_equal; vm_compute; reflexivity.
Qed.
Lemma op_fixed o : Forall (fun a : pt => coordinate (fst a) /\ coordinate (snd a)) (op_points o) -> mapOp (E := E) identity o = o.
Proof.
  rewrite Forall_forall. intros H. assert (K : forall a, List.In a (op_points o) -> tFixed (E := E) identity a = a).
  { intros a Ha. destruct (H a Ha). now apply identity_fixed. }
  clear H. destruct o; cbn [op_points mapOp List.In] in *; rewrite ?K by tauto; reflexivity.
Qed.
Lemma width_one : lineWidthScale (E := E) identity = one.
Proof. unfold lineWidthScale, identity. cbn [mA mD]. change (fadd E) with (SFadd 53 1024). change (fdiv E) with (SFdiv 53 1024). vm_compute. reflexivity. Qed.

(** ** rasterx *)
Lemma rx_ops_trace t p : in_range p -> flat_map rx_trace (flat_map (rxOp (E := E) t identity) p) = map (pair t) p.
Proof.
  induction 1 as [|o p Ho _ IH]; [reflexivity|]. cbn [flat_map map]. rewrite flat_map_app, IH. unfold rxOp. rewrite (op_fixed o Ho). destruct o; reflexivity.
Qed.
Lemma rx_ops_width t p : flat_map rx_strokes (flat_map (rxOp (E := E) t identity) p) = [].
Proof. induction p as [|o p IH]; [reflexivity|]. cbn [flat_map]. rewrite flat_map_app, IH, app_nil_r. unfold rxOp. destruct (mapOp identity o); reflexivity. Qed.
Context (s : svg) (opts : list (renderOption E)) (Hm : mMult identity (ro_target (options s opts)) = identity).
Context (Hr : forall p, has_path s p -> in_range (sp_path p)) (Hi : Forall (fun sp => st_transform (sp_style sp) = identity) (sv_paths s)).
Lemma all_paths {A} (f g : svgPath E -> list A) : (forall sp, has_path s sp -> st_transform (sp_style sp) = identity -> f sp = g sp) -> flat_map f (sv_paths s) = flat_map g (sv_paths s).
Proof.
  intros H. assert (K : forall sp, List.In sp (sv_paths s) -> f sp = g sp). { intros sp Hin. apply H; [now left|]. rewrite Forall_forall in Hi. apply Hi, Hin. }
  clear H. revert K. generalize (sv_paths s). intros l K. induction l as [|sp l IH]; [reflexivity|]. cbn [flat_map]. rewrite (K sp), IH; cbn; auto. intros sp' Hs. apply K. now right.
Qed.
Lemma flat_flat {A B C} (f : B -> list C) (g : A -> list B) l : flat_map f (flat_map g l) = flat_map (fun a => flat_map f (g a)) l.
Proof. induction l as [|a l IH]; [reflexivity|]. cbn [flat_map]. now rewrite flat_map_app, IH. Qed.
Theorem rx_natural ext : flat_map rx_trace (rxDrawSvg ext s opts)
  = flat_map (fun sp => (match st_filler (sp_style sp) with Some _ => map (pair Filler) (sp_path sp) | None => [] end)
                       ++ (match st_liner (sp_style sp) with Some _ => map (pair Stroker) (sp_path sp) | None => [] end)) (sv_paths s)
  /\ flat_map rx_strokes (rxDrawSvg ext s opts) = map (fun w => f_to_i32 E (fmul E (fmul E w (fnum E 64)) (fnum E 1))) (stroke_widths (sv_paths s)).
Proof.
  unfold rxDrawSvg. rewrite !flat_flat. split.
  - apply all_paths. intros sp Hp Ht. unfold rxDrawTransformed. rewrite Ht, Hm. rewrite flat_map_app. f_equal.
    + destruct (st_filler (sp_style sp)); [|reflexivity]. unfold rxFill. rewrite !flat_map_app, rx_ops_trace by auto. cbn [flat_map rx_trace app]. now rewrite app_nil_r, !app_nil_r.
    + destruct (st_liner (sp_style sp)); [|reflexivity]. unfold rxStrokeCalls. rewrite !flat_map_app, rx_ops_trace by auto. cbn [flat_map rx_trace app]. now rewrite app_nil_r, !app_nil_r.
  - transitivity (flat_map (fun sp : svgPath E => map (fun w => f_to_i32 E (fmul E (fmul E w (fnum E 64)) (fnum E 1))) (match st_liner (sp_style sp) with Some _ => [st_lineWidth (sp_style sp)] | None => [] end)) (sv_paths s)).
    + apply all_paths. intros sp Hp Ht. unfold rxDrawTransformed. rewrite Ht, Hm. rewrite flat_map_app.
      destruct (st_filler (sp_style sp)); [unfold rxFill; rewrite !flat_map_app, rx_ops_width|]; cbn [flat_map rx_strokes app];
      (destruct (st_liner (sp_style sp)); [unfold rxStrokeCalls; rewrite !flat_map_app, rx_ops_width; cbn [flat_map rx_strokes app map]; rewrite width_one; reflexivity|reflexivity]).
    + unfold stroke_widths. generalize (sv_paths s). intros l. induction l as [|sp l IH]; [reflexivity|]. cbn [flat_map]. now rewrite map_app, IH.
Qed.
(** ** draw2d *)
Lemma to_float_px a : toFloat (E := E) a = px a. Proof. reflexivity. Qed.
Lemma d2_ops_trace p : in_range p -> flat_map d2_trace (flat_map (d2Op (E := E) identity) p) = flat_map pens_of p.
Proof.
  induction 1 as [|o p Ho _ IH]; [reflexivity|]. cbn [flat_map]. rewrite flat_map_app, IH. unfold d2Op. rewrite (op_fixed o Ho). destruct o; reflexivity.
Qed.
Lemma d2_ops_width p : flat_map d2_strokes (flat_map (d2Op (E := E) identity) p) = [].
Proof. induction p as [|o p IH]; [reflexivity|]. cbn [flat_map]. rewrite flat_map_app, IH, app_nil_r. unfold d2Op. destruct (mapOp identity o); reflexivity. Qed.
Theorem d2_natural : flat_map d2_trace (d2DrawSvg s opts) = flat_map (fun sp => flat_map pens_of (sp_path sp)) (sv_paths s)
  /\ flat_map d2_strokes (d2DrawSvg s opts) = map (fun w => fmul E w (fnum E 1)) (stroke_widths (sv_paths s)).
Proof.
  unfold d2DrawSvg. rewrite !flat_flat. split.
  - apply all_paths. intros sp Hp Ht. unfold d2DrawTransformed. rewrite Ht, Hm. rewrite !flat_map_app, d2_ops_trace by auto.
    destruct (st_filler (sp_style sp)), (st_liner (sp_style sp)); cbn [flat_map d2_trace app]; now rewrite app_nil_r.
  - transitivity (flat_map (fun sp : svgPath E => map (fun w => fmul E w (fnum E 1)) (match st_liner (sp_style sp) with Some _ => [st_lineWidth (sp_style sp)] | None => [] end)) (sv_paths s)).
    + apply all_paths. intros sp Hp Ht. unfold d2DrawTransformed. rewrite Ht, Hm. rewrite !flat_map_app, d2_ops_width, width_one.
      destruct (st_filler (sp_style sp)), (st_liner (sp_style sp)); reflexivity.
    + unfold stroke_widths. generalize (sv_paths s). intros l. induction l as [|sp l IH]; [reflexivity|]. cbn [flat_map]. now rewrite map_app, IH.
Qed.
(** ** gg *)
Lemma gg_ops_trace p : in_range p -> flat_map gg_trace (flat_map (ggOp (E := E) identity) p) = flat_map pens_of p.
Proof.
  induction 1 as [|o p Ho _ IH]; [reflexivity|]. cbn [flat_map]. rewrite flat_map_app, IH. unfold ggOp. rewrite (op_fixed o Ho). destruct o; reflexivity.
Qed.
Lemma gg_ops_width p : flat_map gg_strokes (flat_map (ggOp (E := E) identity) p) = [].
Proof. induction p as [|o p IH]; [reflexivity|]. cbn [flat_map]. rewrite flat_map_app, IH, app_nil_r. unfold ggOp. destruct (mapOp identity o); reflexivity. Qed.
Lemma gg_ops_mask p d : ~ List.In (GgSetMask d) (flat_map (ggOp (E := E) identity) p).
Proof.
  intros H. apply in_flat_map in H as (o & _ & H). unfold ggOp in H. destruct (mapOp identity o); cbn in H; intuition discriminate.
Qed.
Lemma gg_path mask sp o calls : in_range (sp_path sp) -> ggDrawPath (E := E) mask sp identity o = Ret calls ->
  flat_map gg_trace calls = flat_map pens_of (sp_path sp)
  /\ flat_map gg_strokes calls = map (fun w => fmul E w (fnum E 1)) (match st_liner (sp_style sp) with Some _ => [st_lineWidth (sp_style sp)] | None => [] end)
  /\ forall d, List.In (GgSetMask d) calls -> mask = Some d.
Proof.
  intros Hp H. unfold ggDrawPath in H. destruct (match st_filler (sp_style sp) with Some (PGrad g) => _ | Some (PPlain r g b a) => _ | None => _ end) as [fs|e| |] eqn:Hf; try discriminate H.
  cbn [obind] in H. injection H as <-. split; [|split].
  - rewrite !flat_map_app, gg_ops_trace by exact Hp. clear Hf.
    destruct mask, fs, (st_filler (sp_style sp)), (st_liner (sp_style sp)); cbn [flat_map gg_trace app]; now rewrite ?app_nil_r.
  - rewrite !flat_map_app, gg_ops_width. clear Hf. destruct mask, fs, (st_filler (sp_style sp)), (st_liner (sp_style sp)); cbn [flat_map gg_strokes app map]; try reflexivity. all: rewrite width_one; reflexivity.
  - intros d Hd. rewrite !in_app_iff in Hd. clear Hf. destruct Hd as [Hd|[Hd|[Hd|[Hd|[Hd|Hd]]]]].
    + destruct mask; cbn in Hd; destruct Hd as [Hd|[]]; [injection Hd as <-; reflexivity|discriminate].
    + destruct fs; cbn in Hd; intuition discriminate.
    + destruct (st_liner (sp_style sp)); cbn in Hd; intuition discriminate.
    + now apply gg_ops_mask in Hd.
    + destruct (st_filler (sp_style sp)), (st_liner (sp_style sp)); cbn in Hd; intuition discriminate.
    + destruct (st_liner (sp_style sp)); cbn in Hd; intuition discriminate.
Qed.
Definition path_ok (sp : svgPath E) (calls : list (ggCall E)) : Prop :=
  flat_map gg_trace calls = flat_map pens_of (sp_path sp)
  /\ flat_map gg_strokes calls = map (fun w => fmul E w (fnum E 1)) (match st_liner (sp_style sp) with Some _ => [st_lineWidth (sp_style sp)] | None => [] end)
  /\ forall d, List.In (GgSetMask d) calls -> exists id mk, mget id (sv_masks s) = Some mk /\ gg_natural s (mk_paths mk) d.
Lemma gg_all fs ps : (forall p, List.In p ps -> forall calls, fs p = Ret calls -> path_ok p calls) -> forall calls, omap fs ps = Ret calls ->
  gg_natural s ps calls /\ flat_map gg_strokes calls = map (fun w => fmul E w (fnum E 1)) (stroke_widths ps).
Proof.
  intros H. induction ps as [|p ps IH]; intros calls Hc; cbn [omap] in Hc.
  - injection Hc as <-. split; [|reflexivity]. constructor; [reflexivity|intros d []].
  - destruct (fs p) as [x|e| |] eqn:Hx; try discriminate Hc. cbn [obind] in Hc. destruct (omap fs ps) as [y|e| |] eqn:Hy; try discriminate Hc. cbn [obind] in Hc. injection Hc as <-.
    destruct (H p (or_introl eq_refl) x Hx) as (P1 & P2 & P3). destruct (IH (fun q Hq => H q (or_intror Hq)) y eq_refl) as [I1 I2].
    inversion I1 as [ps' y' J1 J2 K1 K2]. subst ps' y'. split.
    + constructor; [cbn [flat_map]; rewrite flat_map_app, P1, J1; reflexivity|]. intros d Hd. apply in_app_iff in Hd as [Hd|Hd]; auto.
    + unfold stroke_widths in *. cbn [flat_map]. rewrite flat_map_app, map_app, P2, I2. reflexivity.
Qed.
Lemma gg_transformed fuel : forall sp o calls, has_path s sp -> ggDrawTransformed fuel s sp identity o = Ret calls -> path_ok sp calls.
Proof.
  induction fuel as [|fuel IH]; intros sp o calls Hp H; [discriminate|]. cbn [ggDrawTransformed] in H.
  destruct (match rev (slice_read (sv_mheap s) (st_masks (sp_style sp))) with [] => _ | id :: _ => _ end) as [mask|e| |] eqn:Hk; try discriminate H. cbn [obind] in H.
  destruct (gg_path mask sp o calls (Hr sp Hp) H) as (P1 & P2 & P3). split; [exact P1|split; [exact P2|]]. intros d Hd. specialize (P3 d Hd). subst mask.
  destruct (rev (slice_read (sv_mheap s) (st_masks (sp_style sp)))) as [|id l]; [discriminate|]. destruct (mget id (sv_masks s)) as [mk|] eqn:Hg; [|discriminate].
  destruct (omap _ (mk_paths mk)) as [cs|e| |] eqn:Hc; try discriminate Hk. cbn [obind] in Hk. injection Hk as <-. exists id, mk. split; [exact Hg|].
  refine (proj1 (gg_all _ _ _ cs Hc)). intros q Hq calls' Hq'. apply (IH q (fnum E 1) calls'); [right; eauto|exact Hq'].
Qed.
Theorem gg_drawn_natural fuel calls : ggDrawSvg fuel s opts = Ret calls ->
  gg_natural s (sv_paths s) calls /\ flat_map gg_strokes calls = map (fun w => fmul E w (fnum E 1)) (stroke_widths (sv_paths s)).
Proof.
  unfold ggDrawSvg. apply gg_all. intros p Hp calls' H. rewrite Forall_forall in Hi. rewrite (Hi p Hp), Hm in H. eapply gg_transformed; [now left|exact H].
Qed.
End Matrix.

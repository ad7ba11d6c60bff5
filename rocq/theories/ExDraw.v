(** * ExDraw: example documents for the renderers, and lemmas about them *)
From Coq Require Import Reals Lra.
From Verif Require Export ProofsTarget.

(** documents for the examples *)
Definition demo_style (E : Env) (nz : bool) (fill line : option (pattern E)) (masks : sslice) : style E :=
  mkStyle (fnum E 1) (fnum E 1) (fnum E 2) nz (mkJoin 0 Bevel RoundCap NilCap NilGap) [fnum E 3] (fnum E 0) fill line masks identity.
Definition no_slice : sslice := mkSl 0 0 0.
Definition red E : option (pattern E) := Some (PPlain 255 0 0 255).
Definition blue E : option (pattern E) := Some (PPlain 0 0 255 255).
Definition demo_svg (E : Env) (paths : list (svgPath E)) (masks : smap (svgMask E)) (heap : list (list string)) : svg E :=
  mkSvg (mkB (fnum E 0) (fnum E 0) (fnum E 1) (fnum E 1)) [] [] paths identity masks "" "" [] [] heap.
Definition tri_path (n : Z) : path := [OpMoveTo (n, 0); OpLineTo (64, n); OpQuadTo (n, n) (n, 64); OpClose]%Z.
Definition open_path (n : Z) : path := [OpMoveTo (n, 0); OpCubicTo (64, n) (n, n) (n, 64)]%Z.


Lemma options_determined (E : Env) (s : svg E) (opts opts' : list (renderOption E)) :
  ro_opacity (options s opts) = match last_opacity opts with Some o => o | None => fnum E 1 end
  /\ (last_target opts = last_target opts' -> ro_target (options s opts) = ro_target (options s opts')).
Proof.
  destruct (options_last s opts) as [H1 H2], (options_last s opts') as [_ H3]. split; [exact H1|]. intros H. now rewrite H2, H3, H.
Qed.
Lemma target_wrong (O : ROracles) (s : svg (RealEnv O)) : sv_viewBox s = mkB (E := RealEnv O) 0%R 0%R 1%R 1%R ->
  maps (ro_target (options s [Target (E := RealEnv O) 10%R 0%R 2%R 2%R])) (0, 0)%R = (20, 0)%R
  /\ place (sv_viewBox s) 10%R 0%R 2%R 2%R (0, 0)%R = (10, 0)%R.
Proof.
  intros Hs. rewrite (target_eq s [Target (E := RealEnv O) 10%R 0%R 2%R 2%R] 10%R 0%R 2%R 2%R eq_refl), Hs. unfold target, maps, place. cbn. split; f_equal; field.
Qed.
Lemma widen_quarter (O : ROracles) (e f : R) :
  lineWidthScale (mkM (E := RealEnv O) (cos (PI / 2)) (sin (PI / 2)) (- sin (PI / 2))%R (cos (PI / 2)) e f) = 0%R.
Proof. unfold lineWidthScale. rewrite fnum_real. cbn. rewrite cos_PI2. field. Qed.
Lemma flat_map_map {A B C} (f : A -> B) (g : B -> list C) l : flat_map g (map f l) = flat_map (fun x => g (f x)) l.
Proof. induction l; cbn; congruence. Qed.
Lemma ignored (E : Env) (s : svg E) opts ext (dash : list (F E)) off masks :
  let no_masks sp := mkSvgPath (sp_path sp) (put_part MaskList masks (sp_style sp)) in
  let no_dash sp := mkSvgPath (sp_path sp) (put_part DashArray dash (put_part DashOffset off (sp_style sp))) in
  let redo f s := mkSvg (sv_viewBox s) (sv_titles s) (sv_descs s) (map f (sv_paths s)) (sv_transform s) (sv_masks s) (sv_width s) (sv_height s) (sv_grads s) (sv_defs s) (sv_mheap s) in
  rxDrawSvg ext (redo no_dash s) opts = rxDrawSvg ext s opts
  /\ rxDrawSvg ext (redo no_masks s) opts = rxDrawSvg ext s opts
  /\ d2DrawSvg (redo no_masks s) opts = d2DrawSvg s opts.
Proof.
  intros no_masks no_dash redo.
  assert (Ho : forall f, options (redo f s) opts = options s opts).
  { intros f. unfold options. generalize (mkRO (fnum E 1) (mkM (E := E) (fnum E 0) (fnum E 0) (fnum E 0) (fnum E 0) (fnum E 0) (fnum E 0))) as r.
    induction opts as [|o l IH]; intros r; [reflexivity|]. cbn [fold_left]. rewrite IH. destruct o; reflexivity. }
  unfold rxDrawSvg, d2DrawSvg. rewrite !Ho. subst redo. cbn [sv_paths]. rewrite !flat_map_map. repeat split; apply flat_map_ext; intros sp; reflexivity.
Qed.
Lemma d2_loses (E : Env) opts (s0 : d2State (E := E)) : exists (s : svg E) sp sub1 sub2 c,
  sv_paths s = [sp]
  /\ subpaths (moved_px (mMult (st_transform (sp_style sp)) (ro_target (options s opts)))) (sp_path sp) = [sub1; sub2]
  /\ painted d2_step s0 (d2DrawSvg s opts) = [D2Filled [sub2] true c].
Proof.
  destruct s0 as [rule f k [cap join width dash off] done cur].
  exists (demo_svg E [mkSvgPath (tri_path 5 ++ open_path 7) (demo_style E true (red E) None no_slice)] [] []).
  do 4 eexists. split; [reflexivity|]. split; [reflexivity|]. reflexivity.
Qed.
Lemma gg_fill_wrong (E : Env) (m : matrix E) (o : F E) st : clean st -> exists (sp : svgPath E) calls m1 m2 a1 a2 b1 p1 c,
  st_filler (sp_style sp) = red E /\ st_liner (sp_style sp) = blue E
  /\ ggDrawPath None sp m o = Ret calls
  /\ painted gg_step st calls = [GgFilled m1 a1 b1 (GgSolid c); GgStroked m2 a2 p1 (GgSolid c)].
Proof.
  destruct st as [mk rule f k [cap join width dash off] done cur]. intros [H1 H2]. cbn in H1, H2. subst.
  exists (mkSvgPath (open_path 7) (demo_style E true (red E) (blue E) no_slice)). do 8 eexists. repeat (split; [reflexivity|]). reflexivity.
Qed.
Lemma gg_leaks (E : Env) (m : matrix E) (o : F E) st : clean st -> exists (sp1 sp2 : svgPath E) calls1 calls2 b p,
  st_filler (sp_style sp1) = None /\ st_liner (sp_style sp1) = None
  /\ ggDrawPath None sp1 m o = Ret calls1 /\ ggDrawPath None sp2 m o = Ret calls2
  /\ painted gg_step st (calls1 ++ calls2) = [GgFilled None (subpaths (moved_px m) (sp_path sp1 ++ sp_path sp2)) b p].
Proof.
  destruct st as [mk rule f k [cap join width dash off] done cur]. intros [H1 H2]. cbn in H1, H2. subst.
  exists (mkSvgPath (tri_path 7) (demo_style E true None None no_slice)), (mkSvgPath (tri_path 5) (demo_style E true (red E) None no_slice)). do 4 eexists. repeat (split; [reflexivity|]). reflexivity.
Qed.
Lemma gg_closes (E : Env) (m : matrix E) (o : F E) st : clean st -> exists (sp : svgPath E) calls a b c p k,
  subpaths (moved_px m) (sp_path sp) = [mkSub a b false; c]
  /\ ggDrawPath None sp m o = Ret calls
  /\ painted gg_step st calls = [GgStroked None [mkSub a b true; c] p k].
Proof.
  destruct st as [mk rule f k [cap join width dash off] done cur]. intros [H1 H2]. cbn in H1, H2. subst.
  exists (mkSvgPath (open_path 7 ++ open_path 5) (demo_style E true None (red E) no_slice)). do 6 eexists. repeat (split; [reflexivity|]). reflexivity.
Qed.
Lemma rx_parsed_complete' (E : Env) fuel mode toks tm (s : svg E) err log ext opts : parse fuel mode toks tm = PSvg s err log ->
  forall t g o, List.In (RxSetColor t (RxGrad g o)) (rxDrawSvg ext s opts) ->
  Forall (fun x => stColor x <> None) (rg_stops g) /\ List.length (rg_points g) = 5.
Proof.
  intros H t g o Hin. pose proof (rx_parsed_complete fuel mode toks tm s err log ext opts H) as Hf. rewrite Forall_forall in Hf. exact (Hf _ Hin).
Qed.

(** ** Masks *)
From Verif Require Import ExPath.
Definition last_is (x : string) (l : list string) : bool := match rev l with y :: _ => String.eqb x y | [] => false end.
Lemma last_is_eq x l : last_is x l = true -> exists l', l = l' ++ [x].
Proof. unfold last_is. destruct l as [|y l _] using rev_ind; [discriminate|]. rewrite rev_unit. intros H. apply String.eqb_eq in H. subst. eauto. Qed.
Definition self_masked {E} (s : svg E) : bool :=
  match sv_paths s with sp :: _ => last_is "a" (path_masks s sp) | [] => false end
  && match mget "a"%string (sv_masks s) with Some mk => match mk_paths mk with p :: _ => last_is "a" (path_masks s p) | [] => false end | None => false end.
Lemma self_masked_hangs {E} (s : svg E) : self_masked s = true -> forall fuel opts, ggDrawSvg fuel s opts = NoFuel.
Proof.
  unfold self_masked. rewrite andb_true_iff. intros [H1 H2] fuel opts. destruct (sv_paths s) as [|sp l] eqn:Es; [discriminate|].
  destruct (mget "a"%string (sv_masks s)) as [mk|] eqn:Eg; [|discriminate]. destruct (mk_paths mk) as [|p r] eqn:Ep; [discriminate|].
  apply last_is_eq in H1 as [l1 H1], H2 as [l2 H2]. unfold ggDrawSvg. rewrite Es. cbn [omap]. rewrite (gg_self_mask s "a" mk p l2 r Eg Ep H2 fuel sp _ _ l1 H1). reflexivity.
Qed.
Definition C36_loop : node := Elem "svg" []
  [Elem "mask" [mkAttr "id" "a"] [Elem "line" [mkAttr "x2" "5"; mkAttr "mask" "url(#a)"] []];
   Elem "line" [mkAttr "x2" "5"; mkAttr "mask" "url(#a)"] []]%string.
Lemma loop_masked : match parse (E := D) 1 StrictErrorMode (tokens C36_loop) TermEOF with PSvg s None _ => self_masked s | _ => false end = true.
Proof. vm_compute. reflexivity. Qed.
Lemma gg_hangs : exists (s : svg D) log, parse 1 StrictErrorMode (tokens C36_loop) TermEOF = PSvg s None log /\ forall fuel opts, ggDrawSvg fuel s opts = NoFuel.
Proof.
  pose proof loop_masked as H. destruct (parse 1 StrictErrorMode (tokens C36_loop) TermEOF) as [e|s [e|] log| |]; try discriminate.
  exists s, log. split; [reflexivity|]. now apply self_masked_hangs.
Qed.
(** masks whose paths have no mask *)
Definition flat_masks {E} (s : svg E) : bool :=
  negb (List.length (sv_masks s) =? 0) && forallb (fun m => forallb (fun p => match path_masks s p with [] => true | _ => false end) (mk_paths (snd m))) (sv_masks s).
Lemma flat_acyclic {E} (s : svg E) : flat_masks s = true -> masks_acyclic s.
Proof.
  unfold flat_masks. rewrite andb_true_iff. intros [_ H] id Hl.
  assert (N : forall a b, ~ mask_ref s a b).
  { intros a b (mk & p & ids & Hg & Hp & Hm). rewrite forallb_forall in H. assert (Hin : List.In (a, mk) (sv_masks s)).
    { clear - Hg. induction (sv_masks s) as [|[k v] m IH]; [discriminate|]. cbn in Hg. destruct (String.eqb_spec a k) as [->|]; [injection Hg as ->; now left|right; auto]. }
    specialize (H _ Hin). rewrite forallb_forall in H. specialize (H p Hp). rewrite Hm in H. now destruct ids. }
  inversion Hl; subst; eapply N; eassumption.
Qed.

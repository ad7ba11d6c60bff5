(** * ExPaint: documents for the examples of PropertiesPaint *)
From Verif Require Export ProofsPicture ExDraw.

Definition pen_style (E : Env) (nz : bool) (fill line : option (pattern E)) (j : joinMode) : style E :=
  mkStyle (fnum E 1) (fnum E 1) (fnum E 2) nz (mkJoin 4 j RoundCap NilCap NilGap) [] (fnum E 0) fill line no_slice identity.
Definition agree_svg (E : Env) : svg E := demo_svg E
  [mkSvgPath (tri_path 5) (pen_style E false (red E) None Bevel); mkSvgPath (tri_path 7) (pen_style E true (blue E) (blue E) Round);
   mkSvgPath (open_path 9) (pen_style E true None (red E) Bevel)] [] [].
Definition miter_svg (E : Env) : svg E := demo_svg E [mkSvgPath (open_path 9) (pen_style E true None (red E) Miter)] [] [].
Lemma pen_common (E : Env) nz (f l : option (pattern E)) j : plain_opaque f -> plain_opaque l -> j = Round \/ j = Bevel -> common (pen_style E nz f l j).
Proof. intros Hf Hl Hj. unfold common. cbn. auto 10. Qed.
Lemma red_opaque E : plain_opaque (red E). Proof. cbn. unfold byte. repeat split; discriminate. Qed.
Lemma blue_opaque E : plain_opaque (blue E). Proof. cbn. unfold byte. repeat split; discriminate. Qed.
Lemma tri_one n : one_move (tri_path n). Proof. do 2 eexists. split; reflexivity. Qed.
Lemma open_one n : one_move (open_path n). Proof. do 2 eexists. split; reflexivity. Qed.
Lemma agree_svg_fine (E : Env) : Forall (agreeable (agree_svg E)) (sv_paths (agree_svg E)) /\ rules_fine true (sv_paths (agree_svg E))
  /\ forall opts, List.length (picture (options (agree_svg E) opts) (sv_paths (agree_svg E))) = 4.
Proof.
  split; [|split; [|reflexivity]].
  - repeat apply Forall_cons; try apply Forall_nil; (split; [apply pen_common; auto using red_opaque, blue_opaque; exact I|]); (split; [first [apply tri_one|apply open_one]|]); cbn; auto.
  - cbn. repeat split; auto.
Qed.
Lemma miter_differs (E : Env) opts (s0 : d2State (E := E)) st fuel : g_done st = [] -> g_cur st = None ->
  exists area p q c k calls, painted d2_step s0 (d2DrawSvg (miter_svg E) opts) = [D2Stroked area p c]
  /\ ggDrawSvg (S fuel) (miter_svg E) opts = Ret calls /\ painted gg_step st calls = [GgStroked None area q k]
  /\ dp_join p = LjMiter /\ gp_join q = LjBevel.
Proof.
  intros H1 H2. destruct s0 as [rule f k0 [cap join width dash off] done cur]. destruct st as [mk grule gf gk [gcap gjoin gwidth gdash goff] gdone gcur]. cbn in H1, H2. subst.
  do 6 eexists. split; [reflexivity|]. split; [reflexivity|]. split; [reflexivity|]. split; reflexivity.
Qed.
(** a document with everything the partial theorems of C35 exclude: two subpaths, a gradient, a translucent colour, two
    paints, a path without paint, a mask *)
Definition grey_gradient (E : Env) : gradient E :=
  mkGrad (Some (Linear (fnum E 0) (fnum E 0) (fnum E 1) (fnum E 0))) [mkStop None (fnum E 0) (fnum E 1); mkStop (Some (CRGBA 7 8 9 255)) (fnum E 1) (fnum E 1)]
    (mkB (fnum E 0) (fnum E 0) (fnum E 1) (fnum E 1)) identity PadSpread ObjectBoundingBox.
Definition odd_svg (E : Env) : svg E := demo_svg E
  [mkSvgPath (open_path 3) (pen_style E true None None Bevel);
   mkSvgPath (tri_path 5 ++ open_path 6) (pen_style E true (Some (PPlain 200 100 50 128)) (Some (PGrad (grey_gradient E))) Miter);
   mkSvgPath (open_path 9) (demo_style E false (red E) None (mkSl 0 1 1))]
  [("m", mkMask "m" (fnum E 0) (fnum E 0) (fnum E 0) (fnum E 0) [mkSvgPath (tri_path 3) (pen_style E true (blue E) None Bevel)] identity)]%string [["m"]]%string.

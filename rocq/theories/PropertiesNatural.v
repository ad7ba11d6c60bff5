(** * PropertiesNatural: drawing a document into its own view box (C60) *)
From Coq Require Import ZArith Lia Reals Lra Floats.SpecFloat.
From Verif Require Import F64 RealEnv SpecNatural SpecArc64 ProofsNatural ProofsCoord ExTree PropertiesEdit ProofsClose ProofsFlocq.

(** ** C60: a document without transforms, drawn into its own view box, is drawn point for point *)
(** Whatever is parsed, every stored coordinate is one of a 32-bit fixed point number. *)
Theorem C60_range : forall (O : Oracles) (fuel : nat) (mode : errorMode) (toks : list token) (tm : term) (s : svg (F64 O)) err log p,
  parse fuel mode toks tm = PSvg s err log -> has_path s p -> in_range (sp_path p).
Proof. intros O fuel mode toks tm s err log p. apply parsed_range. intros x. apply wrap32_int. Qed.
Print Assumptions C60_range.
Theorem C60_range_exact : forall (Q : ROracles) (fuel : nat) (mode : errorMode) (toks : list token) (tm : term) (s : svg (RealEnv Q)) err log p,
  parse fuel mode toks tm = PSvg s err log -> has_path s p -> in_range (sp_path p).
Proof. intros Q fuel mode toks tm s err log p. apply parsed_range. intros x. apply wrap32_int. Qed.
Print Assumptions C60_range_exact.
(** If no element declares a transform, every stored path, masks included, has the identity. *)
Theorem C60_untransformed : forall (E : Env) (fuel : nat) (mode : errorMode) (toks : list token) (tm : term) (s : svg E) err log p,
  Forall plain_token toks -> parse fuel mode toks tm = PSvg s err log -> has_path s p -> st_transform (sp_style p) = identity.
Proof. exact (@parsed_untransformed). Qed.
Print Assumptions C60_untransformed.

Section Natural.
Context (O : Oracles).
Notation E := (F64 O).
(** a view box that is not empty *)
Definition real_box (b : bounds E) : Prop :=
  finite64 (bX b) /\ finite64 (bY b) /\ finite64 (bW b) /\ finite64 (bH b) /\ value64 (bW b) <> 0%R /\ value64 (bH b) <> 0%R.
Lemma natural fuel mode toks tm (s : svg E) err log opts : Forall plain_token toks -> parse fuel mode toks tm = PSvg s err log ->
  natural_size s opts -> real_box (sv_viewBox s) ->
  mMult identity (ro_target (options s opts)) = identity /\ (forall p, has_path s p -> in_range (sp_path p))
  /\ Forall (fun sp => st_transform (sp_style sp) = identity) (sv_paths s).
Proof.
  intros Ht Hp Hn (B1 & B2 & B3 & B4 & B5 & B6). split; [|split].
  - apply natural_matrix; assumption.
  - intros p. apply (C60_range O fuel mode toks tm s err log p Hp).
  - apply Forall_forall. intros p Hin. eapply C60_untransformed; [exact Ht|exact Hp|now left].
Qed.
Lemma widths_kept l : Forall finite64 l -> map (fun w => fmul E w (fnum E 1)) l = l.
Proof. induction 1 as [|w l [V Fw] _ IH]; [reflexivity|]. cbn [map]. rewrite IH. f_equal. exact (mul_one w V Fw). Qed.
Lemma widths_grid l : Forall (fun w => finite64 (fmul E w (fnum E 64))) l ->
  map (fun w => f_to_i32 E (fmul E (fmul E w (fnum E 64)) (fnum E 1))) l = map (fun w => f_to_i32 E (fmul E w (fnum E 64))) l.
Proof. induction 1 as [|w l [V Fw] _ IH]; [reflexivity|]. cbn [map]. rewrite IH. do 2 f_equal. exact (mul_one _ V Fw). Qed.
End Natural.

(** rasterx is given the stored operations themselves, for the fill and for the stroke, and strokes of the stored widths. *)
Theorem C60_rasterx : forall (O : Oracles) fuel mode toks tm (s : svg (F64 O)) err log opts ext,
  Forall plain_token toks -> parse fuel mode toks tm = PSvg s err log -> natural_size s opts -> real_box O (sv_viewBox s) ->
  flat_map rx_trace (rxDrawSvg ext s opts)
    = flat_map (fun sp => (match st_filler (sp_style sp) with Some _ => map (pair Filler) (sp_path sp) | None => [] end)
                         ++ (match st_liner (sp_style sp) with Some _ => map (pair Stroker) (sp_path sp) | None => [] end)) (sv_paths s)
  /\ (Forall (fun w => finite64 (fmul (F64 O) w (fnum (F64 O) 64))) (stroke_widths (sv_paths s)) ->
      flat_map rx_strokes (rxDrawSvg ext s opts) = map (fun w => f_to_i32 (F64 O) (fmul (F64 O) w (fnum (F64 O) 64))) (stroke_widths (sv_paths s))).
Proof.
  intros O fuel mode toks tm s err log opts ext Ht Hp Hn Hb. destruct (natural O fuel mode toks tm s err log opts Ht Hp Hn Hb) as (H1 & H2 & H3).
  destruct (rx_natural O s opts H1 H2 H3 ext) as [R1 R2]. split; [exact R1|]. intros Hw. rewrite R2. apply widths_grid, Hw.
Qed.
Print Assumptions C60_rasterx.
(** draw2d is given the stored points in pixels, in order, and the stored widths. *)
Theorem C60_draw2d : forall (O : Oracles) fuel mode toks tm (s : svg (F64 O)) err log opts,
  Forall plain_token toks -> parse fuel mode toks tm = PSvg s err log -> natural_size s opts -> real_box O (sv_viewBox s) ->
  flat_map d2_trace (d2DrawSvg s opts) = flat_map (fun sp => flat_map pens_of (sp_path sp)) (sv_paths s)
  /\ (Forall finite64 (stroke_widths (sv_paths s)) -> flat_map d2_strokes (d2DrawSvg s opts) = stroke_widths (sv_paths s)).
Proof.
  intros O fuel mode toks tm s err log opts Ht Hp Hn Hb. destruct (natural O fuel mode toks tm s err log opts Ht Hp Hn Hb) as (H1 & H2 & H3).
  destruct (d2_natural O s opts H1 H2 H3) as [R1 R2]. split; [exact R1|]. intros Hw. rewrite R2. apply widths_kept, Hw.
Qed.
Print Assumptions C60_draw2d.
(** gg too, and the masks it draws first are again drawn point for point. *)
Theorem C60_gg : forall (O : Oracles) fuel mode toks tm (s : svg (F64 O)) err log opts gfuel calls,
  Forall plain_token toks -> parse fuel mode toks tm = PSvg s err log -> natural_size s opts -> real_box O (sv_viewBox s) ->
  ggDrawSvg gfuel s opts = Ret calls ->
  gg_natural s (sv_paths s) calls
  /\ (Forall finite64 (stroke_widths (sv_paths s)) -> flat_map gg_strokes calls = stroke_widths (sv_paths s)).
Proof.
  intros O fuel mode toks tm s err log opts gfuel calls Ht Hp Hn Hb Hg. destruct (natural O fuel mode toks tm s err log opts Ht Hp Hn Hb) as (H1 & H2 & H3).
  destruct (gg_drawn_natural O s opts H1 H2 H3 gfuel calls Hg) as [R1 R2]. split; [exact R1|]. intros Hw. rewrite R2. apply widths_kept, Hw.
Qed.
Print Assumptions C60_gg.

(** a document with a group, a used definition, a mask and a stroke; the point 33.3 is not a float64 number *)
Definition C60_doc : list token := flat_map tokens
  [Elem "svg" [mkAttr "viewBox" "3 4 100 80"]
    [Elem "defs" [] [Elem "line" [mkAttr "id" "l"; mkAttr "x2" "9"] []];
     Elem "mask" [mkAttr "id" "k"] [Elem "path" [mkAttr "d" "M0,0L9,0L9,9Z"] []];
     Elem "g" [mkAttr "mask" "url(#k)"] [Elem "path" [mkAttr "d" "M1,2Q33.3,4 5,6C7,8 9,10 -1,-2z"] []];
     Elem "use" [mkAttr "href" "#l"; mkAttr "x" "5"; mkAttr "stroke" "#f00"; mkAttr "stroke-width" "3"] []]]%string.
Definition C60_seen (r : presult D) : list (rxTarget * op) * list Z :=
  match r with
  | PSvg s None [] =>
    let b := sv_viewBox s in let calls := rxDrawSvg (fun _ => (0, 0, 0, 0)%Z) s [Target (bX b) (bY b) (bW b) (bH b)] in
    (flat_map rx_trace calls, flat_map rx_strokes calls)
  | _ => ([], [])
  end.
Lemma C60_attrs l : forallb (fun a => ExTree.tidy (a_name a) && lacks ":" (a_name a) && ExTree.tidy (a_val a) && lacks ":" (a_val a) && negb (String.eqb (low_case (a_name a)) "style")
  && negb (String.eqb (low_case (a_name a)) "transform")) l = true -> untransformed l.
Proof.
  intros H. exists (map (fun a => (low_case (a_name a), a_val a)) l). induction l as [|[n v] l IH]; [split; constructor|]. cbn [forallb] in H.
  apply andb_true_iff in H as [H1 H2]. destruct (IH H2) as [I1 I2]. apply andb_true_iff in H1 as [H1 H3]. cbn [a_name a_val] in *.
  split; cbn [map a_name a_val]; [|constructor; [|exact I2]].
  - apply (ads_cons _ [(low_case n, v)] l); [apply C53_attr, H1|exact I1].
  - cbn [fst]. apply negb_true_iff, String.eqb_neq in H3. exact H3.
Qed.
Example C60_example : Forall plain_token C60_doc
  /\ C60_seen (parse (E := D) 100 StrictErrorMode C60_doc TermEOF)
     = ([(Filler, OpMoveTo (64, 128)); (Filler, OpQuadTo (2131, 256) (320, 384)); (Filler, OpCubicTo (448, 512) (576, 640) (-64, -128)); (Filler, OpClose);
         (Filler, OpMoveTo (320, 0)); (Filler, OpLineTo (896, 0)); (Stroker, OpMoveTo (320, 0)); (Stroker, OpLineTo (896, 0))]%Z, [192%Z]).
Proof.
  split; [|vm_compute; reflexivity].
  unfold C60_doc. cbn [flat_map tokens app plain_token]. repeat (constructor; [first [exact I | apply C60_attrs; reflexivity]|]). constructor.
Qed.
(** its view box is not empty *)
Example C60_box : match parse (E := D) 100 StrictErrorMode C60_doc TermEOF with
  PSvg s None [] => real_box demoO (sv_viewBox s) /\ natural_size s [Target (bX (sv_viewBox s)) (bY (sv_viewBox s)) (bW (sv_viewBox s)) (bH (sv_viewBox s))] | _ => False end.
Proof.
  assert (K : match parse (E := D) 100 StrictErrorMode C60_doc TermEOF with
    PSvg s None [] => Some [bX (sv_viewBox s); bY (sv_viewBox s); bW (sv_viewBox s); bH (sv_viewBox s)] | _ => None end
    = Some [fnum D 3; fnum D 4; fnum D 100; fnum D 80]).
  { change (@eq (option (list SpecFloat.spec_float)) (match parse (E := D) 100 StrictErrorMode C60_doc TermEOF with
    PSvg s None [] => Some [bX (sv_viewBox s); bY (sv_viewBox s); bW (sv_viewBox s); bH (sv_viewBox s)] | _ => None end)
    (Some [sf_lit 3 1; sf_lit 4 1; sf_lit 100 1; sf_lit 80 1])). vm_compute. reflexivity. }
  destruct (parse 100 StrictErrorMode C60_doc TermEOF) as [e|s [e|] [|l log]| |]; try discriminate K. injection K as K1 K2 K3 K4.
  split; [|reflexivity]. destruct (sv_viewBox s) as [x y w h]. cbn [bX bY bW bH] in K1, K2, K3, K4. subst x y w h. unfold real_box. cbn [bX bY bW bH].
  assert (V : forall z, (0 < z < 2 ^ 53)%Z -> finite64 (fnum D z) /\ value64 (fnum D z) = IZR z) by (intros z Hz; exact (ProofsClose.num_val demoO z Hz)).
  destruct (V 3%Z ltac:(lia)), (V 4%Z ltac:(lia)), (V 100%Z ltac:(lia)) as [A1 A2], (V 80%Z ltac:(lia)) as [B1 B2].
  repeat (split; [assumption|]). split; [intros N; pose proof (eq_trans (eq_sym A2) N) as M|intros N; pose proof (eq_trans (eq_sym B2) N) as M]; apply eq_IZR in M; discriminate.
Qed.

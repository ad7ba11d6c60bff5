(** * ProofsLand: where the points of a document land (C62) *)
From Coq Require Import ZArith Lia Reals Lra Psatz Floats.SpecFloat.
From Flocq Require Import Core.Core IEEE754.BinarySingleNaN.
From Verif Require Import F64 RealEnv ProofsSize3 ProofsArc64 ProofsRect ProofsDraw2 ProofsTarget ProofsScale ProofsClose ProofsNatural SpecLand ProofsFlocq.
Local Open Scope R_scope.

Section Land.
Context (O : Oracles) (Q : ROracles).
Notation E := (F64 O).
Notation X := (RealEnv Q).
Notation exm := (ex_matrix O Q).
Context (s : svg E) (opts : list (renderOption E)) (x y w h : F E).
Notation vb := (sv_viewBox s).
Context (Hl : last_target opts = Some (x, y, w, h)) (Ht : sized_target O vb opts).
Notation place := (on_page O vb x y w h).
Notation page t := (mMult t (ro_target (options s opts))).
Notation page' t := (mMult (exm t) (ro_target (options (ex_svg O Q s) (ex_options O Q opts)))).

Lemma scales : Rabs (scale_x O vb w) <= 2 ^ 10 /\ Rabs (scale_y O vb h) <= 2 ^ 10.
Proof using Hl Ht.
  destruct Ht as (_ & _ & _ & _ & _ & _ & _ & x' & y' & w' & h' & H & _ & _ & _ & _ & H1 & H2). rewrite Hl in H. injection H as <- <- <- <-. split; assumption.
Qed.
Lemma page_dest t p : maps (page' t) p = dest O vb x y w h t p.
Proof using Hl.
  rewrite (target_eq (ex_svg O Q s) (ex_options O Q opts) (val x) (val y) (val w) (val h)) by (rewrite last_target_ex, Hl; reflexivity).
  unfold maps, dest, scaled_pt, scale_x, scale_y, target, mMult, ex_matrix. cbn [fst snd mA mB mC mD mE mF fadd fmul RealEnv sv_viewBox ex_svg ex_bounds bX bY bW bH]. unfold Rdiv. f_equal; ring.
Qed.
Lemma trunc_close r : Rabs r <= 2147483647 -> Rabs (IZR (wrap32 (Ztrunc r)) - r) <= 1.
Proof using.
  intros Hr. rewrite wrap32_id by (apply trunc_int32; lra). destruct (Rle_or_lt 0 r) as [H|H].
  - rewrite Ztrunc_floor by exact H. pose proof (Zfloor_lb r). pose proof (Zfloor_ub r). apply Rabs_le. lra.
  - rewrite Ztrunc_ceil by lra. pose proof (Zceil_ub r). pose proof (Zceil_lb r). apply Rabs_le. lra.
Qed.
(** a linear form at two points that differ by one unit in each coordinate *)
Lemma form_close a c e (z z' b b' : Z) : (Z.abs (z - b) <= 1)%Z -> (Z.abs (z' - b') <= 1)%Z ->
  Rabs ((a * (IZR z / 64) + c * (IZR z' / 64) + e) - (a * (IZR b / 64) + c * (IZR b' / 64) + e)) <= (Rabs a + Rabs c) / 64.
Proof using.
  intros H H'. apply IZR_le in H, H'. rewrite <- abs_IZR in H, H'. rewrite minus_IZR in H, H'.
  replace (_ - _) with (a * (IZR z - IZR b) / 64 + c * (IZR z' - IZR b') / 64) by field.
  eapply Rle_trans; [apply Rabs_triang|]. unfold Rdiv. rewrite !Rabs_mult, (Rabs_pos_eq (/ 64)) by lra.
  pose proof (Rabs_pos a). pose proof (Rabs_pos c). nra.
Qed.
Lemma dest_close t z b : pt_within 1 z b ->
  Rabs (fst (place t z) - fst (place t b)) <= (tol_x O vb w h t - 2) / 64 /\ Rabs (snd (place t z) - snd (place t b)) <= (tol_y O vb w h t - 2) / 64.
Proof using.
  intros [H1 H2]. unfold on_page, dest, scaled_pt, tol_x, tol_y. cbn [fst snd]. set (sx := scale_x O vb w). set (sy := scale_y O vb h). split.
  - replace (_ - _) with ((val (mA t) * sx * (IZR (fst z) / 64) + val (mC t) * sy * (IZR (snd z) / 64) + 0) - (val (mA t) * sx * (IZR (fst b) / 64) + val (mC t) * sy * (IZR (snd b) / 64) + 0)) by ring.
    eapply Rle_trans; [apply form_close; assumption|]. right. field.
  - replace (_ - _) with ((val (mB t) * sx * (IZR (fst z) / 64) + val (mD t) * sy * (IZR (snd z) / 64) + 0) - (val (mB t) * sx * (IZR (fst b) / 64) + val (mD t) * sy * (IZR (snd b) / 64) + 0)) by ring.
    eapply Rle_trans; [apply form_close; assumption|]. right. field.
Qed.
Lemma tol_small t : sized_matrix O t -> tol_x O vb w h t <= 2 ^ 22 /\ tol_y O vb w h t <= 2 ^ 22.
Proof using Hl Ht.
  intros (HA & HB & HC & HD & _ & _). destruct scales as [Sx Sy]. unfold tol_x, tol_y. rewrite !Rabs_mult.
  assert (H : forall a b, Rabs a <= 2 ^ 10 -> Rabs b <= 2 ^ 10 -> Rabs a * Rabs b <= 2 ^ 20).
  { intros a b Ha Hb. replace (2 ^ 20) with (2 ^ 10 * 2 ^ 10) by ring. apply Rmult_le_compat; try apply Rabs_pos; assumption. }
  pose proof (H _ _ (proj2 HA) Sx). pose proof (H _ _ (proj2 HB) Sx). pose proof (H _ _ (proj2 HC) Sy). pose proof (H _ _ (proj2 HD) Sy). split; lra.
Qed.
(** a point not too far out *)
Definition safe (t : matrix E) (z : pt) : Prop :=
  (Z.abs (fst z) <= 2 ^ 23 /\ Z.abs (snd z) <= 2 ^ 23)%Z /\ Rabs (fst (place t z)) <= 33554431 /\ Rabs (snd (place t z)) <= 33554431.
Lemma safe_within t z b : sized_matrix O t -> pt_within 1 z b -> (Z.abs (fst b) <= 2 ^ 22 /\ Z.abs (snd b) <= 2 ^ 22)%Z ->
  Rabs (fst (place t b)) <= 2 ^ 24 -> Rabs (snd (place t b)) <= 2 ^ 24 -> safe t z.
Proof using Hl Ht.
  intros Hs Hz Hb B1 B2. destruct (dest_close t z b Hz) as [D1 D2]. destruct (tol_small t Hs) as [T1 T2]. split; [|split].
  - destruct Hz as [Z1 Z2]. lia.
  - pose proof (Rabs_triang (fst (place t z) - fst (place t b)) (fst (place t b))) as H. replace (_ - _ + _) with (fst (place t z)) in H by ring. lra.
  - pose proof (Rabs_triang (snd (place t z) - snd (place t b)) (snd (place t b))) as H. replace (_ - _ + _) with (snd (place t z)) in H by ring. lra.
Qed.
Lemma point_lands t z b : sized_matrix O t -> safe t z -> pt_within 1 z b ->
  pt_lands O vb x y w h t (tFixed (page t) z) b /\ px_lands O vb x y w h t (toFloat (tFixed (page t) z)) b.
Proof using Q Hl Ht.
  intros Hs (Hr & Q1 & Q2) Hz. pose proof (mult_near O Q t _ _ Hs (target_near O Q s opts Ht)) as HM. destruct (dest_close t z b Hz) as [D1 D2].
  destruct (point_near O Q (page t) (page' t) z HM) as (K & I1 & I2 & _ & _); [exact Hr|rewrite page_dest; exact Q1|rewrite page_dest; exact Q2|].
  assert (P : pt_lands O vb x y w h t (tFixed (page t) z) b).
    { assert (M1 : fst (tFixed (page' t) z) = wrap32 (Ztrunc (64 * fst (place t z))) /\ snd (tFixed (page' t) z) = wrap32 (Ztrunc (64 * snd (place t z)))).
      { unfold on_page. rewrite <- page_dest. unfold maps, tFixed. rewrite fnum_real. cbn [fst snd fadd fmul f_of_Z f_to_i32 RealEnv]. split; do 2 f_equal; field. }
      destruct K as [K1 K2]. rewrite (proj1 M1) in K1. rewrite (proj2 M1) in K2. apply IZR_le in K1, K2. rewrite <- abs_IZR, minus_IZR in K1, K2.
      pose proof (trunc_close (64 * fst (place t z)) ltac:(rewrite Rabs_mult, (Rabs_pos_eq 64) by lra; lra)) as C1.
      pose proof (trunc_close (64 * snd (place t z)) ltac:(rewrite Rabs_mult, (Rabs_pos_eq 64) by lra; lra)) as C2.
      split.
      - set (u := IZR (fst (tFixed (page t) z))) in *. set (v := IZR (wrap32 (Ztrunc (64 * fst (place t z))))) in *. apply Rabs_le_inv in K1, C1, D1. apply Rabs_le. lra.
      - set (u := IZR (snd (tFixed (page t) z))) in *. set (v := IZR (wrap32 (Ztrunc (64 * snd (place t z))))) in *. apply Rabs_le_inv in K2, C2, D2. apply Rabs_le. lra. }
    split; [exact P|]. destruct P as [P1 P2]. unfold px_lands, toFloat. cbn [fst snd]. rewrite !float_px by assumption.
    assert (Fi : forall n, in32 n -> finite64 (fdiv E (f_of_Z E n) (fnum E 64))).
    { intros n Hn. unfold in32 in Hn. destruct (num_val O 64) as [[V6 F6] H6]; [lia|]. destruct (of_Z_val n) as [Fz Hv]; [lia|].
      destruct (div_round (f_of_Z E n) (fnum E 64) (of_Z_valid n) V6 Fz F6) as [G1 G2]; [lra| |].
      { rewrite H6. cbn [f_of_Z F64]. rewrite Hv. apply (no_over 40); [lia|]. unfold Rdiv. rewrite Rabs_mult, abs_IZR, (Rabs_pos_eq (/ 64)) by lra. apply IZR_le in Hn. cbn. lra. }
      split; [apply div_valid; [apply of_Z_valid|exact V6]|exact G1]. }
    split; (split; [apply Fi; assumption|]).
    + apply Rabs_le_inv in P1. apply Rabs_le. lra.
    + apply Rabs_le_inv in P2. apply Rabs_le. lra.
Qed.

(** ** Operations and outlines *)
Definition safe_op (t : matrix E) (q : op) : Prop := forall z, List.In z (op_points q) -> safe t z.
Lemma op_maps t q p : sized_matrix O t -> safe_op t q -> op_within 1 q p ->
  op_lands O vb x y w h t (mapOp (page t) q) p
  /\ Forall2 (pen_lands O vb x y w h t) (pens_of (mapOp (page t) q)) (if drawing_op p then [p] else []).
Proof using Q Hl Ht.
  intros Hs Hp Hw. assert (K : forall z b, pt_within 1 z b -> List.In z (op_points q) -> pt_lands O vb x y w h t (tFixed (page t) z) b /\ px_lands O vb x y w h t (px (tFixed (page t) z)) b).
  { intros z b Hz Hb. exact (point_lands t z b Hs (Hp z Hb) Hz). }
  destruct Hw; cbn [op_points] in K; unfold mapOp; cbn [drawing_op pens_of];
  repeat match goal with H : pt_within 1 ?z ?b |- _ => destruct (K z b H) as [? ?]; [cbn; tauto|clear H] end;
  (split; [first [apply la_move | apply la_line | apply la_quad | apply la_cubic | apply la_close]; assumption|repeat first [apply Forall2_cons|apply Forall2_nil]; first [apply pl_move | apply pl_line | apply pl_quad | apply pl_cubic]; assumption]).
Qed.
Lemma path_maps t q p : sized_matrix O t -> Forall (safe_op t) q -> Forall2 (op_within 1) q p ->
  Forall2 (op_lands O vb x y w h t) (map (mapOp (page t)) q) p
  /\ Forall2 (pen_lands O vb x y w h t) (flat_map pens_of (map (mapOp (page t)) q)) (filter drawing_op p).
Proof using Q Hl Ht.
  intros Hs Hp Hw. induction Hw as [|o o' q p Ho Hw IH]; [split; constructor|]. inversion Hp as [|? ? P1 P2]. subst.
  destruct (op_maps t o o' Hs P1 Ho) as [H1 H2]. destruct (IH P2) as [J1 J2].
  split; [constructor; assumption|]. cbn [map flat_map filter]. destruct (drawing_op o'); [exact (Forall2_app H2 J2)|]. inversion H2 as [H3|]. exact J2.
Qed.
Lemma path_safe t q p : sized_matrix O t -> Forall2 (op_within 1) q p ->
  (forall o a, List.In o p -> List.In a (op_points o) -> (Z.abs (fst a) <= 2 ^ 22 /\ Z.abs (snd a) <= 2 ^ 22)%Z /\ Rabs (fst (place t a)) <= 2 ^ 24 /\ Rabs (snd (place t a)) <= 2 ^ 24) ->
  Forall (safe_op t) q.
Proof using Hl Ht.
  intros Hs Hw. induction Hw as [|o o' q p Ho Hw IH]; intros Hp; constructor.
  - assert (K : forall z b, pt_within 1 z b -> List.In b (op_points o') -> safe t z).
    { intros z b Hz Hb. destruct (Hp o' b (or_introl eq_refl) Hb) as (H1 & H2 & H3). exact (safe_within t z b Hs Hz H1 H2 H3). }
    intros z Hz. destruct Ho; cbn in Hz; decompose [or] Hz; try contradiction; subst; (eapply K; [eassumption|cbn; tauto]).
  - apply IH. intros o1 a Ho1. apply Hp. now right.
Qed.

(** ** Traces *)
Lemma flat_flat {A B C} (f : B -> list C) (g : A -> list B) l : flat_map f (flat_map g l) = flat_map (fun a => flat_map f (g a)) l.
Proof using. induction l as [|a l IH]; [reflexivity|]. cbn. now rewrite flat_map_app, IH. Qed.
Lemma flat_one {A B} (f : A -> list B) (g : A -> B) l : (forall a, f a = [g a]) -> flat_map f l = map g l.
Proof using. intros H. induction l as [|a l IH]; [reflexivity|]. cbn. now rewrite H, IH. Qed.
Lemma rx_trace_ops (m : matrix E) t p : flat_map rx_trace (flat_map (rxOp (E := E) t m) p) = map (pair t) (map (mapOp m) p).
Proof using. rewrite flat_flat, map_map. apply flat_one. intros o. unfold rxOp. destruct (mapOp m o); reflexivity. Qed.
Lemma pens_eq (m : matrix E) (f : op -> list (pen (E := E))) p : (forall o, f o = pens_of (mapOp m o)) -> flat_map f p = flat_map pens_of (map (mapOp m) p).
Proof using. intros H. induction p as [|o p IH]; [reflexivity|]. cbn. now rewrite H, IH. Qed.
Lemma d2_trace_ops (m : matrix E) p : flat_map d2_trace (flat_map (d2Op (E := E) m) p) = flat_map pens_of (map (mapOp m) p).
Proof using. rewrite flat_flat. apply pens_eq. intros o. unfold d2Op. destruct (mapOp m o); reflexivity. Qed.
Lemma gg_trace_ops (m : matrix E) p : flat_map gg_trace (flat_map (ggOp (E := E) m) p) = flat_map pens_of (map (mapOp m) p).
Proof using. rewrite flat_flat. apply pens_eq. intros o. unfold ggOp. destruct (mapOp m o); reflexivity. Qed.

(** ** Figures *)
Notation shown := (drawn E (nearly O Q) vb).
Lemma near_outline ps : forall q0 q p0 p, outlines E (nearly O Q) vb q0 ps q -> Forall2 (op_within 1) q0 p0 ->
  outlines E (meant O Q) vb p0 ps p -> Forall2 (op_within 1) q p.
Proof using.
  induction ps as [|[[off name] attrs] ps IH]; intros q0 q p0 p H H0 H1; inversion H; inversion H1; subst; [exact H0|].
  match goal with H : nearly _ _ _ _ _ _ ?q1, H' : meant _ _ _ _ _ _ ?p1 |- _ => pose proof (proj2 H p1 H') as W1 end.
  eapply IH; [eassumption| |eassumption]. unfold joined. destruct (_ && _); [exact W1|apply Forall2_app; assumption].
Qed.
Lemma figure_maps t f sp : page_fits O Q vb x y w h t f -> shown f sp -> forall p, exact_outline O Q vb f p ->
  Forall2 (op_lands O vb x y w h t) (map (mapOp (page t)) (sp_path sp)) p
  /\ Forall2 (pen_lands O vb x y w h t) (flat_map pens_of (map (mapOp (page t)) (sp_path sp))) (filter drawing_op p).
Proof using Hl Ht.
  intros (Hs & p0 & H0 & Hf) (_ & _ & Ho) p Hp. apply (path_maps t); [exact Hs| |].
  - apply (path_safe t _ p0 Hs); [|exact Hf]. exact (near_outline _ _ _ _ _ Ho (Forall2_nil _) H0).
  - exact (near_outline _ _ _ _ _ Ho (Forall2_nil _) Hp).
Qed.
Lemma rx_lands ext f sp : page_fits O Q vb x y w h (turned O f) f -> shown f sp -> rx_figure O Q vb x y w h f (flat_map rx_trace (rxDrawTransformed ext (options s opts) sp)).
Proof using Hl Ht.
  intros Hf Hs. eexists. split; [intros p Hp; exact (proj1 (figure_maps _ _ _ Hf Hs p Hp))|].
  destruct Hs as (Hst & _ & _). unfold turned. rewrite <- Hst. unfold rxDrawTransformed. rewrite flat_map_app. f_equal.
  - destruct (st_filler (sp_style sp)); [|reflexivity]. unfold rxFill. rewrite !flat_map_app, rx_trace_ops. cbn [flat_map rx_trace app]. now rewrite !app_nil_r.
  - destruct (st_liner (sp_style sp)); [|reflexivity]. unfold rxStrokeCalls. rewrite !flat_map_app, rx_trace_ops. cbn [flat_map rx_trace app]. now rewrite !app_nil_r.
Qed.
Lemma d2_lands f sp : page_fits O Q vb x y w h (turned O f) f -> shown f sp -> pen_figure O Q vb x y w h (turned O f) f (flat_map d2_trace (d2DrawTransformed (options s opts) sp)).
Proof using Hl Ht.
  intros Hf Hs p Hp. destruct (figure_maps _ _ _ Hf Hs p Hp) as [_ P2].
  replace (flat_map d2_trace _) with (flat_map (pens_of (E := E)) (map (mapOp (page (turned O f))) (sp_path sp))); [exact P2|].
  destruct Hs as (Hst & _ & _). unfold turned. rewrite <- Hst. unfold d2DrawTransformed. rewrite !flat_map_app, d2_trace_ops.
  destruct (st_filler (sp_style sp)), (st_liner (sp_style sp)); cbn [flat_map d2_trace app]; now rewrite app_nil_r.
Qed.
Lemma all_figures {A B} (R : figure E -> list B -> Prop) (tr : A -> list B) (draw : svgPath E -> list A) fs sps :
  (forall f sp, List.In f fs -> shown f sp -> R f (flat_map tr (draw sp))) -> Forall2 shown fs sps ->
  exists ls, Forall2 R fs ls /\ flat_map tr (flat_map draw sps) = concat ls.
Proof using.
  intros H H2. induction H2 as [|f sp fs sps Hf _ IH]; [exists []; split; [constructor|reflexivity]|].
  destruct IH as (ls & I1 & I2); [intros; apply H; [now right|assumption]|]. exists (flat_map tr (draw sp) :: ls). split; [constructor; [apply H; [now left|exact Hf]|exact I1]|].
  cbn. now rewrite flat_map_app, I2.
Qed.

(** ** gg, with masks *)
Context (wd : world E) (Hw : shows E (nearly O Q) vb wd s).
Lemma gg_lands_path t mask sp o calls : ggDrawPath (E := E) mask sp t o = Ret calls ->
  flat_map gg_trace calls = flat_map pens_of (map (mapOp t) (sp_path sp)) /\ forall d, List.In (GgSetMask d) calls -> mask = Some d.
Proof using.
  intros H. unfold ggDrawPath in H. destruct (match st_filler (sp_style sp) with Some (PGrad g) => _ | Some (PPlain r g b a) => _ | None => _ end) as [fs|e| |] eqn:Hf; try discriminate H.
  cbn [obind] in H. injection H as <-. split.
  - rewrite !flat_map_app, gg_trace_ops. clear Hf.
    destruct mask, fs, (st_filler (sp_style sp)), (st_liner (sp_style sp)); cbn [flat_map gg_trace app]; now rewrite ?app_nil_r.
  - intros d Hd. rewrite !in_app_iff in Hd. clear Hf. destruct Hd as [Hd|[Hd|[Hd|[Hd|[Hd|Hd]]]]].
    + destruct mask; cbn in Hd; destruct Hd as [Hd|[]]; [injection Hd as <-; reflexivity|discriminate].
    + destruct fs; cbn in Hd; intuition discriminate.
    + destruct (st_liner (sp_style sp)); cbn in Hd; intuition discriminate.
    + apply in_flat_map in Hd as (o1 & _ & Hd). unfold ggOp in Hd. destruct (mapOp t o1); cbn in Hd; intuition discriminate.
    + destruct (st_filler (sp_style sp)), (st_liner (sp_style sp)); cbn in Hd; intuition discriminate.
    + destruct (st_liner (sp_style sp)); cbn in Hd; intuition discriminate.
Qed.
Notation pen_fig := (pen_figure O Q vb x y w h).
Notation lands := (gg_lands O Q vb x y w h wd).
(** one figure *)
Definition lands1 (t : matrix E) (f : figure E) (calls : list (ggCall E)) : Prop :=
  pen_fig t f (flat_map gg_trace calls)
  /\ forall d, List.In (GgSetMask d) calls -> exists id m, w_masks E wd id = Some m /\ lands (map (pair t) (snd m)) d.
Lemma gg_lands_all (tf : figure E -> matrix E) (draw : svgPath E -> outcome (list (ggCall E))) fs sps : Forall2 shown fs sps ->
  (forall f sp calls, List.In f fs -> shown f sp -> draw sp = Ret calls -> lands1 (tf f) f calls) ->
  forall calls, omap draw sps = Ret calls -> lands (map (fun f => (tf f, f)) fs) calls.
Proof using.
  intros H2. induction H2 as [|f sp fs sps Hf H2 IH]; intros H calls Hc; cbn [omap] in Hc.
  - injection Hc as <-. apply (gg_lands_i _ _ _ _ _ _ _ _ _ _ []); [constructor|reflexivity|intros d []].
  - destruct (draw sp) as [a|e| |] eqn:Ha; try discriminate Hc. cbn [obind] in Hc. destruct (omap draw sps) as [b|e| |] eqn:Hb; try discriminate Hc. cbn [obind] in Hc. injection Hc as <-.
    destruct (H f sp a (or_introl eq_refl) Hf Ha) as [A1 A2]. specialize (IH (fun g sq c Hg => H g sq c (or_intror Hg)) b eq_refl).
    inversion IH as [tfs b' ls B1 B2 B3 J1 J2]. subst tfs b'. apply (gg_lands_i _ _ _ _ _ _ _ _ _ _ (flat_map gg_trace a :: ls)).
    + constructor; [exact A1|exact B1].
    + cbn. now rewrite flat_map_app, B2.
    + intros d Hd. apply in_app_iff in Hd as [Hd|Hd].
      * destruct (A2 d Hd) as (id & m & M1 & M2). exists (tf f), f, id, m. split; [now left|]. now split.
      * destruct (B3 d Hd) as (t & g & id & m & G1 & G2). exists t, g, id, m. split; [now right|exact G2].
Qed.
Lemma gg_lands_one fuel : forall t f sp o calls, page_fits O Q vb x y w h t f ->
  (forall id m g, w_masks E wd id = Some m -> List.In g (snd m) -> page_fits O Q vb x y w h t g) ->
  shown f sp -> ggDrawTransformed fuel s sp (page t) o = Ret calls -> lands1 t f calls.
Proof using Hl Ht Hw.
  induction fuel as [|fuel IH]; intros t f sp o calls Hf Hm Hs H; [discriminate|]. cbn [ggDrawTransformed] in H.
  destruct (match rev (slice_read (sv_mheap s) (st_masks (sp_style sp))) with [] => _ | id :: _ => _ end) as [mask|e| |] eqn:Hk; try discriminate H. cbn [obind] in H.
  destruct (gg_lands_path (page t) mask sp o calls H) as [P1 P2]. split.
  - intros p Hp. rewrite P1. exact (proj2 (figure_maps _ _ _ Hf Hs p Hp)).
  - intros d Hd. specialize (P2 d Hd). subst mask.
    destruct (rev (slice_read (sv_mheap s) (st_masks (sp_style sp)))) as [|id l]; [discriminate|]. destruct (mget id (sv_masks s)) as [mk|] eqn:Hg; [|discriminate].
    destruct (omap _ (mk_paths mk)) as [cs|e| |] eqn:Hc; try discriminate Hk. cbn [obind] in Hk. injection Hk as <-.
    destruct Hw as (_ & _ & _ & _ & Hms). specialize (Hms id). rewrite Hg in Hms. destruct (w_masks E wd id) as [m|] eqn:Hmk; [|contradiction]. destruct Hms as (_ & _ & Hds).
    exists id, m. split; [exact Hmk|]. apply (gg_lands_all (fun _ => t) _ _ _ Hds) with (2 := Hc).
    intros g sq c Hgi Hsq. apply IH; [apply (Hm id m g Hmk Hgi)|exact Hm|exact Hsq].
Qed.
End Land.

Section Documents.
Context (O : Oracles) (Q : ROracles).
Notation E := (F64 O).
Context (x y w h : F E) (vb : bounds E) (wd : world E) (s : svg E) (opts : list (renderOption E)).
Context (Hl : last_target opts = Some (x, y, w, h)) (Ht : sized_target O vb opts) (Hw : shows E (nearly O Q) vb wd s).
Context (Hf : forall f, List.In f (w_figs E wd) -> page_fits O Q vb x y w h (turned O f) f).
Theorem rx_document ext : exists ls, Forall2 (rx_figure O Q vb x y w h) (w_figs E wd) ls /\ flat_map rx_trace (rxDrawSvg ext s opts) = concat ls.
Proof using Hl Ht Hw Hf.
  destruct Hw as (Hv & _ & _ & Hd & _). subst vb. apply (all_figures O Q s); [|exact Hd]. intros f sp Hi. apply rx_lands; auto.
Qed.
Theorem d2_document : exists ls, Forall2 (fun f => pen_figure O Q vb x y w h (turned O f) f) (w_figs E wd) ls /\ flat_map d2_trace (d2DrawSvg s opts) = concat ls.
Proof using Hl Ht Hw Hf.
  destruct Hw as (Hv & _ & _ & Hd & _). subst vb. apply (all_figures O Q s); [|exact Hd]. intros f sp Hi. apply d2_lands; auto.
Qed.
Context (Hm : forall f id m g, List.In f (w_figs E wd) -> w_masks E wd id = Some m -> List.In g (snd m) -> page_fits O Q vb x y w h (turned O f) g).
Theorem gg_document fuel calls : ggDrawSvg fuel s opts = Ret calls -> gg_lands O Q vb x y w h wd (map (fun f => (turned O f, f)) (w_figs E wd)) calls.
Proof using Hl Ht Hw Hf Hm.
  intros Hg. pose proof Hw as Hw'. destruct Hw as (Hv & _ & _ & Hd & _). subst vb. unfold ggDrawSvg in Hg. apply (gg_lands_all O Q s _ _ _ _ _ _ _ _ _ Hd) with (2 := Hg).
  intros f sp c Hi Hs Hc. pose proof (proj1 Hs) as Hst. rewrite Hst in Hc. eapply gg_lands_one; eauto.
Qed.
End Documents.

(** * PropertiesClose: in binary64 the renderers draw what exact arithmetic draws, within 1/64 *)
From Coq Require Import ZArith Lia Reals Lra Floats.SpecFloat.
From Flocq Require Import Core.Core Core.Raux.
From Verif Require Import F64 RealEnv SpecClose ProofsClose ExDraw.
Local Open Scope R_scope.

(** ** C55 *)
Theorem C55_rasterx : forall (O : Oracles) (Q : ROracles) ext ext' (s : svg (F64 O)) opts, sized_target O (sv_viewBox s) opts ->
  (forall sp, List.In sp (sv_paths s) -> sized_path O sp /\ stays O Q (placed O Q s opts sp) sp) ->
  Forall2 (rx_close O Q) (rxDrawSvg ext s opts) (rxDrawSvg ext' (ex_svg O Q s) (ex_options O Q opts)).
Proof. exact rx_close_drawing. Qed.
Print Assumptions C55_rasterx.
Theorem C55_draw2d : forall (O : Oracles) (Q : ROracles) (s : svg (F64 O)) opts, sized_target O (sv_viewBox s) opts ->
  (forall sp, List.In sp (sv_paths s) -> sized_path O sp /\ stays O Q (placed O Q s opts sp) sp) ->
  Forall2 (d2_close O Q) (d2DrawSvg s opts) (d2DrawSvg (ex_svg O Q s) (ex_options O Q opts)).
Proof. exact d2_close_drawing. Qed.
Print Assumptions C55_draw2d.
Theorem C55_gg : forall (O : Oracles) (Q : ROracles) fuel (s : svg (F64 O)) opts calls, sized_target O (sv_viewBox s) opts ->
  (forall sp, List.In sp (sv_paths s) -> sized_path O sp /\ stays O Q (placed O Q s opts sp) sp
    /\ forall id mk q, mget id (sv_masks s) = Some mk -> List.In q (mk_paths mk) -> sized_path O q /\ stays O Q (placed O Q s opts sp) q) ->
  ggDrawSvg fuel s opts = Ret calls -> exists calls', ggDrawSvg fuel (ex_svg O Q s) (ex_options O Q opts) = Ret calls' /\ Forall2 (gg_close O Q) calls calls'.
Proof. exact gg_close_drawing. Qed.
Print Assumptions C55_gg.
(** a masked triangle with a gradient fill, in a view box of 3 by 3 on a target of 100 by 100: the scale 100/3 is not a float *)
Definition close_grad (O : Oracles) : gradient (F64 O) :=
  let n := fnum (F64 O) in
  mkGrad (Some (Linear (n 0%Z) (n 0%Z) (n 1%Z) (n 1%Z))) [mkStop (Some (CNRGBA 255 0 0 255)) (n 0%Z) (n 1%Z); mkStop (Some (CNRGBA 0 0 255 255)) (n 1%Z) (n 1%Z)]
    (mkB (n 0%Z) (n 0%Z) (n 1%Z) (n 1%Z)) identity PadSpread ObjectBoundingBox.
Definition close_svg (O : Oracles) : svg (F64 O) :=
  let n := fnum (F64 O) in
  mkSvg (mkB (n 0%Z) (n 0%Z) (n 3%Z) (n 3%Z)) [] [] [mkSvgPath (tri_path 5) (demo_style (F64 O) true (Some (PGrad (close_grad O))) (blue (F64 O)) (mkSl 0 1 1))] identity
    [("m"%string, mkMask "m" (n 0%Z) (n 0%Z) (n 1%Z) (n 1%Z) [mkSvgPath (open_path 9) (demo_style (F64 O) true (red (F64 O)) None no_slice)] identity)] "" "" [] [] [["m"%string]].
Lemma close_num O z : (0 <= z <= 2 ^ 17)%Z -> finite64 (fnum (F64 O) z) /\ value64 (fnum (F64 O) z) = IZR z.
Proof. intros Hz. destruct (Z.eq_dec z 0) as [->|]; [split; [split; [reflexivity|exact I]|reflexivity]|]. apply num_val. lia. Qed.
Lemma close_upto O b z : (0 <= z <= 2 ^ 17)%Z -> Rabs (IZR z) <= 2 ^ b -> upto O b (fnum (F64 O) z).
Proof. intros H1 H2. destruct (close_num O z H1) as [K1 K2]. split; [exact K1|]. rewrite K2. exact H2. Qed.
Lemma ex_mat O Q a b c d e f : ex_matrix O Q (mkM (E := F64 O) a b c d e f) = mkM (E := RealEnv Q) (value64 a) (value64 b) (value64 c) (value64 d) (value64 e) (value64 f).
Proof. reflexivity. Qed.
Lemma close_placed O Q sp : st_transform (sp_style sp) = identity (E := F64 O) ->
  placed O Q (close_svg O) [Target (fnum (F64 O) 0) (fnum (F64 O) 0) (fnum (F64 O) 100) (fnum (F64 O) 100)] sp = mkM (E := RealEnv Q) (100 / 3) 0 0 (100 / 3) 0 0.
Proof.
  intros H. assert (V : forall z, (0 <= z <= 2 ^ 17)%Z -> value64 (fnum (F64 O) z) = IZR z) by (intros z Hz; apply (close_num O z Hz)).
  unfold placed, drawn_by. change (st_transform (sp_style (ex_path O Q sp))) with (ex_matrix O Q (st_transform (sp_style sp))). rewrite H. unfold identity. rewrite ex_mat, !V by lia.
  rewrite (target_eq (ex_svg O Q (close_svg O)) (ex_options O Q [Target (fnum (F64 O) 0) (fnum (F64 O) 0) (fnum (F64 O) 100) (fnum (F64 O) 100)]) (value64 (fnum (F64 O) 0)) (value64 (fnum (F64 O) 0)) (value64 (fnum (F64 O) 100)) (value64 (fnum (F64 O) 100)) eq_refl). rewrite !V by lia.
  change (sv_viewBox (ex_svg O Q (close_svg O))) with (mkB (E := RealEnv Q) (value64 (fnum (F64 O) 0)) (value64 (fnum (F64 O) 0)) (value64 (fnum (F64 O) 3)) (value64 (fnum (F64 O) 3))). rewrite !V by lia.
  unfold target, mMult. rewrite ?fnum_real. cbn. f_equal; field.
Qed.
Example C55_example : forall (O : Oracles) (Q : ROracles) ext,
  let s := close_svg O in let opts := [Target (fnum (F64 O) 0) (fnum (F64 O) 0) (fnum (F64 O) 100) (fnum (F64 O) 100)] in
  sized_target O (sv_viewBox s) opts
  /\ (forall sp, List.In sp (sv_paths s) -> sized_path O sp /\ stays O Q (placed O Q s opts sp) sp
      /\ forall id mk q, mget id (sv_masks s) = Some mk -> List.In q (mk_paths mk) -> sized_path O q /\ stays O Q (placed O Q s opts sp) q)
  /\ List.length (rxDrawSvg ext s opts) = 20%nat /\ List.length (d2DrawSvg s opts) = 14%nat
  /\ exists calls, ggDrawSvg 2 s opts = Ret calls /\ List.length calls = 17%nat.
Proof.
  intros O Q ext s opts.
  assert (V : forall z, (0 <= z <= 2 ^ 17)%Z -> value64 (fnum (F64 O) z) = IZR z) by (intros z Hz; apply (close_num O z Hz)).
  assert (Fi : forall z, (0 <= z <= 2 ^ 17)%Z -> finite64 (fnum (F64 O) z)) by (intros z Hz; apply (close_num O z Hz)).
  assert (U : forall b, upto O b (fnum (F64 O) 0) /\ upto O b (fnum (F64 O) 1)).
  { intros b. split; apply close_upto; try lia; rewrite Rabs_pos_eq by lra; pose proof (pow_R1_Rle 2 b ltac:(lra)); lra. }
  assert (W : upto O 17 (fnum (F64 O) 2)) by (apply close_upto; [lia|]; rewrite Rabs_pos_eq; lra).
  assert (Pa : SpecClose.part O (fnum (F64 O) 1)) by (split; [apply Fi; lia|]; rewrite V by lia; lra).
  assert (Hz : forall n l, List.In n [5; 9]%Z -> (l = tri_path n \/ l = open_path n) -> forall f k ms, sized_paint O f -> sized_paint O k -> sized_path O (mkSvgPath l (demo_style (F64 O) true f k ms))).
  { intros n l Hn Hl f k ms Hf Hk. split; [exact (conj (proj2 (U 10%nat)) (conj (proj1 (U 10%nat)) (conj (proj1 (U 10%nat)) (conj (proj2 (U 10%nat)) (conj (proj1 (U 17%nat)) (proj1 (U 17%nat)))))))|]. split; [exact W|]. split; [exact Pa|]. split; [exact Pa|]. split; [exact Hf|]. split; [exact Hk|].
    intros o p Ho Hp. cbn [sp_path] in Ho.
    destruct Hn as [<-|[<-|[]]], Hl as [->| ->]; cbn in Ho; decompose [or] Ho; subst; cbn in Hp; decompose [or] Hp; subst; try contradiction; cbn; lia. }
  assert (Hm : forall sp, st_transform (sp_style sp) = identity (E := F64 O) -> placed O Q s opts sp = mkM (E := RealEnv Q) (100 / 3) 0 0 (100 / 3) 0 0) by (intros sp H; apply close_placed, H).
  assert (Hs : forall n l, List.In n [5; 9]%Z -> (l = tri_path n \/ l = open_path n) -> forall f k ms, stays O Q (mkM (E := RealEnv Q) (100 / 3) 0 0 (100 / 3) 0 0) (mkSvgPath l (demo_style (F64 O) true f k ms))).
  { intros n l Hn Hl f k ms. split.
    - intros o p Ho Hp. cbn [sp_path] in Ho. unfold maps. cbn.
      assert (Hb : Rabs (IZR (fst p)) <= 64 /\ Rabs (IZR (snd p)) <= 64).
      { destruct Hn as [<-|[<-|[]]], Hl as [->| ->]; cbn in Ho; decompose [or] Ho; subst; cbn in Hp; decompose [or] Hp; subst; try contradiction; cbn; split; rewrite Rabs_pos_eq; lra. }
      destruct Hb as [H1 H2]. apply Rabs_le_inv in H1, H2. split; apply Rabs_le; lra.
    - cbn [sp_style demo_style st_lineWidth]. rewrite V by lia. unfold widen. rewrite fnum_real. cbn. rewrite Rabs_pos_eq; lra. }
  split.
  { split; [exact (proj1 (U 17%nat))|]. split; [exact (proj1 (U 17%nat))|]. cbn [sv_viewBox s close_svg bW bH]. rewrite V by lia. split; [apply Fi; lia|]. split; [apply Fi; lia|]. split; [lra|]. split; [lra|]. split; [exact I|].
    do 4 eexists. split; [reflexivity|]. split; [exact (proj1 (U 17%nat))|]. split; [exact (proj1 (U 17%nat))|]. rewrite V by lia. split; [apply Fi; lia|]. split; [apply Fi; lia|]. split; rewrite Rabs_pos_eq; lra. }
  split; [|split; [|split; [reflexivity|eexists; split; reflexivity]]].
  - intros sp [<-|[]]. rewrite Hm by reflexivity. split; [apply (Hz 5%Z); [cbn; auto|auto| |cbn; lia]|].
    { intros st [<-|[<-|[]]]; (split; [exact Pa|cbn; lia]). }
    split; [apply (Hs 5%Z); cbn; auto|]. intros id mk q Hg Hq. cbn in Hg. destruct (String.eqb id "m"); [|discriminate]. injection Hg as <-. destruct Hq as [<-|[]].
    split; [apply (Hz 9%Z); cbn; auto; lia|apply (Hs 9%Z); cbn; auto].
  - unfold rxDrawSvg. cbn -[options rxPaintOf]. reflexivity.
Qed.

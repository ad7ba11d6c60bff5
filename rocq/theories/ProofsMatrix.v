(** * ProofsMatrix: matrix.go over the real numbers *)
From Coq Require Import Reals Lra.
From Verif Require Export SpecMatrix ProofsStyle.
Local Open Scope R_scope.
Section Matrix.
Context {O : ROracles}.
Notation M := (matrix (RealEnv O)).
Ltac real := cbn [F fadd fsub fmul fdiv fneg flit fpi fpi_180 fabs fsqrt fsin fcos ftan fatan2 RealEnv] in *.
Lemma num_z z : flit (RealEnv O) z 1 = IZR z. Proof. cbn. lra. Qed.
Lemma transform_maps (m : M) x y : mTransform m x y = maps m (x, y).
Proof. unfold mTransform, maps. cbn. f_equal; lra. Qed.
Lemma identity_maps p : maps (identity (E := RealEnv O)) p = p.
Proof. destruct p as [x y]. unfold maps, identity, fnum. cbn. f_equal; lra. Qed.
Lemma matrix_ext (a b : M) : (forall p, maps a p = maps b p) -> a = b.
Proof.
  intros H. pose proof (H (0, 0)) as H0. pose proof (H (1, 0)) as H1. pose proof (H (0, 1)) as H2. destruct a, b. unfold maps in *. cbn in *.
  injection H0; injection H1; injection H2; intros. f_equal; lra.
Qed.
Lemma mult_identity (m : M) : mMult m identity = m /\ mMult identity m = m.
Proof. destruct m. unfold mMult, identity, fnum. cbn. split; f_equal; lra. Qed.
Lemma mult_maps (a b : M) : (forall p, maps (mMult a b) p = maps a (maps b p)) <-> mE a * (mA b - 1) = 0 /\ mF a * (mD b - 1) = 0.
Proof.
  destruct a as [aA aB aC aD aE aF], b as [bA bB bC bD bE bF]. unfold maps, mMult. cbn. split.
  - intros H. specialize (H (0, 0)). cbn in H. injection H as H1 H2. split; lra.
  - intros [H1 H2] [x y]. cbn. f_equal; [|]; lra.
Qed.
Lemma invert_eq (m : M) : mInvert m =
  mkM (E := RealEnv O) (mD m / det m) (- mB m / det m) (- mC m / det m) (mA m / det m)
      ((mC m * mF m - mD m * mE m) / det m) ((mB m * mE m - mA m * mF m) / det m).
Proof.
  destruct m as [a b c d e f]. unfold mInvert, m3invert. cbn -[IZR].
  match goal with |- context [_ / ?D] => assert (HD : D = det (mkM (E := RealEnv O) a b c d e f)) by (unfold det; cbn -[IZR]; field) end.
  rewrite HD. unfold Rdiv. f_equal; f_equal; field.
Qed.
Lemma invert_maps (m : M) p : det m <> 0 -> maps (mInvert m) (maps m p) = p /\ maps m (maps (mInvert m) p) = p.
Proof.
  rewrite invert_eq. destruct m as [a b c d e f], p as [x y]. unfold maps. cbn [mA mB mC mD mE mF fst snd]. unfold det. cbn [mA mB mC mD mE mF]. intros H.
  split; f_equal; field; exact H.
Qed.

(** ** Transform functions *)
Notation T := (tfun (RealEnv O)).
Lemma rad_radians a : radians (RealEnv O) a = rad a.
Proof. unfold radians, rad. rewrite fnum_real. reflexivity. Qed.
Lemma simple_apply (m : M) (f : T) p : simple f -> maps (tfun_apply _ m f) p = moves f (maps m p).
Proof. destruct f, p; cbn; try tauto; intros _; unfold maps; cbn; f_equal; ring. Qed.
Lemma simples_apply (ss : list T) : Forall simple ss -> forall m p, maps (fold_left (tfun_apply _) (rev ss) m) p = moves_list ss (maps m p).
Proof.
  induction 1 as [|f ss Hf _ IH]; intros m p; [reflexivity|]. cbn [rev]. rewrite fold_left_app. cbn [fold_left moves_list fold_right].
  rewrite simple_apply by exact Hf. now rewrite IH.
Qed.
Lemma linear_apply (m : M) (f : T) a d : linear_entries f = Some (a, d) ->
  ((forall p, maps (tfun_apply _ m f) p = maps m (moves f p)) <-> mE m * (a - 1) = 0 /\ mF m * (d - 1) = 0).
Proof.
  intros Hl.
  assert (H : exists n : M, tfun_apply _ m f = mMult m n /\ (forall p, maps n p = moves f p) /\ mA n = a /\ mD n = d).
  { destruct f; cbn in Hl; try discriminate; injection Hl as <- <-; eexists; (split; [reflexivity|]); cbn [mA mD]; try rewrite rad_radians; unfold fnum; rewrite ?num_z; cbn [fcos fsin ftan fneg RealEnv];
     (split; [intros []; unfold maps, moves, turn; cbn; f_equal; try lra|]); auto. }
  destruct H as (n & -> & Hn & <- & <-). rewrite <- mult_maps. split; intros H p; [rewrite H, Hn|rewrite H, <- Hn]; reflexivity.
Qed.
Theorem orderly_apply (par : M) (fs : list T) : orderly_list par fs -> forall p,
  maps (fold_left (tfun_apply _) (rev fs) par) p = maps par (moves_list fs p).
Proof.
  intros (ss & tail & -> & Hs & Hc & Ht) p. rewrite rev_app_distr, fold_left_app, simples_apply by exact Hs. unfold moves_list at 2. rewrite fold_right_app.
  fold (moves_list ss (fold_right moves p tail)). rewrite <- Hc. f_equal. destruct tail as [|f [|? ?]]; [reflexivity| |contradiction]. cbn [rev app fold_left fold_right].
  destruct (linear_entries f) as [[a d]|] eqn:Hl; [|contradiction]. now apply (linear_apply par f a d Hl).
Qed.
Lemma translate_iff (par : M) x y :
  (forall p, maps (tfun_apply _ par (Translate _ x y)) p = maps par (moves (O := O) (Translate _ x y) p))
  <-> mA par * x + mC par * y = x /\ mB par * x + mD par * y = y.
Proof.
  destruct par as [a b c d e f]. unfold maps. cbn. split.
  - intros H. specialize (H (0, 0)). cbn in H. injection H as H1 H2. split; lra.
  - intros [H1 H2] [u v]. cbn. f_equal; lra.
Qed.
Lemma scale_iff (par : M) x y :
  (forall p, maps (tfun_apply _ par (Scale _ x y)) p = maps par (moves (O := O) (Scale _ x y) p))
  <-> mB par * (x - y) = 0 /\ mC par * (x - y) = 0 /\ mE par * (x - 1) = 0 /\ mF par * (y - 1) = 0.
Proof.
  destruct par as [a b c d e f]. unfold maps. cbn. split.
  - intros H. pose proof (H (0, 0)) as H0. pose proof (H (1, 0)) as H1. pose proof (H (0, 1)) as H2. cbn in *.
    injection H0 as A1 A2. injection H1 as B1 B2. injection H2 as C1 C2. repeat split; lra.
  - intros (H1 & H2 & H3 & H4) [u v]. cbn. f_equal.
    + replace (x * e) with e by lra. replace (c * (y * v)) with (x * c * v) by (replace (x * c) with (y * c) by lra; ring). ring_simplify. lra.
    + replace (y * f) with f by lra. replace (b * (x * u)) with (y * b * u) by (replace (y * b) with (x * b) by lra; ring). ring_simplify. lra.
Qed.
Theorem transform_reads v (fs : list T) (st : style (RealEnv O)) (c : cursor (RealEnv O)) par rest :
  transform_text (RealEnv O) v fs -> c_stack c = par :: rest -> orderly_list (st_transform par) fs ->
  exists c' m, readStyleAttr st "transform" v c = (c', Ret (put_part Transform m st)) /\ same_but_points c c'
  /\ forall p, maps m p = maps (st_transform par) (moves_list fs p).
Proof.
  intros Ht Hs Ho. destruct (parseTransform_text v fs c par rest Ht Hs) as (c' & Hc & Hb).
  exists c', (fold_left (tfun_apply _) (rev fs) (st_transform par)). split; [|split; [exact Hb|apply orderly_apply, Ho]].
  unfold readStyleAttr. cbn [String.eqb Ascii.eqb Bool.eqb orb negb]. erewrite bind_step by exact Hc. destruct st, st_join; reflexivity.
Qed.

(** rotation about a point, under the identity *)
Lemma rotate_at_iff a x y :
  (forall p, maps (tfun_apply _ identity (RotateAt _ a x y)) p = moves (O := O) (RotateAt _ a x y) p)
  <-> (x = 0 /\ y = 0) \/ cos (rad a) = 1.
Proof.
  assert (Hr : forall p, maps (tfun_apply (RealEnv O) identity (RotateAt _ a x y)) p
    = (cos (rad a) * fst p - sin (rad a) * snd p + (x * cos (rad a) - x), sin (rad a) * fst p + cos (rad a) * snd p + (y * cos (rad a) - y))).
  { intros [u v]. unfold tfun_apply, maps. rewrite rad_radians. unfold mRotate, mTranslate, mMult, identity. rewrite !fnum_real. cbn. f_equal; ring. }
  pose proof (sin2_cos2 (rad a)) as Hsc. unfold Rsqr in Hsc.
  split.
  - intros H. specialize (H (0, 0)). rewrite Hr in H. unfold moves, turn in H. cbn in H. injection H as H1 H2.
    set (c := cos (rad a)) in *. set (s := sin (rad a)) in *.
    assert (A1 : 2 * x * (c - 1) = y * s) by lra. assert (A2 : 2 * y * (c - 1) = - (x * s)) by lra.
    destruct (Req_dec c 1) as [Hc|Hc]; [auto|]. left.
    assert (Hk : 0 < 4 * ((c - 1) * (c - 1)) + s * s).
    { assert (0 < (c - 1) * (c - 1)) by (destruct (Rtotal_order c 1) as [?|[?|?]]; [|contradiction|]; nra). nra. }
    assert (B1 : x * (4 * ((c - 1) * (c - 1)) + s * s) = 0).
    { transitivity (2 * (c - 1) * (2 * x * (c - 1)) + x * s * s); [ring|]. rewrite A1. transitivity (s * (2 * y * (c - 1)) + x * s * s); [ring|]. rewrite A2. ring. }
    assert (B2 : y * (4 * ((c - 1) * (c - 1)) + s * s) = 0).
    { transitivity (2 * (c - 1) * (2 * y * (c - 1)) + y * s * s); [ring|]. rewrite A2. transitivity (- s * (2 * x * (c - 1)) + y * s * s); [ring|]. rewrite A1. ring. }
    split; apply Rmult_integral in B1, B2; lra.
  - intros H [u v]. rewrite Hr. unfold moves, turn. cbn. destruct H as [[-> ->]|H]; [f_equal; ring|].
    rewrite H in *. assert (sin (rad a) = 0) as -> by nra. f_equal; ring.
Qed.

Lemma single_iff (par : M) (f : T) : (match f with RotateAt _ _ _ _ => False | _ => True end) ->
  ((forall p, maps (tfun_apply _ par f) p = maps par (moves f p)) <->
   match f with
   | Translate _ x y => mA par * x + mC par * y = x /\ mB par * x + mD par * y = y
   | Scale _ x y => mB par * (x - y) = 0 /\ mC par * (x - y) = 0 /\ mE par * (x - 1) = 0 /\ mF par * (y - 1) = 0
   | Rotate _ a => mE par * (cos (rad a) - 1) = 0 /\ mF par * (cos (rad a) - 1) = 0
   | MatrixFn _ m => mE par * (mA m - 1) = 0 /\ mF par * (mD m - 1) = 0
   | _ => True
   end).
Proof.
  destruct f as [x y|x y|a|a x y|a|a|m]; intros Hf; try contradiction.
  - apply translate_iff. - apply scale_iff. - now apply linear_apply.
  - split; [auto|]. intros _. apply (linear_apply par (SkewX (RealEnv O) a) 1 1); [reflexivity|]. lra.
  - split; [auto|]. intros _. apply (linear_apply par (SkewY (RealEnv O) a) 1 1); [reflexivity|]. lra.
  - now apply linear_apply.
Qed.
(** ** Failures *)
Lemma mult_wrong : exists (a b : M) p, maps (mMult a b) p <> maps a (maps b p).
Proof.
  exists (mkM (E := RealEnv O) 1 0 0 1 1 0), (mkM (E := RealEnv O) 2 0 0 2 0 0), (0, 0).
  unfold maps. cbn. intros H. injection H as H _. lra.
Qed.
(** two functions of the kind of rotate, skewX, skewY and matrix, without translation: reversed order *)
Lemma reversed (f g : T) a d b e : linear_entries f = Some (a, d) -> linear_entries g = Some (b, e) -> moves g (0, 0) = (0, 0) ->
  forall p, maps (fold_left (tfun_apply _) (rev [f; g]) identity) p = moves g (moves f p).
Proof.
  intros Hf Hg H0 p. cbn [rev app fold_left].
  assert (Hi : forall q, maps (tfun_apply _ identity g) q = moves g q).
  { intros q. rewrite <- (identity_maps (moves g q)). refine (proj2 (linear_apply identity g b e Hg) _ q). unfold identity. rewrite !fnum_real. cbn. lra. }
  rewrite <- (Hi (moves f p)). refine (proj2 (linear_apply _ f a d Hf) _ p).
  specialize (Hi (0, 0)). rewrite H0 in Hi. unfold maps in Hi. cbn [fst snd] in Hi. injection Hi as H1 H2. split; nra.
Qed.
Lemma reversed_wrong : exists (fs : list T) p, maps (fold_left (tfun_apply _) (rev fs) identity) p <> moves_list fs p.
Proof.
  exists [Rotate (RealEnv O) 90; MatrixFn (RealEnv O) (mkM (E := RealEnv O) 2 0 0 1 0 0)], (1, 0).
  rewrite (reversed _ _ (cos (rad 90)) (cos (rad 90)) 2 1) by (try reflexivity; unfold moves, maps; cbn; f_equal; lra).
  unfold moves_list, moves, turn, maps. cbn. replace (rad 90) with (PI / 2) by (unfold rad; lra). rewrite sin_PI2, cos_PI2. intros H. injection H as _ H. lra.
Qed.
Lemma nested_wrong : exists (par : M) (f : T) p, maps (tfun_apply _ par f) p <> maps par (moves f p).
Proof.
  exists (mkM (E := RealEnv O) 2 0 0 2 0 0), (Translate (RealEnv O) 1 0), (0, 0). unfold maps. cbn. intros H. injection H as H _. lra.
Qed.
Lemma translate_one (m : M) x p : exists m', readTransformAttr m "translate" [x] = Ret m' /\ maps m' p = (fst (maps m p) + x, snd (maps m p) + x).
Proof. eexists. split; [reflexivity|]. destruct m. unfold maps. cbn. f_equal; ring. Qed.
End Matrix.

(** * ProofsTarget: where Target puts the image, and stroke widths, over the real numbers *)
From Coq Require Import Reals Lra.
From Verif Require Export ProofsMatrix ProofsDraw2.
Local Open Scope R_scope.
(** the map that takes the view box to the rectangle (x, y, w, h) *)
Definition place {O} (vb : bounds (RealEnv O)) (x y w h : R) (p : R * R) : R * R :=
  (x + (fst p - bX vb) * (w / bW vb), y + (snd p - bY vb) * (h / bH vb)).
Section Target.
Context {O : ROracles}.
Notation M := (matrix (RealEnv O)).
Definition target (vb : bounds (RealEnv O)) (x y w h : R) : M :=
  mkM (E := RealEnv O) (w / bW vb) 0 0 (h / bH vb) ((x - bX vb) * (w / bW vb)) ((y - bY vb) * (h / bH vb)).
Lemma target_eq (s : svg (RealEnv O)) (opts : list (renderOption (RealEnv O))) (x y w h : R) : last_target opts = Some (x, y, w, h) -> ro_target (options s opts) = target (sv_viewBox s) x y w h.
Proof.
  intros H. destruct (options_last s opts) as [_ ->]. rewrite H. unfold mScale, mTranslate, identity, target. rewrite !fnum_real. cbn. f_equal; ring.
Qed.
Lemma target_iff (s : svg (RealEnv O)) (opts : list (renderOption (RealEnv O))) (x y w h : R) : last_target opts = Some (x, y, w, h) -> bW (sv_viewBox s) <> 0 -> bH (sv_viewBox s) <> 0 ->
  ((forall p, maps (ro_target (options s opts)) p = place (sv_viewBox s) x y w h p) <-> x * (w - bW (sv_viewBox s)) = 0 /\ y * (h - bH (sv_viewBox s)) = 0).
Proof.
  intros H Hw Hh. rewrite (target_eq s opts x y w h H). set (vb := sv_viewBox s) in *. destruct vb as [vx vy W H']. unfold maps, place, target. cbn in *.
  split.
  - intros Hp. specialize (Hp (0, 0)). cbn in Hp. injection Hp as H1 H2. split.
    + replace (x * (w - W)) with ((x * (w / W) - x) * W) by (field; exact Hw). replace (x * (w / W) - x) with 0 by lra. ring.
    + replace (y * (h - H')) with ((y * (h / H') - y) * H') by (field; exact Hh). replace (y * (h / H') - y) with 0 by lra. ring.
  - intros [H1 H2] [u v]. cbn. assert (x * (w / W) = x) as E1. { apply Rmult_integral in H1. destruct H1 as [->|H1]; [ring|]. replace w with W by lra. field. exact Hw. }
    assert (y * (h / H') = y) as E2. { apply Rmult_integral in H2. destruct H2 as [->|H2]; [ring|]. replace h with H' by lra. field. exact Hh. }
    f_equal; lra.
Qed.
Lemma no_target (s : svg (RealEnv O)) opts : last_target opts = None -> forall p, maps (ro_target (options s opts)) p = (0, 0).
Proof.
  intros H p. destruct (options_last s opts) as [_ ->]. rewrite H. unfold zero_matrix, maps. rewrite !fnum_real. cbn. f_equal; ring.
Qed.
(** the matrix the renderers use: the transform of the path, then the target *)
Lemma drawn_iff (t : M) (vb : bounds (RealEnv O)) (x y w h : R) : let sw := w / bW vb in let sh := h / bH vb in let e := (x - bX vb) * sw in let f := (y - bY vb) * sh in
  ((forall p, maps (mMult t (target vb x y w h)) p = maps (target vb x y w h) (maps t p))
   <-> mB t * (sw - sh) = 0 /\ mC t * (sw - sh) = 0 /\ (mA t - 1) * e + mC t * f = 0 /\ mB t * e + (mD t - 1) * f = 0).
Proof.
  intros sw sh e f. destruct t as [a b c d tx ty]. unfold target. fold sw sh e f. unfold maps, mMult. cbn. split.
  - intros H. pose proof (H (0, 0)) as H0. pose proof (H (1, 0)) as H1. pose proof (H (0, 1)) as H2. cbn in *.
    injection H0 as A1 A2. injection H1 as B1 B2. injection H2 as C1 C2. repeat split; lra.
  - intros (H1 & H2 & H3 & H4) [u v]. cbn. f_equal.
    + match goal with |- ?l = ?r => transitivity (r - (c * (sw - sh)) * v + ((a - 1) * e + c * f)); [ring|] end. rewrite H2, H3. ring.
    + match goal with |- ?l = ?r => transitivity (r + (b * (sw - sh)) * u + (b * e + (d - 1) * f)); [ring|] end. rewrite H1, H4. ring.
Qed.
(** view box and rectangle at the origin, same factor in both directions: right for every transform *)
Lemma drawn_uniform (s : svg (RealEnv O)) (opts : list (renderOption (RealEnv O))) (w h : R) (t : M) : let vb := sv_viewBox s in
  last_target opts = Some (0, 0, w, h) -> bX vb = 0 -> bY vb = 0 -> bW vb <> 0 -> bH vb <> 0 -> w / bW vb = h / bH vb ->
  forall p, maps (mMult t (ro_target (options s opts))) p = place vb 0 0 w h (maps t p).
Proof.
  intros vb H Hx Hy Hw Hh Hu p. rewrite <- (proj2 (target_iff s opts 0 0 w h H Hw Hh)) by lra. rewrite (target_eq s opts 0 0 w h H).
  fold vb. apply (drawn_iff t vb 0 0 w h). rewrite Hx, Hy, Hu. repeat split; ring.
Qed.
(** ** Stroke widths *)
Lemma widen_similar (k a e f : R) : let m := mkM (E := RealEnv O) (k * cos a) (k * sin a) (- (k * sin a)) (k * cos a) e f in
  (forall p q, let d u v := (fst u - fst v) * (fst u - fst v) + (snd u - snd v) * (snd u - snd v) in d (maps m p) (maps m q) = k * k * d p q)
  /\ widen m = k * cos a.
Proof.
  intros m. split.
  - intros [u1 u2] [v1 v2]. unfold m, maps. cbn. pose proof (sin2_cos2 a) as H. unfold Rsqr in H.
    match goal with |- ?l = ?r => transitivity ((sin a * sin a + cos a * cos a) * r); [ring|] end. rewrite H. ring.
  - unfold widen, m. rewrite fnum_real. cbn. field.
Qed.
End Target.

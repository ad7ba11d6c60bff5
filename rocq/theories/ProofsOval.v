(** * ProofsOval: transformed circles and ellipses (C66) *)
From Coq Require Import ZArith Lia Reals Lra.
From Flocq Require Import Core.Core.
From Verif Require Import F64 RealEnv SpecOval ProofsTurn ProofsTurn2 ProofsCurve ProofsPage ProofsFlocq.
Local Open Scope R_scope.

(** an outline that runs along a curve runs along every curve close to it *)
Lemma runs_beside ex ey dx dy c c' p : (forall t, beside dx dy (c t) (c' t)) -> runs_along ex ey c p -> runs_along (ex + dx) (ey + dy) c' p.
Proof.
  intros Hc [H1 H2]. assert (K : forall z t, beside ex ey z (c t) -> beside (ex + dx) (ey + dy) z (c' t)).
  { intros z t [A B]. destruct (Hc t) as [C D]. split.
    - replace (fst z - fst (c' t)) with ((fst z - fst (c t)) + (fst (c t) - fst (c' t))) by ring. eapply Rle_trans; [apply Rabs_triang|lra].
    - replace (snd z - snd (c' t)) with ((snd z - snd (c t)) + (snd (c t) - snd (c' t))) by ring. eapply Rle_trans; [apply Rabs_triang|lra]. }
  split.
  - intros z Hz. destruct (H1 z Hz) as [t Ht]. exists t. now apply K.
  - intros t. destruct (H2 t) as (z & Hz & Ht). exists z. split; [exact Hz|now apply K].
Qed.

Section Oval.
Context (O : Oracles) (Q : ROracles) (HF : fair_trig O) (HQ : reads_exactly Q).
Notation E := (F64 O).
Context (vb : bounds E) (x y w h : F E) (Hsq : square_page O vb x y w h).
Lemma ellipse_upto cx r u : 0 <= r -> Rabs cx + r <= 2 ^ 16 -> -1 <= u <= 1 -> Rabs (cx + r * u) <= 2 ^ 16.
Proof using.
  intros Hr H Hu. eapply Rle_trans; [apply Rabs_triang|]. rewrite Rabs_mult, (Rabs_pos_eq r) by exact Hr. assert (Rabs u <= 1) by (apply Rabs_le; lra). pose proof (Rabs_pos u). nra.
Qed.
Lemma page_oval f cx cy rx ry v fs l : oval_figure O Q vb f cx cy rx ry -> turned_by O v f -> spells_turn O Q vb w v fs ->
  on_page_ellipse O vb x y w h (turned O f) cx cy rx ry l -> on_page_oval O Q vb x y w h fs cx cy rx ry l.
Proof using HF HQ Hsq.
  intros (Hr & Bx & By) Hv Hs H.
  assert (Rx : 0 <= rx /\ 0 <= ry) by (destruct Hr as (? & ? & ? & _ & L1 & L2 & _); assert (0 < / 2 ^ 16) by (apply Rinv_0_lt_compat, pow_lt; lra); lra).
  assert (K : forall t, (Rabs (fst (dest O vb x y w h (turned O f) (ellipse_pt cx cy rx ry t)) - fst (image O Q vb x y w h fs (ellipse_pt cx cy rx ry t))) <= / 64 / 2 /\ tol_x O vb w h (turned O f) <= unit_x O Q vb x y w h fs + 2 + 1 / 2)
    /\ (Rabs (snd (dest O vb x y w h (turned O f) (ellipse_pt cx cy rx ry t)) - snd (image O Q vb x y w h fs (ellipse_pt cx cy rx ry t))) <= / 64 / 2 /\ tol_y O vb w h (turned O f) <= unit_y O Q vb x y w h fs + 2 + 1 / 2)).
  { intros t. apply (turned_place O Q HF HQ vb x y w h Hsq v f fs _ Hv Hs); unfold ellipse_pt; cbn [fst snd]; apply ellipse_upto; try tauto; [apply COS_bound|apply SIN_bound]. }
  pose proof (K 0) as [[_ T1] [_ T2]]. unfold on_page_ellipse in H.
  apply (runs_beside _ _ (/ 64 / 2) (/ 64 / 2) _ (fun u => image O Q vb x y w h fs (ellipse_pt cx cy rx ry u))) in H.
  - unfold on_page_oval. revert H. apply runs_wider; [lra|lra|reflexivity].
  - intros t. destruct (K t) as [[A _] [B _]]. split; assumption.
Qed.
Lemma rx_ovals f l : page_fits O Q vb x y w h (turned O f) f -> rx_figure O Q vb x y w h f l -> rx_oval O Q vb x y w h f l.
Proof using HF HQ Hsq.
  intros Hp (q & Hq & Hl). exists q. split; [exact Hl|]. intros cx cy rx ry v fs Ho Hv Hs. apply (page_oval f cx cy rx ry v fs _ Ho Hv Hs).
  destruct (round_outline O Q HF vb x y w h f cx cy rx ry Hp (proj1 Ho)) as (Hx & B1 & B2 & B3 & B4). apply ops_page; auto.
Qed.
Lemma pen_ovals f l : page_fits O Q vb x y w h (turned O f) f -> pen_figure O Q vb x y w h (turned O f) f l -> pen_oval O Q vb x y w h f l.
Proof using HF HQ Hsq.
  intros Hp Hq cx cy rx ry v fs Ho Hv Hs. apply (page_oval f cx cy rx ry v fs _ Ho Hv Hs). apply (pen_figure_round O Q HF vb x y w h f l Hp Hq). exact (proj1 Ho).
Qed.
End Oval.

(** translations, scalings by one factor and rotations take circles to circles *)
Lemma grow_circle a c d r : exists phi, forall u, (a * (c + r * cos u), a * (d + r * sin u)) = ellipse_pt (a * c) (a * d) (Rabs a * r) (Rabs a * r) (u + phi).
Proof.
  destruct (Rle_or_lt 0 a) as [H|H].
  - exists 0. intros u. rewrite Rplus_0_r, Rabs_pos_eq by exact H. unfold ellipse_pt. f_equal; ring.
  - exists PI. intros u. rewrite (Rabs_left a) by exact H. unfold ellipse_pt. rewrite neg_cos, neg_sin. f_equal; ring.
Qed.
Lemma enlarged_circle {Q : ROracles} (fs : list (tfun (RealEnv Q))) k cx cy r : enlarges fs k ->
  exists phi, forall u, moves_list fs (ellipse_pt cx cy r r u) = ellipse_pt (fst (moves_list fs (cx, cy))) (snd (moves_list fs (cx, cy))) (k * r) (k * r) (u + phi).
Proof.
  induction 1 as [|x y fs k H [phi IH]|a fs k H [phi IH]|a fs k H [phi IH]].
  - exists 0. intros u. unfold moves_list. cbn [fold_right fst snd]. rewrite Rplus_0_r, Rmult_1_l. reflexivity.
  - exists phi. intros u. unfold moves_list in *. cbn [fold_right moves]. rewrite IH. unfold ellipse_pt. set (m := fold_right moves (cx, cy) fs). clearbody m. cbn [fst snd]. f_equal; match goal with |- ?a = ?b => change (@eq R a b) end; lra.
  - unfold moves_list in *. destruct (grow_circle a (fst (fold_right moves (cx, cy) fs)) (snd (fold_right moves (cx, cy) fs)) (k * r)) as [psi Hg]. exists (phi + psi). intros u. cbn [fold_right moves]. rewrite IH. unfold ellipse_pt at 1 2. cbn [fst snd].
    rewrite Hg. unfold ellipse_pt. cbn [fst snd]. rewrite !Rmult_assoc, !Rplus_assoc. reflexivity.
  - exists (phi + rad a). intros u. unfold moves_list in *. cbn [fold_right moves]. rewrite IH. unfold turn, ellipse_pt. cbn [fst snd]. rewrite <- !Rplus_assoc. set (t := u + phi). clearbody t. rewrite cos_plus, sin_plus. f_equal; ring.
Qed.
Lemma circle_image (O : Oracles) (Q : ROracles) (vb : bounds (F64 O)) (x y w h : F (F64 O)) (fs : list (tfun (RealEnv Q))) k cx cy r : square_page O vb x y w h -> enlarges fs k ->
  let c := image O Q vb x y w h fs (cx, cy) in let r' := Rabs (scale_x O vb w) * k * r in
  exists phi, forall u, image O Q vb x y w h fs (ellipse_pt cx cy r r u) = ellipse_pt (fst c) (snd c) r' r' (u + phi).
Proof.
  intros (S1 & S2 & S3 & S4 & S5) He c r'. unfold c, r', image. cbv zeta. cbn [fst snd]. assert (Es : scale_y O vb h = scale_x O vb w) by (unfold scale_x, scale_y; symmetry; exact S1). rewrite Es, S2, S3, S4, S5.
  set (s := scale_x O vb w). clearbody s. destruct (enlarged_circle fs k cx cy r He) as [phi H]. set (m := moves_list fs (cx, cy)) in *. clearbody m.
  destruct (grow_circle s (fst m) (snd m) (k * r)) as [psi Hg]. exists (phi + psi). intros u. rewrite H. unfold ellipse_pt at 1 2. cbn [fst snd].
  replace (0 + (fst m + k * r * cos (u + phi) - 0) * s) with (s * (fst m + k * r * cos (u + phi))) by ring. replace (0 + (snd m + k * r * sin (u + phi) - 0) * s) with (s * (snd m + k * r * sin (u + phi))) by ring.
  rewrite Hg. unfold ellipse_pt. rewrite Rplus_assoc. f_equal; ring.
Qed.
Lemma all2_imp_in {A B} (P P' : A -> B -> Prop) l k : (forall a b, List.In a l -> P a b -> P' a b) -> Forall2 P l k -> Forall2 P' l k.
Proof. intros H K. induction K; constructor; [apply H; [now left|assumption]|]. apply IHK. intros. apply H; [now right|assumption]. Qed.

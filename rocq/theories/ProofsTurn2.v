(** * ProofsTurn2: transformed figures on the page *)
From Coq Require Import ZArith Lia Reals Lra Psatz Floats.SpecFloat.
From Flocq Require Import Core.Core IEEE754.BinarySingleNaN.
From Verif Require Import F64 RealEnv SpecTurn ProofsStyle ProofsMatrix ProofsTurn ProofsLand ProofsFlocq.
Local Open Scope R_scope.

(** two readings of one text have the same matrix *)
Lemma text_unique {E : Env} v (fs gs : list (tfun E)) m : transform_text E v fs -> transform_text E v gs -> fold_left (tfun_apply E) (rev fs) m = fold_left (tfun_apply E) (rev gs) m.
Proof.
  intros H1 H2. set (par := put_part Transform m (defaultStyle (E := E))).
  assert (Hp : st_transform par = m) by reflexivity.
  set (c0 := cursor0 (E := E) IgnoreErrorMode).
  destruct (parseTransform_text v fs (c_set_stack [par] c0) par [] H1 eq_refl) as (c1 & A1 & _). destruct (parseTransform_text v gs (c_set_stack [par] c0) par [] H2 eq_refl) as (c2 & A2 & _).
  rewrite A1 in A2. injection A2 as _ A2. exact A2.
Qed.

Section Turned.
Context (O : Oracles) (Q : ROracles) (HF : fair_trig O) (HQ : reads_exactly Q).
Notation E := (F64 O).
Notation X := (RealEnv Q).
Context (vb : bounds E) (x y w h : F E) (Hsq : square_page O vb x y w h).
Lemma turned_near v f fs : turned_by O v f -> spells_turn O Q vb w v fs -> exists m' : matrix X,
  off_by O Q (List.length fs) (growths fs) (turned O f) m' /\ forall p, maps m' p = moves_list fs p.
Proof using HF HQ.
  intros (gs & G1 & G2) (T1 & T2 & T3 & _). destruct (text_matrix O Q HF v fs 1 0 identity identity HQ T1 T2) as (gs' & H1 & H2); [lra|lia|apply off_identity|].
  rewrite Nat.add_0_l, Rmult_1_l in H2. rewrite (text_unique v gs' gs) in H2 by assumption. rewrite G2. eexists. split; [exact H2|].
  intros p. rewrite orderly_apply by exact T3. apply identity_maps.
Qed.
Lemma scaled_err s n g a b : Rabs s * n * g <= 2 ^ 12 -> Rabs (a - b) <= n / 2 ^ 37 * g -> Rabs (a * s - b * s) <= / 2 ^ 25.
Proof using.
  intros H1 H2. replace (a * s - b * s) with (s * (a - b)) by ring. rewrite Rabs_mult. apply Rle_trans with (Rabs s * (n / 2 ^ 37 * g)); [apply Rmult_le_compat_l; [apply Rabs_pos|exact H2]|].
  replace (Rabs s * (n / 2 ^ 37 * g)) with (Rabs s * n * g * / 2 ^ 37) by (field; lra). lra.
Qed.
Lemma turned_place v f fs p : turned_by O v f -> spells_turn O Q vb w v fs -> Rabs (fst p) <= 2 ^ 16 -> Rabs (snd p) <= 2 ^ 16 ->
  (Rabs (fst (dest O vb x y w h (turned O f) p) - fst (image O Q vb x y w h fs p)) <= / 64 / 2 /\ tol_x O vb w h (turned O f) <= unit_x O Q vb x y w h fs + 2 + 1 / 2)
  /\ (Rabs (snd (dest O vb x y w h (turned O f) p) - snd (image O Q vb x y w h fs p)) <= / 64 / 2 /\ tol_y O vb w h (turned O f) <= unit_y O Q vb x y w h fs + 2 + 1 / 2).
Proof using HF HQ Hsq.
  intros Ht Hs Hp1 Hp2. destruct (turned_near v f fs Ht Hs) as (m' & ((N1 & N2 & N3 & N4 & N5 & N6) & _) & Hm). destruct Hs as (_ & _ & _ & Hb). destruct Hsq as (S1 & S2 & S3 & S4 & S5).
  assert (Es : scale_y O vb h = scale_x O vb w) by (unfold scale_x, scale_y; symmetry; exact S1).
  unfold dest, scaled_pt, image, tol_x, tol_y, unit_x, unit_y, image. cbv zeta. cbn [fst snd]. rewrite Es, S2, S3, S4, S5, <- !Hm. unfold maps. cbn [fst snd].
  set (s := scale_x O vb w) in *. clearbody s. set (t := turned O f) in *. clearbody t.
  destruct N1 as [_ N1], N2 as [_ N2], N3 as [_ N3], N4 as [_ N4], N5 as [_ N5], N6 as [_ N6].
  pose proof (fun a b => scaled_err s _ _ a b Hb) as K. apply K in N1, N2, N3, N4, N5, N6. clear K.
  set (A := val (mA t)) in *. set (B := val (mB t)) in *. set (C := val (mC t)) in *. set (D := val (mD t)) in *. set (G := val (mE t)) in *. set (H := val (mF t)) in *.
  set (A' := mA m' : R) in *. set (B' := mB m' : R) in *. set (C' := mC m' : R) in *. set (D' := mD m' : R) in *. set (G' := mE m' : R) in *. set (H' := mF m' : R) in *.
  clearbody A B C D G H A' B' C' D' G' H'. destruct p as [u v0]. cbn [fst snd] in *.
  assert (L : forall a b c a' b' c', Rabs (a * s - a' * s) <= / 2 ^ 25 -> Rabs (b * s - b' * s) <= / 2 ^ 25 -> Rabs (c * s - c' * s) <= / 2 ^ 25 ->
    Rabs (a * ((u + (0 - 0)) * s) + b * ((v0 + (0 - 0)) * s) + c * s - (0 + (a' * u + b' * v0 + c' - 0) * s)) <= / 64 / 2).
  { intros a b c a' b' c' H1 H2 H3. replace (a * ((u + (0 - 0)) * s) + b * ((v0 + (0 - 0)) * s) + c * s - (0 + (a' * u + b' * v0 + c' - 0) * s)) with (u * (a * s - a' * s) + (v0 * (b * s - b' * s) + (c * s - c' * s))) by ring.
    eapply Rle_trans; [apply Rabs_triang|]. assert (M : forall q e, Rabs q <= 2 ^ 16 -> Rabs e <= / 2 ^ 25 -> Rabs (q * e) <= 2 ^ 16 * / 2 ^ 25) by (intros; rewrite Rabs_mult; apply Rmult_le_compat; try apply Rabs_pos; assumption).
    pose proof (M u _ Hp1 H1). pose proof (M v0 _ Hp2 H2). pose proof (Rabs_triang (v0 * (b * s - b' * s)) (c * s - c' * s)). lra. }
  assert (T : forall a b a' b' c', Rabs (a * s - a' * s) <= / 2 ^ 25 -> Rabs (b * s - b' * s) <= / 2 ^ 25 ->
    Rabs (a * s) + Rabs (b * s) + 2 <= Rabs (0 + (a' * 1 + b' * 0 + c' - 0) * s - (0 + (a' * 0 + b' * 0 + c' - 0) * s)) + Rabs (0 + (a' * 0 + b' * 1 + c' - 0) * s - (0 + (a' * 0 + b' * 0 + c' - 0) * s)) + 2 + 1 / 2).
  { intros a b a' b' c' H1 H2. replace (0 + (a' * 1 + b' * 0 + c' - 0) * s - (0 + (a' * 0 + b' * 0 + c' - 0) * s)) with (a' * s) by ring. replace (0 + (a' * 0 + b' * 1 + c' - 0) * s - (0 + (a' * 0 + b' * 0 + c' - 0) * s)) with (b' * s) by ring.
    pose proof (Rabs_triang (a * s - a' * s) (a' * s)) as Q1. pose proof (Rabs_triang (b * s - b' * s) (b' * s)) as Q2. replace (a * s - a' * s + a' * s) with (a * s) in Q1 by ring. replace (b * s - b' * s + b' * s) with (b * s) in Q2 by ring. lra. }
  split; split.
  - apply L; assumption.
  - apply T; assumption.
  - apply L; assumption.
  - apply T; assumption.
Qed.
Lemma grid_small z : (Z.abs z <= 2 ^ 22)%Z -> Rabs (IZR z / 64) <= 2 ^ 16.
Proof using. intros H. apply IZR_le in H. rewrite <- Rabs_Zabs in H. change (IZR (2 ^ 22)) with 4194304 in H. unfold Rdiv. rewrite Rabs_mult, (Rabs_pos_eq (/ 64)) by lra. lra. Qed.
Context (v : string) (f : figure E) (fs : list (tfun X)) (Hv : turned_by O v f) (Hs : spells_turn O Q vb w v fs).
Notation tx := (unit_x O Q vb x y w h fs + 3). Notation ty := (unit_y O Q vb x y w h fs + 3). Notation im := (image O Q vb x y w h fs).
Definition small_pt (b : pt) : Prop := (Z.abs (fst b) <= 2 ^ 22 /\ Z.abs (snd b) <= 2 ^ 22)%Z.
Lemma pt_meet a b : small_pt b -> pt_lands O vb x y w h (turned O f) a b -> pt_meets im tx ty a b.
Proof using HF HQ Hsq Hv Hs.
  intros [B1 B2] [H1 H2]. destruct (turned_place v f fs (IZR (fst b) / 64, IZR (snd b) / 64) Hv Hs (grid_small _ B1) (grid_small _ B2)) as [[P1 T1] [P2 T2]].
  unfold pt_meets, goal. unfold on_page in H1, H2. split.
  - replace (IZR (fst a) - 64 * fst (im (IZR (fst b) / 64, IZR (snd b) / 64))) with ((IZR (fst a) - 64 * fst (dest O vb x y w h (turned O f) (IZR (fst b) / 64, IZR (snd b) / 64))) + 64 * (fst (dest O vb x y w h (turned O f) (IZR (fst b) / 64, IZR (snd b) / 64)) - fst (im (IZR (fst b) / 64, IZR (snd b) / 64)))) by ring.
    eapply Rle_trans; [apply Rabs_triang|]. rewrite (Rabs_mult 64), (Rabs_pos_eq 64) by lra. lra.
  - replace (IZR (snd a) - 64 * snd (im (IZR (fst b) / 64, IZR (snd b) / 64))) with ((IZR (snd a) - 64 * snd (dest O vb x y w h (turned O f) (IZR (fst b) / 64, IZR (snd b) / 64))) + 64 * (snd (dest O vb x y w h (turned O f) (IZR (fst b) / 64, IZR (snd b) / 64)) - snd (im (IZR (fst b) / 64, IZR (snd b) / 64)))) by ring.
    eapply Rle_trans; [apply Rabs_triang|]. rewrite (Rabs_mult 64), (Rabs_pos_eq 64) by lra. lra.
Qed.
Lemma px_meet a b : small_pt b -> px_lands O vb x y w h (turned O f) a b -> px_meets im tx ty a b.
Proof using HF HQ Hsq Hv Hs.
  intros [B1 B2] [[F1 H1] [F2 H2]]. destruct (turned_place v f fs (IZR (fst b) / 64, IZR (snd b) / 64) Hv Hs (grid_small _ B1) (grid_small _ B2)) as [[P1 T1] [P2 T2]].
  unfold px_meets, goal. unfold on_page in H1, H2. split; (split; [assumption|]).
  - replace (val (fst a) - fst (im (IZR (fst b) / 64, IZR (snd b) / 64))) with ((val (fst a) - fst (dest O vb x y w h (turned O f) (IZR (fst b) / 64, IZR (snd b) / 64))) + (fst (dest O vb x y w h (turned O f) (IZR (fst b) / 64, IZR (snd b) / 64)) - fst (im (IZR (fst b) / 64, IZR (snd b) / 64)))) by ring.
    eapply Rle_trans; [apply Rabs_triang|]. lra.
  - replace (val (snd a) - snd (im (IZR (fst b) / 64, IZR (snd b) / 64))) with ((val (snd a) - snd (dest O vb x y w h (turned O f) (IZR (fst b) / 64, IZR (snd b) / 64))) + (snd (dest O vb x y w h (turned O f) (IZR (fst b) / 64, IZR (snd b) / 64)) - snd (im (IZR (fst b) / 64, IZR (snd b) / 64)))) by ring.
    eapply Rle_trans; [apply Rabs_triang|]. lra.
Qed.
Lemma op_meet q p : small_outline p -> Forall2 (op_lands O vb x y w h (turned O f)) q p -> Forall2 (op_meets im tx ty) q p.
Proof using HF HQ Hsq Hv Hs.
  intros Hp H. induction H as [|a b q p Hab H IH]; constructor.
  - assert (K : forall c, List.In c (op_points b) -> small_pt c) by (intros c Hc; exact (Hp b c (or_introl eq_refl) Hc)).
    destruct Hab; constructor; apply pt_meet; try assumption; apply K; cbn; auto.
  - apply IH. intros o c Ho. apply Hp. now right.
Qed.
Lemma pen_meet q p : small_outline p -> Forall2 (pen_lands O vb x y w h (turned O f)) q (filter drawing_op p) -> Forall2 (pen_meets im tx ty) q (filter drawing_op p).
Proof using HF HQ Hsq Hv Hs.
  intros Hp H. assert (Hp' : small_outline (filter drawing_op p)) by (intros o c Ho; apply Hp; apply filter_In in Ho; tauto). clear Hp. induction H as [|a b q p' Hab H IH]; constructor.
  - assert (K : forall c, List.In c (op_points b) -> small_pt c) by (intros c Hc; exact (Hp' b c (or_introl eq_refl) Hc)).
    destruct Hab; constructor; apply px_meet; try assumption; apply K; cbn; auto.
  - apply IH. intros o c Ho. apply Hp'. now right.
Qed.
End Turned.
Section Figures.
Context (O : Oracles) (Q : ROracles) (HF : fair_trig O) (HQ : reads_exactly Q).
Notation E := (F64 O).
Context (vb : bounds E) (x y w h : F E) (Hsq : square_page O vb x y w h).
Lemma rx_turns f l : rx_figure O Q vb x y w h f l -> rx_turned O Q vb x y w h f l.
Proof using HF HQ Hsq.
  intros (q & H1 & H2). exists q. split; [exact H2|]. intros p v fs Hp Hsm Hv Hs. apply (op_meet O Q HF HQ vb x y w h Hsq v f fs Hv Hs); [exact Hsm|apply H1, Hp].
Qed.
Lemma pen_turns f l : pen_figure O Q vb x y w h (turned O f) f l -> pen_turned O Q vb x y w h f l.
Proof using HF HQ Hsq.
  intros H p v fs Hp Hsm Hv Hs. apply (pen_meet O Q HF HQ vb x y w h Hsq v f fs Hv Hs); [exact Hsm|apply H, Hp].
Qed.
End Figures.
Lemma all2_imp {A B} (P P' : A -> B -> Prop) l k : (forall a b, P a b -> P' a b) -> Forall2 P l k -> Forall2 P' l k.
Proof. intros H. induction 1; constructor; auto. Qed.

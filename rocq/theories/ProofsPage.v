(** * ProofsPage: circles and ellipses on the page (C64) *)
From Coq Require Import ZArith Lia Reals Lra Psatz.
From Flocq Require Import Core.Core.
From Verif Require Import F64 RealEnv SpecArc SpecClose SpecMeasure SpecPage SpecLift ProofsFlocq ProofsClose ProofsMeasure ProofsCircle ProofsCurve ProofsCircle2.
Local Open Scope R_scope.
Local Notation pow := (bpow radix2).

Section Page.
Context (O : Oracles) (Q : ROracles) (HF : fair_trig O).
Notation E := (F64 O).
Context (vb : bounds E) (x y w h : F E).
Section Map.
Context (t : matrix E).
Notation sx := (scale_x O vb w). Notation sy := (scale_y O vb h).
Notation ox := (value64 x - value64 (bX vb)). Notation oy := (value64 y - value64 (bY vb)).
Notation A := (value64 (mA t)). Notation B := (value64 (mB t)). Notation C := (value64 (mC t)). Notation D := (value64 (mD t)).
Notation mv := (moved (A * sx) (B * sx) (C * sy) (D * sy) (A * ox * sx + C * oy * sy + value64 (mE t) * sx) (B * ox * sx + D * oy * sy + value64 (mF t) * sy)).
Lemma dest_moved p : dest O vb x y w h t p = mv p.
Proof using. unfold dest, scaled_pt, moved. cbn [fst snd]. f_equal; ring. Qed.
Lemma tol_kx : tol_x O vb w h t = kx (A * sx) (C * sy) + 2. Proof using. reflexivity. Qed.
Lemma tol_ky : tol_y O vb w h t = ky (B * sx) (D * sy) + 2. Proof using. reflexivity. Qed.
(** moving two points at most 1/64 apart *)
Lemma moved_grid p : of_user p -> beside (kx (A * sx) (C * sy) / 64) (ky (B * sx) (D * sy) / 64) (mv (user (grid_R p))) (mv p).
Proof using.
  intros U. destruct (user_grid p U) as [G1 G2]. unfold moved, kx, ky. set (a := fst (user (grid_R p))) in *. set (b := snd (user (grid_R p))) in *.
  assert (K : forall k l m, Rabs (k * a + l * b + m - (k * fst p + l * snd p + m)) <= (Rabs k + Rabs l) / 64).
  { intros k l m. replace (k * a + l * b + m - (k * fst p + l * snd p + m)) with (k * (a - fst p) + l * (b - snd p)) by ring. eapply Rle_trans; [apply Rabs_triang|]. rewrite !Rabs_mult.
    assert (Rabs k * Rabs (a - fst p) <= Rabs k * / 64) by (apply Rmult_le_compat_l; [apply Rabs_pos|exact G1]). assert (Rabs l * Rabs (b - snd p) <= Rabs l * / 64) by (apply Rmult_le_compat_l; [apply Rabs_pos|exact G2]). lra. }
  split; cbn [fst snd]; apply K.
Qed.
Notation ex := ((2 * kx (A * sx) (C * sy) + 2) / 64). Notation ey := ((2 * ky (B * sx) (D * sy) + 2) / 64).
Lemma pt_close z a : pt_lands O vb x y w h t z (grid_R a) -> of_user a -> beside ex ey (user z) (mv a).
Proof using.
  intros [H1 H2] U. destruct (moved_grid a U) as [G1 G2]. unfold on_page in H1, H2. rewrite dest_moved in H1, H2. change (IZR (fst (grid_R a)) / 64, IZR (snd (grid_R a)) / 64) with (user (grid_R a)) in *.
  rewrite tol_kx in H1. rewrite tol_ky in H2. unfold user at 1. set (m := mv (user (grid_R a))) in *. set (n := mv a) in *. apply Rabs_le_inv in H1, H2, G1, G2. split; unfold user; cbn [fst snd]; apply Rabs_le; lra.
Qed.
Lemma px_close z a : px_lands O vb x y w h t z (grid_R a) -> of_user a -> beside ex ey (pixel O z) (mv a).
Proof using.
  intros [[_ H1] [_ H2]] U. destruct (moved_grid a U) as [G1 G2]. unfold on_page in H1, H2. rewrite dest_moved in H1, H2. change (IZR (fst (grid_R a)) / 64, IZR (snd (grid_R a)) / 64) with (user (grid_R a)) in *.
  rewrite tol_kx in H1. rewrite tol_ky in H2. unfold pixel. set (m := mv (user (grid_R a))) in *. set (n := mv a) in *. apply Rabs_le_inv in H1, H2, G1, G2. split; cbn [fst snd]; apply Rabs_le; lra.
Qed.
Context (cx cy rx ry : R) (B1 : Rabs cx <= pow 18) (B2 : Rabs cy <= pow 18) (B3 : 0 <= rx <= pow 16) (B4 : 0 <= ry <= pow 16).
Lemma widen_tol l : runs_along (ex + kx (A * sx) (C * sy) * 0.023) (ey + ky (B * sx) (D * sy) * 0.023) (fun u => mv (ellipse_pt cx cy rx ry u)) l -> on_page_ellipse O vb x y w h t cx cy rx ry l.
Proof using.
  unfold on_page_ellipse. rewrite tol_kx, tol_ky. pose proof (kx_pos (A * sx) (C * sy)). pose proof (ky_pos (B * sx) (D * sy)). apply runs_wider; [lra|lra|]. intros u. symmetry. apply dest_moved.
Qed.
Lemma ops_page q : Forall2 (op_lands O vb x y w h t) q (whole_ellipse cx cy rx ry) -> on_page_ellipse O vb x y w h t cx cy rx ry (map bow_of q).
Proof using B1 B2 B3 B4.
  intros H. apply widen_tol. apply (whole_runs cx cy rx ry B1 B2 B3 B4 bow_of (op_lands O vb x y w h t)) with (tl := [OpClose]); [| | |left; reflexivity|exact H].
  - intros o a Hx. inversion Hx; subst. eexists. split; [reflexivity|]. apply pt_close. assumption.
  - intros o a b c Hx. inversion Hx; subst. do 3 eexists. split; [reflexivity|]. repeat split; apply pt_close; assumption.
  - intros o Hx. inversion Hx; subst. reflexivity.
Qed.
Lemma no_close n : forall i, filter drawing_op (map (fun i => piece cx cy rx ry 0 (0 + INR i * (- (2 * PI) / INR 17)) (- (2 * PI) / INR 17)) (seq i n) ++ [OpClose])
  = map (fun i => piece cx cy rx ry 0 (0 + INR i * (- (2 * PI) / INR 17)) (- (2 * PI) / INR 17)) (seq i n).
Proof using. induction n as [|n IH]; intros i; [reflexivity|]. cbn [seq map app]. unfold piece at 1. cbn [filter drawing_op]. f_equal. apply IH. Qed.
Lemma pens_page l : Forall2 (pen_lands O vb x y w h t) l (filter drawing_op (whole_ellipse cx cy rx ry)) -> on_page_ellipse O vb x y w h t cx cy rx ry (map (pen_bow O) l).
Proof using B1 B2 B3 B4.
  intros H. apply widen_tol. apply (whole_runs cx cy rx ry B1 B2 B3 B4 (pen_bow O) (pen_lands O vb x y w h t)) with (tl := []); [| | |right; reflexivity|].
  - intros o a Hx. inversion Hx; subst. eexists. split; [reflexivity|]. apply px_close. assumption.
  - intros o a b c Hx. inversion Hx; subst. do 3 eexists. split; [reflexivity|]. repeat split; apply px_close; assumption.
  - intros o Hx. inversion Hx.
  - rewrite app_nil_r. unfold whole_ellipse in H. cbn [filter drawing_op] in H. unfold pieces in *. rewrite no_close in H. exact H.
Qed.
End Map.
(** the exact outline of a figure that is one circle or ellipse *)
Lemma round_outline f cx cy rx ry : page_fits O Q vb x y w h (turned O f) f -> round_figure O Q vb f cx cy rx ry ->
  exact_outline O Q vb f (whole_ellipse cx cy rx ry) /\ Rabs cx <= pow 18 /\ Rabs cy <= pow 18 /\ 0 <= rx <= pow 16 /\ 0 <= ry <= pow 16.
Proof using HF.
  intros (_ & p & Hp & _) (off & name & attrs & Hs & Lx & Ly & Hr). unfold exact_outline in *. rewrite Hs in *. rewrite (ProofsTree.one_outline (meant O Q)) in Hp. destruct Hp as (HB & [HX HY] & _). split.
  - apply (ProofsTree.one_outline (meant O Q)). split; [exact HB|]. split; [split; assumption|]. right. split; [exact HF|]. econstructor; eassumption.
  - eapply round_bounds; eassumption.
Qed.
Lemma rx_figure_round f l : page_fits O Q vb x y w h (turned O f) f -> rx_figure O Q vb x y w h f l -> rx_round O Q vb x y w h f l.
Proof using HF.
  intros Hp (q & Hq & Hl) cx cy rx ry Hr. destruct (round_outline f cx cy rx ry Hp Hr) as (Ho & B1 & B2 & B3 & B4). exists q. split; [|exact Hl]. apply ops_page; auto.
Qed.
Lemma pen_figure_round f l : page_fits O Q vb x y w h (turned O f) f -> pen_figure O Q vb x y w h (turned O f) f l -> pen_round O Q vb x y w h f l.
Proof using HF.
  intros Hp Hq cx cy rx ry Hr. destruct (round_outline f cx cy rx ry Hp Hr) as (Ho & B1 & B2 & B3 & B4). apply pens_page; auto.
Qed.
Lemma all2_and {X Y} (P P' : X -> Y -> Prop) l l' : (forall a b, List.In a l -> P a b -> P' a b) -> Forall2 P l l' -> Forall2 (fun a b => P a b /\ P' a b) l l'.
Proof using. intros H K. induction K as [|a b l l' Hab K IH]; constructor; [split; [exact Hab|apply H; [left; reflexivity|exact Hab]]|]. apply IH. intros a' b' Hi. apply H. right. exact Hi. Qed.
End Page.
(** the points of the exact outline lie in twice the box of the ellipse *)
Lemma wave2 k u v : Rabs k <= 1 -> -1 <= u <= 1 -> -1 <= v <= 1 -> Rabs (u + k * v) <= 2.
Proof.
  intros Hk Hu Hv. assert (Rabs (k * v) <= 1) by (rewrite Rabs_mult; assert (Rabs v <= 1) by (apply Rabs_le; lra); pose proof (Rabs_pos k); pose proof (Rabs_pos v); nra).
  assert (Rabs u <= 1) by (apply Rabs_le; lra). pose proof (Rabs_triang u (k * v)). lra.
Qed.
Lemma ellipse_box cx cy rx ry o a : List.In o (whole_ellipse cx cy rx ry) -> List.In a (op_points o) ->
  exists u v, a = grid_R (cx + rx * u, cy + ry * v) /\ Rabs u <= 2 /\ Rabs v <= 2.
Proof.
  intros Ho Ha. destruct Ho as [<-|Ho].
  - destruct Ha as [<-|[]]. exists 1, 0. rewrite Rmult_1_r, Rmult_0_r, Rplus_0_r, Rabs_R1, Rabs_R0. split; [reflexivity|lra].
  - apply in_app_or in Ho as [Ho|[<-|[]]]; [|destruct Ha]. unfold pieces in Ho. apply in_map_iff in Ho as (i & <- & _).
    unfold piece, ell_at, ell_dir in Ha. cbn [fst snd op_points] in Ha. rewrite !cos_0, !sin_0 in Ha. replace (INR 17) with 17 in Ha by (cbn; ring). set (t := 0 + INR i * step_R) in *. set (h := handle step_R) in *.
    pose proof handle17 as Hh. fold h in Hh. assert (Hh' : Rabs (- h) <= 1) by (rewrite Rabs_Ropp; exact Hh). assert (H00 : Rabs 0 <= 1) by (rewrite Rabs_R0; lra). set (b := t + step_R) in *. 
    pose proof (COS_bound t). pose proof (SIN_bound t). pose proof (COS_bound b). pose proof (SIN_bound b).
    destruct Ha as [<-|[<-|[<-|[]]]].
    + exists (cos t + - h * sin t), (sin t + h * cos t). split; [f_equal; f_equal; ring|]. split; apply wave2; assumption.
    + exists (cos b + h * sin b), (sin b + - h * cos b). split; [f_equal; f_equal; ring|]. split; apply wave2; assumption.
    + exists (cos b + 0 * sin b), (sin b + 0 * cos b). split; [f_equal; f_equal; ring|]. split; apply wave2; assumption.
Qed.

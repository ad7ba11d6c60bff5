(** * ProofsCircle2: circle and ellipse elements follow their ellipses *)
From Coq Require Import ZArith Lia Reals Lra.
From Flocq Require Import Core.Core.
From Verif Require Import F64 RealEnv SpecArc SpecClose SpecMeasure SpecCircle SpecLift ProofsFlocq ProofsClose ProofsMeasure ProofsCircle ProofsCurve.
Local Open Scope R_scope.
Local Notation pow := (bpow radix2).

Lemma value_bound (reads : string -> R -> Prop) b n attrs : (forall s x, reads s x -> Rabs x <= b) -> forall d x, Rabs d <= b -> value_attr reads n d attrs x -> Rabs x <= b.
Proof.
  intros Hr. induction attrs as [|a r IH]; cbn [value_attr]; intros d x Hd.
  - intros ->. exact Hd.
  - destruct (String.eqb (a_name a) n); [|apply IH, Hd]. intros (y & Hy & H). exact (IH y x (Hr _ _ Hy) H).
Qed.
Lemma exact_small Q vb e n attrs x : exact_attr Q vb e n attrs x -> Rabs x <= pow 16.
Proof.
  apply value_bound; [|rewrite Rabs_R0; apply bpow_ge_0]. intros s y (l & m & k & u & r & H). replace (pow 16) with (2 ^ 16) by (change (pow 16) with 65536; lra). apply H.
Qed.
Lemma off_small O o : upto O 17 o -> Rabs (val o) <= pow 17.
Proof. intros [_ H]. replace (pow 17) with (2 ^ 17) by (change (pow 17) with 131072; lra). exact H. Qed.
Lemma sum18 a b : Rabs a <= pow 16 -> Rabs b <= pow 17 -> Rabs (a + b) <= pow 18.
Proof. intros Ha Hb. pose proof (Rabs_triang a b). change (pow 16) with 65536 in Ha. change (pow 17) with 131072 in Hb. change (pow 18) with 262144. lra. Qed.
Lemma round_bounds O Q vb off name attrs cx cy rx ry : upto O 17 (fst off) -> upto O 17 (snd off) ->
  round_at Q vb (val (fst off), val (snd off)) name attrs cx cy rx ry -> / 2 ^ 16 <= rx -> / 2 ^ 16 <= ry ->
  Rabs cx <= pow 18 /\ Rabs cy <= pow 18 /\ 0 <= rx <= pow 16 /\ 0 <= ry <= pow 16.
Proof.
  intros Hx%off_small Hy%off_small H Lx Ly. assert (L : 0 < / 2 ^ 16) by (apply Rinv_0_lt_compat, pow_lt; lra).
  assert (Hr : forall r, / 2 ^ 16 <= r -> Rabs r <= pow 16 -> 0 <= r <= pow 16) by (intros r G K; pose proof (Rle_abs r); lra).
  destruct H as [attrs cx cy r H1 H2 H3 _ _|attrs cx cy rx ry H1 H2 H3 H4 _]; cbn [fst snd]; apply exact_small in H1, H2, H3; try apply exact_small in H4; auto using sum18.
Qed.

Section Elements.
Context (O : Oracles) (Q : ROracles) (HF : fair_trig O).
Notation E := (F64 O).
Lemma circle_pass fuel name : (name = "circle" \/ name = "ellipse")%string -> drawFuncs (E := E) fuel name = Some circleF.
Proof using. intros [->| ->]; reflexivity. Qed.
Theorem round_element fuel name attrs (c : cursor E) cx cy rx ry : pc_path (c_pc c) = [] ->
  upto O 17 (bW (sv_viewBox (c_svg c))) -> upto O 17 (bH (sv_viewBox (c_svg c))) -> upto O 17 (fst (offset c)) -> upto O 17 (snd (offset c)) ->
  round_at Q (ex_bounds O Q (sv_viewBox (c_svg c))) (value64 (fst (offset c)), value64 (snd (offset c))) name attrs cx cy rx ry -> / 2 ^ 16 <= rx -> / 2 ^ 16 <= ry ->
  exists q, element_draws fuel name attrs c q /\ Forall2 (op_within 1) q (whole_ellipse cx cy rx ry) /\ follows_ellipse (1 / 16) cx cy rx ry q.
Proof using HF.
  intros Hp HW HH HX HY Hr Lx Ly. destruct (round_close O Q (offset c) HX HY c name attrs (whole_ellipse cx cy rx ry) HF eq_refl HW HH Hp (xr_whole _ _ _ _ _ _ _ _ _ Hr Lx Ly)) as (Hn & q & (pc' & D1 & D2 & _) & Hq).
  exists q. split; [exists circleF, (c_set_pc pc' c); split; [apply circle_pass, Hn|auto]|]. split; [exact Hq|].
  destruct (round_bounds _ _ _ _ _ _ _ _ _ _ HX HY Hr Lx Ly) as (B1 & B2 & B3 & B4). apply whole_follows; assumption.
Qed.
Theorem flat_element fuel name attrs (c : cursor E) cx cy rx ry : pc_path (c_pc c) = [] ->
  upto O 17 (bW (sv_viewBox (c_svg c))) -> upto O 17 (bH (sv_viewBox (c_svg c))) -> upto O 17 (fst (offset c)) -> upto O 17 (snd (offset c)) ->
  round_at Q (ex_bounds O Q (sv_viewBox (c_svg c))) (value64 (fst (offset c)), value64 (snd (offset c))) name attrs cx cy rx ry -> rx = 0 \/ ry = 0 ->
  element_draws fuel name attrs c [].
Proof using HF.
  intros Hp HW HH HX HY Hr N. destruct (round_close O Q (offset c) HX HY c name attrs [] HF eq_refl HW HH Hp (xr_flat _ _ _ _ _ _ _ _ _ Hr N)) as (Hn & q & (pc' & D1 & D2 & _) & Hq).
  inversion Hq; subst. exists circleF, (c_set_pc pc' c). split; [apply circle_pass, Hn|auto].
Qed.
Lemma nearly_curved vb off name attrs p : nearly O Q vb off name attrs p -> curved O Q vb off name attrs p.
Proof using HF.
  intros H. split; [exact H|]. intros cx cy rx ry Hr Lx Ly. destruct H as ((p0 & HB & [HX HY] & _) & Hall).
  destruct (round_bounds _ _ _ _ _ _ _ _ _ _ HX HY Hr Lx Ly) as (B1 & B2 & B3 & B4). apply whole_follows; try assumption.
  apply Hall. split; [exact HB|]. split; [split; assumption|]. right. split; [exact HF|]. econstructor; eassumption.
Qed.
End Elements.

Lemma all2_weaker {A B} (P P' : A -> B -> Prop) l l' : (forall a b, P a b -> P' a b) -> Forall2 P l l' -> Forall2 P' l l'.
Proof. intros H. induction 1; constructor; auto. Qed.
Section Mono.
Context {E : Env} (SH SH' : bounds E -> point E -> string -> list attr -> path -> Prop) (vb : bounds E).
Context (HS : forall off name attrs p, SH vb off name attrs p -> SH' vb off name attrs p).
Lemma outlines_weaker ps p q : outlines E SH vb p ps q -> outlines E SH' vb p ps q.
Proof using HS. induction 1; econstructor; eauto. Qed.
Lemma drawn_weaker f sp : SpecTree.drawn E SH vb f sp -> SpecTree.drawn E SH' vb f sp.
Proof using HS. intros (H1 & H2 & H3). split; [exact H1|]. split; [exact H2|]. apply outlines_weaker, H3. Qed.
Lemma shows_weaker w s : shows E SH vb w s -> shows E SH' vb w s.
Proof using HS.
  intros (H1 & H2 & H3 & H4 & H5). repeat (split; [assumption|]). split; [revert H4; apply all2_weaker; exact drawn_weaker|].
  intros id. specialize (H5 id). destruct (w_masks E w id) as [m|], (mget id (sv_masks s)) as [mk|]; auto. destruct H5 as (K1 & K2 & K3). split; [exact K1|]. split; [exact K2|]. revert K3. apply all2_weaker. exact drawn_weaker.
Qed.
End Mono.
Theorem curved_document (O : Oracles) (Q : ROracles) : fair_trig O -> reads_exactly Q -> name_table (F64 O) ->
  forall (fuel : nat) (mode : errorMode) (lenient : bool) (dep : nat) (ns : list node) (vb : bounds (F64 O)) (w : world (F64 O)),
  (dep <= fuel)%nat -> document (F64 O) (meant O Q) lenient dep ns vb w -> (lenient = true -> mode <> StrictErrorMode) ->
  exists s log, parse (S fuel) mode (flat_map tokens ns) TermEOF = PSvg s None log /\ shows (F64 O) (curved O Q) vb w s
    /\ sv_width s = text_attr "width" "" (root_attrs ns) /\ sv_height s = text_attr "height" "" (root_attrs ns).
Proof.
  intros HF HQ HN fuel mode lenient dep ns vb w Hf Hd Hl. destruct (meant_document O Q (fair_zero _ HF) HQ HN fuel mode lenient dep ns vb w Hf Hd Hl) as (s & log & H1 & H2 & H3).
  exists s, log. split; [exact H1|]. split; [|exact H3]. revert H2. apply shows_weaker. intros off name attrs p. apply nearly_curved, HF.
Qed.

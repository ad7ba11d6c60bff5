(** * ProofsCorner7: rounded rectangles in documents *)
From Coq Require Import ZArith Lia Reals Lra Psatz Floats.SpecFloat.
From Flocq Require Import Core.Core Relative IEEE754.BinarySingleNaN.
From Verif Require Import F64 RealEnv SpecArc SpecTrig SpecCurve SpecPlane SpecCorner SpecLift ProofsArc64 ProofsScale ProofsAngle ProofsSize3 ProofsDec ProofsRect ProofsPlane ProofsCircle ProofsCurve ProofsCorner ProofsCorner2 ProofsCorner3 ProofsCorner4 ProofsCorner5 ProofsClose ProofsMeasure ProofsCorner6 ProofsTree2 ProofsLift2 ProofsShape ProofsUnit ProofsFlocq.
Local Open Scope R_scope.
Local Existing Instance ProofsFlocq.Hprec.
Local Existing Instance ProofsFlocq.Hmax.
Local Notation pow := (bpow radix2).

(** ** The outline *)
Lemma bows_follow_rim b1 b2 b3 b4 x0 y0 x1 y1 r q : 0 < r -> 2 * r <= x1 - x0 -> 2 * r <= y1 - y0 ->
  Forall2 (bow_follows 1 0 0 1 0 0 (6 / 64) (6 / 64)) (map bow_of q) (rim_bows b1 b2 b3 b4 x0 y0 x1 y1 r) -> follows_rim (r / 700 + 3 / 32) x0 y0 x1 y1 r q.
Proof.
  intros Hr Hw Hh H. assert (Z : beside (6 / 64) (6 / 64) (0, 0) (moved 1 0 0 1 0 0 (0, 0))) by (split; unfold moved; cbn [fst snd]; apply Rabs_le; lra).
  assert (C : forall a b c, beside (6 / 64) (6 / 64) a (moved 1 0 0 1 0 0 b) -> beside (r * 0.0014) (r * 0.0014) b c -> beside (r / 700 + 3 / 32) (r / 700 + 3 / 32) a c).
  { intros [ax ay] [bx by_] [cx cy] [A1 A2] [B1 B2]. unfold moved in *. cbn [fst snd] in *.
    replace (1 * bx + 0 * by_ + 0) with bx in A1 by ring. replace (0 * bx + 1 * by_ + 0) with by_ in A2 by ring.
    split; cbn [fst snd]; [pose proof (Rabs_triang (ax - bx) (bx - cx)) as T; replace (ax - bx + (bx - cx)) with (ax - cx) in T by ring|pose proof (Rabs_triang (ay - by_) (by_ - cy)) as T; replace (ay - by_ + (by_ - cy)) with (ay - cy) in T by ring]; lra. }
  split.
  - intros z Hz. destruct (follow_on 1 0 0 1 0 0 (6 / 64) (6 / 64) _ _ H _ _ _ _ z Z Z Hz) as (z1 & R1 & N1).
    destruct (rim_on x0 y0 x1 y1 r Hr Hw Hh b1 b2 b3 b4 z1 R1) as (z2 & R2 & N2). exists z2. split; [exact R2|]. exact (C _ _ _ N1 N2).
  - intros z Hz. destruct (rim_all x0 y0 x1 y1 r Hr Hw Hh b1 b2 b3 b4 z Hz) as (z1 & R1 & N1).
    destruct (follow_all 1 0 0 1 0 0 (6 / 64) (6 / 64) _ _ H _ _ _ _ z1 Z Z R1) as (z2 & R2 & N2). exists z2. split; [exact R2|]. exact (C _ _ _ N2 N1).
Qed.

(** ** The element *)
Lemma rectF_runs {E : Env} fuel attrs x y w h rx ry rx1 ry1 (c : cursor E) q : let vb := sv_viewBox (c_svg c) in
  pc_path (c_pc c) = [] ->
  length_attr vb OfWidth "x" attrs x -> length_attr vb OfHeight "y" attrs y ->
  length_attr vb OfWidth "width" attrs w -> length_attr vb OfHeight "height" attrs h ->
  length_attr vb OfWidth "rx" attrs rx -> length_attr vb OfHeight "ry" attrs ry ->
  feqb E w (f0 E) = false -> feqb E h (f0 E) = false ->
  (if negb (feqb E rx (f0 E)) && feqb E ry (f0 E) then rx else ry) = ry1 -> (if negb (feqb E ry1 (f0 E)) && feqb E rx (f0 E) then ry1 else rx) = rx1 ->
  addRoundRect fuel (fadd E x (fst (offset c))) (fadd E y (snd (offset c))) (fadd E (fadd E w x) (fst (offset c))) (fadd E (fadd E h y) (snd (offset c))) rx1 ry1 (fnum E 0) [] = Ret q ->
  draws_as (rectF fuel) attrs c q.
Proof.
  intros vb Hp Hx Hy Hw Hh Hrx Hry Nw Nh <- <- Hq. exists (set_path q (c_pc c)). unfold rectF.
  rewrite (bind_step _ _ _ _ _ (rect_fold attrs _ _ _ _ _ _ x y w h rx ry c Hx Hy Hw Hh Hrx Hry)).
  cbv beta iota. unfold f0 in *. rewrite Nw, Nh. cbn [orb].
  unfold curXY, bind, gets, lift. rewrite Hp. cbn [fst snd offset] in Hq. cbv zeta. rewrite Hq. repeat split; reflexivity.
Qed.
Section Rounded.
Context (O : Oracles) (Q : ROracles).
Notation E := (F64 O).
Notation X := (RealEnv Q).
Lemma attr_bound (vb : bounds X) e n attrs x : exact_attr Q vb e n attrs x -> Rabs x <= pow 16.
Proof using.
  unfold exact_attr. assert (K : forall l d y, Rabs d <= pow 16 -> value_attr (exact_length Q vb e) n d l y -> Rabs y <= pow 16).
  { induction l as [|a l IH]; intros d y Hd H; cbn [value_attr] in *; [subst y; exact Hd|]. destruct (String.eqb (a_name a) n); [|eapply IH; eassumption].
    destruct H as (y0 & (l0 & n0 & m & u & r & Hx) & H2). decompose [and] Hx. eapply IH; [|exact H2]. replace (pow 16) with (2 ^ 16) by (cbn; lra). assumption. }
  apply K. rewrite Rabs_R0. apply bpow_ge_0.
Qed.
Lemma sharp_stands x' x : 0 <= x -> sharp O Q x' x -> stands O Q x' x.
Proof using. intros H [A Z]. split; [revert A; apply ap_le; lia|]. split; [exact Z|]. intros H0. rewrite Z by lra. lra. Qed.
Lemma ap_shrink b k e (v : sf) t d : ap b e v t -> IZR e * pow (-100) <= d -> Rabs t + d <= pow k -> 0 <= d -> ap k e v t.
Proof using.
  intros ((V & Fi & _) & D & _) He Ht Hd. split; [split; [exact V|split; [exact Fi|]]|split; [exact D|lra]].
  pose proof (Rabs_triang (val v - t) t) as T. replace (val v - t + t) with (val v) in T by ring. lra.
Qed.
Lemma low_ap x' x (o : F E) : sharp O Q x' x -> upto O 16 o -> ap 18 (2 ^ 67) (fadd E x' o) (x + value64 o).
Proof using.
  intros [A _] U. assert (U' : upto O 17 o) by (destruct U as [U1 U2]; split; [exact U1|lra]). apply upto_ap in U'. pose proof (ap_add 17 _ _ _ _ _ _ ltac:(lia) A U') as H. revert H. apply ap_le; lia.
Qed.
Lemma high_ap x' x w' w (o : F E) : sharp O Q x' x -> sharp O Q w' w -> Rabs x <= pow 16 -> Rabs w <= pow 16 -> upto O 16 o -> ap 18 (2 ^ 68) (fadd E (fadd E w' x') o) (x + value64 o + w).
Proof using.
  intros [A _] [B _] Bx Bw U. assert (U' : upto O 17 o) by (destruct U as [U1 U2]; split; [exact U1|lra]). apply upto_ap in U'. apply (ap_le 17 18 _ _ _ _ ltac:(lia) ltac:(reflexivity)) in U'. pose proof (ap_add 17 _ _ _ _ _ _ ltac:(lia) B A) as H.
  pose proof (ap_add 18 _ _ _ _ _ _ ltac:(lia) H U') as H1. replace (x + value64 o + w) with (w + x + val o) by ring. apply (ap_le _ 19 _ (2 ^ 68)) in H1; [|lia|lia].
  apply (ap_shrink 19 18 _ _ _ 1 H1); [rewrite pow_Z by lia; rewrite <- bpow_plus; cbn; lra| |lra].
  destruct U as [_ U]. pose proof (Rabs_triang (w + x) (val o)). pose proof (Rabs_triang w x). change (pow 18) with (IZR 262144). change (pow 16) with (IZR 65536) in *. replace (2 ^ 16) with 65536 in U by lra. lra.
Qed.
Context (HF : fair_trig O) (HA : fair_axes O).
Lemma rounded_draws fuel attrs (c : cursor E) x0 y0 x1 y1 r : (1 <= fuel)%nat -> pc_path (c_pc c) = [] ->
  upto O 17 (bW (sv_viewBox (c_svg c))) -> upto O 17 (bH (sv_viewBox (c_svg c))) -> upto O 16 (fst (offset c)) -> upto O 16 (snd (offset c)) ->
  rounded_at Q (ex_bounds O Q (sv_viewBox (c_svg c))) (value64 (fst (offset c)), value64 (snd (offset c))) attrs x0 y0 x1 y1 r ->
  exists q, draws_as (rectF fuel) attrs c q /\ follows_rim (r / 700 + 3 / 32) x0 y0 x1 y1 r q.
Proof using HF HA.
  intros Hf Hp HW HH HX HY H. remember (value64 (fst (offset c)), value64 (snd (offset c))) as off eqn:Eo.
  destruct H as [attrs x y w h rx ry r Ax Ay Aw Ah Arx Ary Prx Pry Rx Ry Hr]. subst off. cbn [fst snd].
  pose proof (attr_bound _ _ _ _ _ Ax) as Bx. pose proof (attr_bound _ _ _ _ _ Ay) as By. pose proof (attr_bound _ _ _ _ _ Aw) as Bw. pose proof (attr_bound _ _ _ _ _ Ah) as Bh.
  assert (Wx : OfWidth <> OfDiagonal) by discriminate. assert (Wy : OfHeight <> OfDiagonal) by discriminate.
  destruct (attr_sharp O Q _ _ _ _ _ HW HH Wx Ax) as (x' & Lx & Sx), (attr_sharp O Q _ _ _ _ _ HW HH Wy Ay) as (y' & Ly & Sy), (attr_sharp O Q _ _ _ _ _ HW HH Wx Aw) as (w' & Lw & Sw),
    (attr_sharp O Q _ _ _ _ _ HW HH Wy Ah) as (h' & Lh & Sh), (attr_sharp O Q _ _ _ _ _ HW HH Wx Arx) as (rx' & Lrx & Srx), (attr_sharp O Q _ _ _ _ _ HW HH Wy Ary) as (ry' & Lry & Sry).
  clear Ax Ay Aw Ah Arx Ary.
  assert (M : forall own other half, auto_radius own other half = r -> r <= half /\ r <= (if Req_EM_T own 0 then other else own)) by (unfold auto_radius; intros own other half <-; split; [apply Rmin_r|apply Rmin_l]).
  destruct (M _ _ _ Rx) as [Rw Ra], (M _ _ _ Ry) as [Rh Rb]. clear M.
  assert (Nz : forall v t, sharp O Q v t -> r <= t -> feqb E v (f0 E) = false) by (intros v t S Ht; apply (stands_nonzero O Q v t); [apply sharp_stands; [lra|exact S]|rewrite Rabs_pos_eq; lra]).
  assert (Ze : forall v t, sharp O Q v t -> t = 0 -> feqb E v (f0 E) = true) by (intros v t S Ht; apply (stands_zero O Q v t); [apply sharp_stands; [lra|exact S]|exact Ht]).
  set (ra := if Req_EM_T rx 0 then ry else rx) in *. set (rb := if Req_EM_T ry 0 then rx else ry) in *.
  assert (HR : exists rx1 ry1, (if negb (feqb E rx' (f0 E)) && feqb E ry' (f0 E) then rx' else ry') = ry1 /\ (if negb (feqb E ry1 (f0 E)) && feqb E rx' (f0 E) then ry1 else rx') = rx1 /\ sharp O Q rx1 ra /\ sharp O Q ry1 rb).
  { eexists _, _. split; [reflexivity|]. split; [reflexivity|]. unfold ra, rb in *. destruct (Req_EM_T rx 0) as [Ex|Ex].
    - rewrite (Ze rx' rx Srx Ex). cbn [negb andb]. rewrite (Nz ry' ry Sry Ra). cbn [negb andb]. split; [exact Sry|]. destruct (Req_EM_T ry 0) as [Ey|Ey]; [|exact Sry]. exfalso. lra.
    - rewrite (Nz rx' rx Srx Ra). cbn [negb andb]. rewrite Bool.andb_false_r. split; [exact Srx|]. destruct (Req_EM_T ry 0) as [Ey|Ey]; [rewrite (Ze ry' ry Sry Ey); exact Srx|rewrite (Nz ry' ry Sry Rb); exact Sry]. }
  destruct HR as (rx1 & ry1 & E1 & E2 & Srx1 & Sry1).
  assert (D17 : forall v t, sharp O Q v t -> ap 17 (2 ^ 67) v t) by (intros v t [A _]; revert A; apply ap_le; lia).
  unfold auto_radius in Rx, Ry. fold ra in Rx. fold rb in Ry. clearbody ra rb.
  assert (Gw : x + value64 (fst (offset c)) + w - (x + value64 (fst (offset c))) = w) by (clear; ring). assert (Gh : y + value64 (snd (offset c)) + h - (y + value64 (snd (offset c))) = h) by (clear; ring).
  destruct (ProofsCorner5.round_close O HF HA _ _ _ _ rx1 ry1 _ _ _ _ ra rb r (low_ap _ _ _ Sx HX) (low_ap _ _ _ Sy HY) (high_ap _ _ _ _ _ Sx Sw Bx Bw HX) (high_ap _ _ _ _ _ Sy Sh By Bh HY)) with (fuel := fuel) (p := @nil op) as (b1 & b2 & b3 & b4 & q & A1 & A2).
  - rewrite Gw. apply Rabs_le_inv in Bw. clear - Bw Rw Hr. lra.
  - rewrite Gh. apply Rabs_le_inv in Bh. clear - Bh Rh Hr. lra.
  - exact (D17 _ _ Srx1).
  - exact (D17 _ _ Sry1).
  - rewrite Gw. exact Rx.
  - rewrite Gh. exact Ry.
  - exact Hr.
  - exact Hf.
  - exists q. split.
    + exact (rectF_runs fuel attrs x' y' w' h' rx' ry' rx1 ry1 c q Hp Lx Ly Lw Lh Lrx Lry (Nz w' w Sw ltac:(clear - Rw Hr; lra)) (Nz h' h Sh ltac:(clear - Rh Hr; lra)) E1 E2 A1).
    + apply (bows_follow_rim b1 b2 b3 b4); [clear - Hr; lra|rewrite Gw; clear - Rw; lra|rewrite Gh; clear - Rh; lra|exact A2].
Qed.
End Rounded.

(** ** Elements and documents *)
Section Elements.
Context (O : Oracles) (Q : ROracles) (HT : trig0 O) (HQ : reads_exactly Q).
Notation E := (F64 O).
Lemma follows_something e x0 y0 x1 y1 r p : 0 < r -> 2 * r <= x1 - x0 -> 2 * r <= y1 - y0 -> follows_rim e x0 y0 x1 y1 r p -> p <> [].
Proof using.
  intros Hr Hw Hh [_ H] ->. destruct (H (x0, y0 + r)) as (z & Hz & _); [|inversion Hz]. unfold rim, outside. cbn [fst snd].
  rewrite (Rmax_left (x0 + r - x0)) by lra. rewrite (Rmax_right 0) by lra. rewrite (Rmax_left (y0 + r - (y0 + r))) by lra. rewrite Rmax_left by lra. ring.
Qed.
Lemma rounded_sides vb off attrs x0 y0 x1 y1 r : rounded_at Q vb off attrs x0 y0 x1 y1 r -> 0 < r /\ 2 * r <= x1 - x0 /\ 2 * r <= y1 - y0.
Proof using.
  intros H. destruct H as [attrs x y w h rx ry r _ _ _ _ _ _ _ _ Rx Ry Hr]. unfold auto_radius in *. pose proof (Rmin_r (if Req_EM_T rx 0 then ry else rx) (w / 2)). pose proof (Rmin_r (if Req_EM_T ry 0 then rx else ry) (h / 2)). lra.
Qed.
Lemma rounded_element fuel name attrs (c : cursor E) p : (1 <= fuel)%nat -> pc_path (c_pc c) = [] -> rounded O Q (sv_viewBox (c_svg c)) (offset c) name attrs p ->
  name = "rect"%string /\ exists q, draws_as (rectF fuel) attrs c q /\ cornered O Q (sv_viewBox (c_svg c)) (offset c) name attrs q.
Proof using.
  intros Hf Hp ((HW & HH) & (HX & HY) & HF & HA & Hn & Hne & x0 & y0 & x1 & y1 & r & HR). split; [exact Hn|].
  destruct (rounded_draws O Q HF HA fuel attrs c x0 y0 x1 y1 r Hf Hp HW HH HX HY HR) as (q & Hd & Hq). exists q. split; [exact Hd|]. destruct (rounded_sides _ _ _ _ _ _ _ _ HR) as (S1 & S2 & S3). split.
  - split; [split; assumption|]. split; [split; assumption|]. split; [exact HF|]. split; [exact HA|]. split; [exact Hn|]. split; [exact (follows_something _ _ _ _ _ _ _ S1 S2 S3 Hq)|]. exists x0, y0, x1, y1, r. exact HR.
  - intros x0' y0' x1' y1' r' HR'. destruct (rounded_draws O Q HF HA fuel attrs c x0' y0' x1' y1' r' Hf Hp HW HH HX HY HR') as (q' & (pc' & D1 & D2 & _) & Hq').
    destruct Hd as (pc & C1 & C2 & _). rewrite C1 in D1. assert (D3 : c_pc (c_set_pc pc c) = c_pc (c_set_pc pc' c)) by congruence. cbn in D3. subst pc'. rewrite <- C2, D2. exact Hq'.
Qed.
Theorem cornered_element fuel attrs (c : cursor E) p : (1 <= fuel)%nat -> pc_path (c_pc c) = [] -> rounded O Q (sv_viewBox (c_svg c)) (offset c) "rect" attrs p ->
  exists q, element_draws fuel "rect" attrs c q /\ cornered O Q (sv_viewBox (c_svg c)) (offset c) "rect" attrs q.
Proof using.
  intros Hf Hp H. destruct (rounded_element fuel "rect" attrs c p Hf Hp H) as (_ & q & (pc' & D1 & D2 & _) & Hq). exists q. split; [|exact Hq]. exists (rectF fuel), (c_set_pc pc' c). auto.
Qed.
Theorem cornered_faithful md : faithful md 1 (cornered_or_near O Q).
Proof using HT HQ.
  intros fuel vb off name attrs p0 c Hf [H|[H _]].
  - destruct (nearly_faithful O Q HT HQ md fuel vb off name attrs p0 c (Nat.le_0_l _) H) as [Hn K]. split; [exact Hn|]. intros H1 H2 H3 H4. destruct (K H1 H2 H3 H4) as (df & pc' & K1 & K2 & K3 & K4 & K5 & K6).
    exists df, pc'. split; [exact K1|]. split; [exact K2|]. split; [exact K3|]. split; [exact K4|]. split; [left; exact K5|exact K6].
  - split; [destruct H as (_ & _ & _ & _ & -> & _); cbn; auto 9|]. intros HM H1 H2 H3. subst vb off. destruct (rounded_element fuel name attrs c p0 Hf H3 H) as (-> & q & (pc' & D1 & D2 & (D3 & D4 & D5) & _) & Hq).
    exists (rectF fuel), pc'. split; [reflexivity|]. split; [exact D1|]. split; [unfold offset; congruence|]. split; [congruence|]. rewrite D2. split; [right; exact Hq|].
    destruct H as (_ & _ & _ & _ & _ & N0 & _). destruct Hq as [(_ & _ & _ & _ & _ & N1 & _) _]. tauto.
Qed.
Lemma rounded_cornered vb off name attrs p : rounded O Q vb off name attrs p -> exists q, cornered O Q vb off name attrs q /\ (p = [] <-> q = []).
Proof using.
  intros H. set (c := start_at E IgnoreErrorMode vb off). assert (Hc : sv_viewBox (c_svg c) = vb /\ offset c = off /\ pc_path (c_pc c) = []) by (destruct off; now repeat split).
  destruct Hc as (C1 & C2 & C3). clearbody c. pose proof H as H'. rewrite <- C1, <- C2 in H'. destruct (rounded_element 1 name attrs c p (le_n _) C3 H') as (_ & q & _ & Hq). rewrite C1, C2 in Hq. exists q. split; [exact Hq|].
  destruct H as (_ & _ & _ & _ & _ & N0 & _). destruct Hq as [(_ & _ & _ & _ & _ & N1 & _) _]. tauto.
Qed.
Theorem cornered_document (Hnames : name_table E) fuel mode lenient dep ns vb w : (1 + dep <= fuel)%nat ->
  document E (rounded_or_meant O Q) lenient dep ns vb w -> (lenient = true -> mode <> StrictErrorMode) ->
  exists s log, parse (S fuel) mode (flat_map tokens ns) TermEOF = PSvg s None log /\ shows E (cornered_or_near O Q) vb w s
    /\ sv_width s = text_attr "width" "" (root_attrs ns) /\ sv_height s = text_attr "height" "" (root_attrs ns).
Proof using HT HQ.
  intros Hf (pre & attrs & kids & post & st & t & u & H1 & H2 & H3 & H4 & H5 & H6) Hl.
  apply (document_parses_any (cornered_or_near O Q) mode 1 (cornered_faithful mode) Hnames fuel lenient dep ns vb w Hf); [|exact Hl].
  exists pre, attrs, kids, post, st, t, u. repeat (split; [assumption|]). revert H6. apply sem_mono. intros off name as_ p [H|H].
  - destruct (meant_nearly O Q HT HQ vb off name as_ p H) as (q & Hq & E1). exists q. split; [left; exact Hq|exact E1].
  - destruct (rounded_cornered vb off name as_ p H) as (q & Hq & E1). exists q. split; [right; exact Hq|exact E1].
Qed.
End Elements.

(** * ProofsPlane: the points of a figure on the page (C67) *)
From Coq Require Import ZArith Lia Reals Lra Psatz.
From Flocq Require Import Core.Core.
From Verif Require Import F64 RealEnv SpecArc SpecClose SpecMeasure SpecPlane SpecLift ProofsLong ProofsTurn ProofsTurn2 ProofsMeasure ProofsCircle ProofsCurve ProofsCircle2 ProofsPage ProofsOval ProofsClose ProofsFlocq.
Local Open Scope R_scope.
Local Notation pow := (bpow radix2).

Lemma bez2_near s e a b c a' b' c' : 0 <= s <= 1 -> Rabs (a - a') <= e -> Rabs (b - b') <= e -> Rabs (c - c') <= e -> Rabs (bezier2 s a b c - bezier2 s a' b' c') <= e.
Proof.
  intros Hs Ha Hb Hc. replace (bezier2 s a b c - bezier2 s a' b' c') with (bezier2 s (a - a') (b - b') (c - c')) by (unfold bezier2; ring). unfold bezier2.
  set (w0 := (1 - s) ^ 2). set (w1 := 2 * s * (1 - s)). set (w2 := s ^ 2). assert (W0 : 0 <= w0) by (unfold w0; nra). assert (W1 : 0 <= w1) by (unfold w1; nra). assert (W2 : 0 <= w2) by (unfold w2; nra).
  assert (W : w0 + w1 + w2 = 1) by (unfold w0, w1, w2; ring). clearbody w0 w1 w2. apply Rabs_le_inv in Ha, Hb, Hc. apply Rabs_le. nra.
Qed.

(** ** Outlines whose points are near those of another one *)
Section Follow.
Context (la lb lc ld le lf ex ey : R).
Notation to := (moved la lb lc ld le lf).
Notation near a b := (beside ex ey a (to b)).
Inductive bow_follows : bow -> bow -> Prop :=
| bf_hop a b : near a b -> bow_follows (Hop a) (Hop b)
| bf_straight a b : near a b -> bow_follows (Straight a) (Straight b)
| bf_bend2 a b a' b' : near a a' -> near b b' -> bow_follows (Bend2 a b) (Bend2 a' b')
| bf_bend3 a b c a' b' c' : near a a' -> near b b' -> near c c' -> bow_follows (Bend3 a b c) (Bend3 a' b' c')
| bf_back : bow_follows Back Back.
Lemma near1 s a b a' b' : 0 <= s <= 1 -> near a a' -> near b b' ->
  near (bezier1 s (fst a) (fst b), bezier1 s (snd a) (snd b)) (bezier1 s (fst a') (fst b'), bezier1 s (snd a') (snd b')).
Proof using.
  intros Hs [A1 A2] [B1 B2]. unfold moved in *. cbn [fst snd] in *.
  assert (K : forall p q r x0 x1 y0 y1, p * bezier1 s x0 x1 + q * bezier1 s y0 y1 + r = bezier1 s (p * x0 + q * y0 + r) (p * x1 + q * y1 + r)) by (intros; unfold bezier1; ring).
  split; cbn [fst snd]; rewrite K; apply bez1_near; assumption.
Qed.
Lemma near2 s a b c a' b' c' : 0 <= s <= 1 -> near a a' -> near b b' -> near c c' ->
  near (bezier2 s (fst a) (fst b) (fst c), bezier2 s (snd a) (snd b) (snd c)) (bezier2 s (fst a') (fst b') (fst c'), bezier2 s (snd a') (snd b') (snd c')).
Proof using.
  intros Hs [A1 A2] [B1 B2] [C1 C2]. unfold moved in *. cbn [fst snd] in *.
  assert (K : forall p q r x0 x1 x2 y0 y1 y2, p * bezier2 s x0 x1 x2 + q * bezier2 s y0 y1 y2 + r = bezier2 s (p * x0 + q * y0 + r) (p * x1 + q * y1 + r) (p * x2 + q * y2 + r)) by (intros; unfold bezier2; ring).
  split; cbn [fst snd]; rewrite K; apply bez2_near; assumption.
Qed.
Lemma near3 s a b c d a' b' c' d' : 0 <= s <= 1 -> near a a' -> near b b' -> near c c' -> near d d' ->
  near (bezier3 s (fst a) (fst b) (fst c) (fst d), bezier3 s (snd a) (snd b) (snd c) (snd d)) (bezier3 s (fst a') (fst b') (fst c') (fst d'), bezier3 s (snd a') (snd b') (snd c') (snd d')).
Proof using.
  intros Hs [A1 A2] [B1 B2] [C1 C2] [D1 D2]. unfold moved in *. cbn [fst snd] in *.
  assert (K : forall p q r x0 x1 x2 x3 y0 y1 y2 y3, p * bezier3 s x0 x1 x2 x3 + q * bezier3 s y0 y1 y2 y3 + r = bezier3 s (p * x0 + q * y0 + r) (p * x1 + q * y1 + r) (p * x2 + q * y2 + r) (p * x3 + q * y3 + r)) by (intros; unfold bezier3; ring).
  split; cbn [fst snd]; rewrite K; apply bez3_near; assumption.
Qed.
Lemma follow_on q l : Forall2 bow_follows q l -> forall f a f' a' z, near f f' -> near a a' -> runs_through f a q z -> exists z', runs_through f' a' l z' /\ near z z'.
Proof using.
  induction 1 as [|o o' q l Ho H IH]; intros f a f' a' z Hf Ha Hz; [inversion Hz|]. destruct Ho; inversion Hz; subst.
  - match goal with K : runs_through _ _ q z |- _ => destruct (IH _ _ b b z H0 H0 K) as (z' & R & N) end. exists z'. split; [now constructor|exact N].
  - eexists. split; [apply rt_line; eassumption|]. now apply near1.
  - match goal with K : runs_through _ _ q z |- _ => destruct (IH _ _ f' b z Hf H0 K) as (z' & R & N) end. exists z'. split; [now constructor|exact N].
  - eexists. split; [apply rt_quad; eassumption|]. now apply near2.
  - match goal with K : runs_through _ _ q z |- _ => destruct (IH _ _ f' b' z Hf H1 K) as (z' & R & N) end. exists z'. split; [now constructor|exact N].
  - eexists. split; [apply rt_cubic; eassumption|]. now apply near3.
  - match goal with K : runs_through _ _ q z |- _ => destruct (IH _ _ f' c' z Hf H2 K) as (z' & R & N) end. exists z'. split; [now constructor|exact N].
  - eexists. split; [apply rt_close; eassumption|]. now apply near1.
  - match goal with K : runs_through _ _ q z |- _ => destruct (IH _ _ f' f' z Hf Hf K) as (z' & R & N) end. exists z'. split; [now constructor|exact N].
Qed.
Lemma follow_all q l : Forall2 bow_follows q l -> forall f a f' a' z', near f f' -> near a a' -> runs_through f' a' l z' -> exists z, runs_through f a q z /\ near z z'.
Proof using.
  induction 1 as [|o o' q l Ho H IH]; intros f a f' a' z Hf Ha Hz; [inversion Hz|]. destruct Ho; inversion Hz; subst.
  - match goal with K : runs_through _ _ l z |- _ => destruct (IH a0 a0 _ _ z H0 H0 K) as (z' & R & N) end. exists z'. split; [now constructor|exact N].
  - eexists. split; [apply rt_line; eassumption|]. now apply near1.
  - match goal with K : runs_through _ _ l z |- _ => destruct (IH f a0 _ _ z Hf H0 K) as (z' & R & N) end. exists z'. split; [now constructor|exact N].
  - eexists. split; [apply rt_quad; eassumption|]. now apply near2.
  - match goal with K : runs_through _ _ l z |- _ => destruct (IH f b _ _ z Hf H1 K) as (z' & R & N) end. exists z'. split; [now constructor|exact N].
  - eexists. split; [apply rt_cubic; eassumption|]. now apply near3.
  - match goal with K : runs_through _ _ l z |- _ => destruct (IH f c _ _ z Hf H2 K) as (z' & R & N) end. exists z'. split; [now constructor|exact N].
  - eexists. split; [apply rt_close; eassumption|]. now apply near1.
  - match goal with K : runs_through _ _ l z |- _ => destruct (IH f f _ _ z Hf Hf K) as (z' & R & N) end. exists z'. split; [now constructor|exact N].
Qed.
Definition hops (l : list bow) : Prop := l = [] \/ exists a r, l = Hop a :: r.
Lemma follow_covers q l : hops l -> Forall2 bow_follows q l -> covers ex ey to [Strokes l] q.
Proof using.
  intros [->|(a & r & ->)] H.
  - inversion H; subst. split; [intros z Hz; inversion Hz|]. intros c z' [<-|[]] Hz. cbn in Hz. inversion Hz.
  - inversion H as [|o o' q' l' Ho Hr E1 E2]. subst. inversion Ho as [b b' Hn E1 E2| | | |]. subst. split.
    + intros z Hz. inversion Hz as [| | | |f1 a1 b1 r1 z1 K| | | |]; subst. destruct (follow_on q' r Hr b b a a z Hn Hn K) as (z' & R & N).
      exists (Strokes (Hop a :: r)), z'. split; [now left|]. split; [cbn; now constructor|exact N].
    + intros c z' [<-|[]] Hz. cbn in Hz. inversion Hz as [| | | |f1 a1 b1 r1 z1 K| | | |]; subst. destruct (follow_all q' r Hr b b a a z' Hn Hn K) as (z & R & N).
      exists z. split; [now constructor|exact N].
Qed.
End Follow.

(** ** One outline after the other *)
Lemma runs_start f a f' a' l z : hops l -> runs_through f a l z -> runs_through f' a' l z.
Proof. intros [->|(b & r & ->)] H; [inversion H|]. inversion H; subst. now constructor. Qed.
Lemma runs_app l2 : hops l2 -> forall l1 f a z, runs_through f a (l1 ++ l2) z <-> runs_through f a l1 z \/ runs_through (0, 0) (0, 0) l2 z.
Proof.
  intros Hh. induction l1 as [|o l1 IH]; intros f a z; cbn [app].
  - split; [intros H; right; now apply (runs_start f a)|]. intros [H|H]; [inversion H|now apply (runs_start (0, 0) (0, 0))].
  - split.
    + intros H. inversion H; subst; try (left; now constructor);
      match goal with K : runs_through _ _ (l1 ++ l2) z |- _ => apply IH in K as [K|K]; [left; now constructor|right; exact K] end.
    + intros [H|H].
      * inversion H; subst; constructor; try assumption; apply IH; now left.
      * destruct o; constructor; apply IH; now right.
Qed.
Lemma covers_app ex ey to cs1 cs2 l1 l2 : hops l2 -> covers ex ey to cs1 l1 -> covers ex ey to cs2 l2 -> covers ex ey to (cs1 ++ cs2) (l1 ++ l2).
Proof.
  intros Hh [A1 B1] [A2 B2]. split.
  - intros z Hz. apply runs_app in Hz as [Hz|Hz]; [|destruct (A2 z Hz) as (c & z' & Hc & K)|exact Hh]; [destruct (A1 z Hz) as (c & z' & Hc & K)|]; exists c, z'; (split; [apply in_or_app; tauto|exact K]).
  - intros c z' Hc Hz. apply in_app_or in Hc as [Hc|Hc]; [destruct (B1 c z' Hc Hz) as (z & R & N)|destruct (B2 c z' Hc Hz) as (z & R & N)]; exists z; (split; [apply runs_app; tauto|exact N]).
Qed.
Lemma covers_nil ex ey to : covers ex ey to [] [].
Proof. split; [intros z Hz; inversion Hz|intros c z' []]. Qed.
Lemma covers_ellipse ex ey to cx cy rx ry l : runs_along ex ey (fun u => to (ellipse_pt cx cy rx ry u)) l -> covers ex ey to [Ellipse cx cy rx ry] l.
Proof.
  intros [H1 H2]. split.
  - intros z Hz. destruct (H1 z Hz) as (t & Ht). exists (Ellipse cx cy rx ry), (ellipse_pt cx cy rx ry t). split; [now left|]. split; [exists t; reflexivity|exact Ht].
  - intros c z' [<-|[]] (t & ->). destruct (H2 t) as (z & R & N). exists z. split; assumption.
Qed.
Lemma covers_beside ex ey dx dy to to' cs l : (forall c z, List.In c cs -> points_of c z -> beside dx dy (to z) (to' z)) -> covers ex ey to cs l -> covers (ex + dx) (ey + dy) to' cs l.
Proof.
  intros Hc [H1 H2]. assert (K : forall z w w', beside ex ey z w -> beside dx dy w w' -> beside (ex + dx) (ey + dy) z w').
  { intros z w w' [A B] [C D]. split.
    - replace (fst z - fst w') with ((fst z - fst w) + (fst w - fst w')) by ring. eapply Rle_trans; [apply Rabs_triang|lra].
    - replace (snd z - snd w') with ((snd z - snd w) + (snd w - snd w')) by ring. eapply Rle_trans; [apply Rabs_triang|lra]. }
  split.
  - intros z Hz. destruct (H1 z Hz) as (c & z' & Hi & Hp & Hb). exists c, z'. split; [exact Hi|]. split; [exact Hp|]. eapply K; [exact Hb|]. now apply (Hc c).
  - intros c z' Hi Hp. destruct (H2 c z' Hi Hp) as (z & R & N). exists z. split; [exact R|]. eapply K; [exact N|]. now apply (Hc c).
Qed.
Lemma covers_wider ex ey ex' ey' to to' cs l : ex <= ex' -> ey <= ey' -> (forall z, to z = to' z) -> covers ex ey to cs l -> covers ex' ey' to' cs l.
Proof.
  intros Hx Hy Ht [H1 H2]. split.
  - intros z Hz. destruct (H1 z Hz) as (c & z' & Hi & Hp & [A B]). exists c, z'. rewrite <- Ht. split; [exact Hi|]. split; [exact Hp|]. split; lra.
  - intros c z' Hi Hp. destruct (H2 c z' Hi Hp) as (z & R & [A B]). exists z. rewrite <- Ht. split; [exact R|]. split; lra.
Qed.

(** ** The grid *)
Notation on_64 b a := (beside (/ 64) (/ 64) (user b) a).
Inductive gridded : op -> bow -> Prop :=
| gr_move a b : on_64 b a -> gridded (OpMoveTo b) (Hop a)
| gr_line a b : on_64 b a -> gridded (OpLineTo b) (Straight a)
| gr_quad a b a' b' : on_64 a a' -> on_64 b b' -> gridded (OpQuadTo a b) (Bend2 a' b')
| gr_cubic a b c a' b' c' : on_64 a a' -> on_64 b b' -> on_64 c c' -> gridded (OpCubicTo a b c) (Bend3 a' b' c')
| gr_close : gridded OpClose Back.
Lemma trunc_64 r : Rabs (IZR (Ztrunc (64 * r)) / 64 - r) <= / 64.
Proof.
  assert (Ht : Rabs (IZR (Ztrunc (64 * r)) - 64 * r) <= 1).
  { destruct (Rle_or_lt 0 (64 * r)) as [P|P].
    - rewrite Ztrunc_floor by exact P. pose proof (Zfloor_lb (64 * r)). pose proof (Zfloor_ub (64 * r)). apply Rabs_le. lra.
    - rewrite Ztrunc_ceil by lra. pose proof (Zceil_ub (64 * r)). pose proof (Zceil_lb (64 * r)). apply Rabs_le. lra. }
  apply Rabs_le_inv in Ht. apply Rabs_le. lra.
Qed.
Lemma on_grid_64 off p : on_64 (on_grid off p) (shifted off p).
Proof. split; unfold on_grid, shifted, user; cbn [fst snd]; apply trunc_64. Qed.

Section Path.
Context (Q : ROracles) (off : R * R) (B1 : Rabs (fst off) <= 2 ^ 17) (B2 : Rabs (snd off) <= 2 ^ 17).
Notation X := (RealEnv Q).
Lemma dot_64 (p : R * R) : Rabs (fst p) <= 2 ^ 17 -> Rabs (snd p) <= 2 ^ 17 -> on_64 (dot X off p) (shifted off p).
Proof using B1 B2.
  intros H1 H2. unfold dot, shifted, user. cbn [fst snd f_to_i32 fadd fmul RealEnv]. rewrite !fnum_real.
  assert (K : forall a b, Rabs a <= 2 ^ 17 -> Rabs b <= 2 ^ 17 -> Rabs (a + b) <= pow 24) by (intros a b Ha Hb; pose proof (Rabs_triang a b); change (pow 24) with 16777216; lra).
  split; cbn [fst snd]; apply grid1; apply K; assumption.
Qed.
Lemma long_gridded cs : forallb (long_cmd X) cs = true -> (forall c v, List.In c cs -> List.In v (args X c) -> Rabs v <= 2 ^ 17) ->
  forall s, Forall2 gridded (snd (run X off s cs)) (map (bow_cmd Q off) cs).
Proof using B1 B2.
  induction cs as [|c cs IH]; intros Hl Hb s; [constructor|]. cbn [forallb] in Hl. apply Bool.andb_true_iff in Hl as [Hc Hl]. assert (Hb' : forall c v, List.In c cs -> List.In v (args X c) -> Rabs v <= 2 ^ 17) by (intros c' v Hi; apply Hb; now right).
  pose proof (fun v => Hb c v (or_introl eq_refl)) as Hv. unfold run in *. cbn [many map].
  assert (K : forall s1 o, exec X off s c = (s1, [o]) -> gridded o (bow_cmd Q off c) -> Forall2 gridded (snd (let (s1, o1) := exec X off s c in let (s2, o2) := many X (exec X off) s1 cs in (s2, o1 ++ o2))) (bow_cmd Q off c :: map (bow_cmd Q off) cs)).
  { intros s1 o E Hg. rewrite E. specialize (IH Hl Hb' s1). destruct (many X (exec X off) s1 cs) as [s2 o2]. cbn [snd app] in *. constructor; assumption. }
  destruct c as [rel p ps|rel p ps|rel p ps|rel p ps|rel p ps|rel p ps|rel p ps|rel p ps|]; cbn [long_cmd] in Hc; try (destruct rel; [discriminate|]); try (destruct ps; [|discriminate]); try discriminate.
  - eapply K; [reflexivity|]. cbn [bow_cmd absolute]. constructor. apply dot_64; apply Hv; cbn; auto.
  - eapply K; [reflexivity|]. cbn [bow_cmd absolute]. constructor. apply dot_64; apply Hv; cbn; auto.
  - eapply K; [reflexivity|]. cbn [bow_cmd absolute]. constructor; apply dot_64; apply Hv; cbn; auto.
  - destruct p as [[p1 p2] p3]. eapply K; [reflexivity|]. cbn [bow_cmd absolute fst snd]. constructor; apply dot_64; apply Hv; cbn; auto 10.
  - eapply K; [reflexivity|]. cbn [bow_cmd]. constructor.
Qed.
Lemma path_gridded cs : coords_upto Q (2 ^ 17) cs -> Forall2 gridded (draws X off cs) (map (bow_cmd Q off) (longhand X (pen0 X) cs)).
Proof using B1 B2.
  intros H. unfold draws. rewrite <- (longhand_same (E := X) off cs (pen0 X)). apply long_gridded; [apply longhand_long|exact H].
Qed.
Lemma path_hops rel p ps (cs : list (cmd X)) : hops (map (bow_cmd Q off) (longhand X (pen0 X) (MoveTo rel p ps :: cs))).
Proof using. right. cbn [longhand longhand_of app map bow_cmd]. do 2 eexists. reflexivity. Qed.
End Path.

(** ** Figures *)
Definition piece_fits (c : course) (q : path) : Prop :=
  match c with
  | Strokes l => hops l /\ Forall2 gridded q l
  | Ellipse cx cy rx ry => q = whole_ellipse cx cy rx ry /\ Rabs cx <= pow 18 /\ Rabs cy <= pow 18 /\ 0 <= rx <= pow 16 /\ 0 <= ry <= pow 16
  end.
Inductive plan_fits : list course -> path -> Prop :=
| pf_nil : plan_fits [] []
| pf_snoc cs p c q : plan_fits cs p -> piece_fits c q -> plan_fits (cs ++ [c]) (p ++ q).
Lemma line_gridded off (ps : list (R * R)) : Forall2 gridded (map (fun q => OpLineTo (on_grid off q)) ps) (map (fun q => Straight (shifted off q)) ps).
Proof. induction ps as [|p ps IH]; constructor; [constructor; apply on_grid_64|exact IH]. Qed.
Lemma hops_cons a r : hops (Hop a :: r).
Proof. right. do 2 eexists. reflexivity. Qed.
Section Figures.
Context (O : Oracles) (Q : ROracles) (HF : fair_trig O) (HQ : reads_exactly Q).
Notation E := (F64 O).
Notation X := (RealEnv Q).
Context (vb : bounds E) (x y w h : F E).
Lemma shape_fits off name attrs c : (upto O 17 (bW vb) /\ upto O 17 (bH vb)) /\ (upto O 17 (fst off) /\ upto O 17 (snd off)) ->
  plan_of Q (ex_bounds O Q vb) (value64 (fst off), value64 (snd off)) name attrs c -> exists q, meant O Q vb off name attrs q /\ piece_fits c q.
Proof using HF.
  intros [HB [U1 U2]] H. set (o := (value64 (fst off), value64 (snd off))) in *.
  assert (B1 : Rabs (fst o) <= 2 ^ 17) by exact (proj2 U1). assert (B2 : Rabs (snd o) <= 2 ^ 17) by exact (proj2 U2).
  assert (L : forall q, exact_shape Q (ex_bounds O Q vb) o name attrs q -> meant O Q vb off name attrs q) by (intros q Hq; split; [exact HB|]; split; [exact (conj U1 U2)|]; now left).
  assert (M : forall q, exact_round Q (ex_bounds O Q vb) o name attrs q -> meant O Q vb off name attrs q) by (intros q Hq; split; [exact HB|]; split; [exact (conj U1 U2)|]; right; split; assumption).
  destruct H.
  - eexists. split; [apply L; eapply xs_line; eassumption|]. split; [apply hops_cons|]. do 2 (constructor; [constructor; apply on_grid_64|]). constructor.
  - eexists. split; [apply L; eapply xs_polyline; eassumption|]. split; [apply hops_cons|]. constructor; [constructor; apply on_grid_64|]. apply line_gridded.
  - eexists. split; [apply L; eapply xs_polygon; eassumption|]. split; [apply hops_cons|]. constructor; [constructor; apply on_grid_64|]. apply Forall2_app; [apply line_gridded|]. repeat constructor.
  - eexists. split; [apply L; eapply xs_path; eassumption|]. split; [apply path_hops|]. apply path_gridded; assumption.
  - eexists. split; [apply L; eapply xs_no_path; eassumption|]. split; [now left|constructor].
  - eexists. split; [apply L; eapply xs_rect; eassumption|]. split; [apply hops_cons|]. do 4 (constructor; [constructor; apply on_grid_64|]). repeat constructor.
  - eexists. split; [apply L; eapply xs_rect_flat; eassumption|]. split; [now left|constructor].
  - eexists. split; [apply M; eapply xr_whole; eassumption|]. split; [reflexivity|]. eapply round_bounds; eassumption.
  - eexists. split; [apply M; eapply xr_flat; eassumption|]. split; [now left|constructor].
Qed.
Lemma plan_outline cs shapes cs' : plans O Q vb cs shapes cs' -> forall p, plan_fits cs p -> exists p', outlines E (meant O Q) vb p shapes p' /\ plan_fits cs' p'.
Proof using HF.
  induction 1 as [cs|cs off name attrs c r cs' HB Hc H IH]; intros p Hp; [exists p; split; [constructor|exact Hp]|].
  destruct (shape_fits off name attrs c HB Hc) as (q & Hq & Hf). destruct (IH (joined name attrs p q)) as (p' & H1 & H2).
  - unfold joined. destruct (String.eqb name "path" && has_attr "d" attrs); [exact (pf_snoc [] [] c q pf_nil Hf)|now apply pf_snoc].
  - exists p'. split; [econstructor; eassumption|exact H2].
Qed.
(** the tolerance of C62 and the grid *)
Section Map.
Context (t : matrix E).
Notation sx := (scale_x O vb w). Notation sy := (scale_y O vb h).
Notation ox := (value64 x - value64 (bX vb)). Notation oy := (value64 y - value64 (bY vb)).
Notation A := (value64 (mA t)). Notation B := (value64 (mB t)). Notation C := (value64 (mC t)). Notation D := (value64 (mD t)).
Notation me := (A * ox * sx + C * oy * sy + value64 (mE t) * sx). Notation mf := (B * ox * sx + D * oy * sy + value64 (mF t) * sy).
Notation mv := (moved (A * sx) (B * sx) (C * sy) (D * sy) me mf).
Notation tx := (tol_x O vb w h t). Notation ty := (tol_y O vb w h t).
Lemma moved_64 b a : on_64 b a -> beside ((tx - 2) / 64) ((ty - 2) / 64) (dest O vb x y w h t (user b)) (mv a).
Proof using.
  intros [G1 G2]. rewrite dest_moved, tol_kx, tol_ky. unfold moved, kx, ky. set (u := user b) in *. clearbody u.
  assert (K : forall k l m, Rabs (k * fst u + l * snd u + m - (k * fst a + l * snd a + m)) <= (Rabs k + Rabs l + 2 - 2) / 64).
  { intros k l m. replace (k * fst u + l * snd u + m - (k * fst a + l * snd a + m)) with (k * (fst u - fst a) + l * (snd u - snd a)) by ring. eapply Rle_trans; [apply Rabs_triang|]. rewrite !Rabs_mult.
    assert (Rabs k * Rabs (fst u - fst a) <= Rabs k * / 64) by (apply Rmult_le_compat_l; [apply Rabs_pos|exact G1]). assert (Rabs l * Rabs (snd u - snd a) <= Rabs l * / 64) by (apply Rmult_le_compat_l; [apply Rabs_pos|exact G2]). lra. }
  split; cbn [fst snd]; apply K.
Qed.
Lemma tol_pos : 2 <= tx /\ 2 <= ty.
Proof using. unfold tol_x, tol_y. split; match goal with |- 2 <= Rabs ?a + Rabs ?b + 2 => pose proof (Rabs_pos a); pose proof (Rabs_pos b); lra end. Qed.
Notation near z a := (beside (tx / 16) (ty / 16) z (mv a)).
Lemma pt_near z b a : pt_lands O vb x y w h t z b -> on_64 b a -> near (user z) a.
Proof using.
  intros [H1 H2] G. destruct (moved_64 b a G) as [G1 G2]. destruct tol_pos as [P1 P2]. unfold on_page in H1, H2. change (IZR (fst b) / 64, IZR (snd b) / 64) with (user b) in *.
  set (m := dest O vb x y w h t (user b)) in *. set (n := mv a) in *. clearbody m n. apply Rabs_le_inv in H1, H2, G1, G2. split; unfold user; cbn [fst snd]; apply Rabs_le; lra.
Qed.
Lemma px_near z b a : px_lands O vb x y w h t z b -> on_64 b a -> near (pixel O z) a.
Proof using.
  intros [[_ H1] [_ H2]] G. destruct (moved_64 b a G) as [G1 G2]. destruct tol_pos as [P1 P2]. unfold on_page in H1, H2. change (IZR (fst b) / 64, IZR (snd b) / 64) with (user b) in *.
  set (m := dest O vb x y w h t (user b)) in *. set (n := mv a) in *. clearbody m n. apply Rabs_le_inv in H1, H2, G1, G2. split; unfold pixel; cbn [fst snd]; apply Rabs_le; lra.
Qed.
Notation follows := (bow_follows (A * sx) (B * sx) (C * sy) (D * sy) me mf (tx / 16) (ty / 16)).
Lemma op_follows q p l : Forall2 (op_lands O vb x y w h t) q p -> Forall2 gridded p l -> Forall2 follows (map bow_of q) l.
Proof using.
  intros H. revert l. induction H as [|a b q p Hab H IH]; intros l G; inversion G as [|b' c p' l' Gb Gr]; subst; constructor; [|now apply IH].
  destruct Hab; inversion Gb; subst; cbn [bow_of]; constructor; eapply pt_near; eassumption.
Qed.
Lemma pen_follows q p l : Forall2 (pen_lands O vb x y w h t) q p -> Forall2 gridded p l -> Forall2 follows (map (pen_bow O) q) l.
Proof using.
  intros H. revert l. induction H as [|a b q p Hab H IH]; intros l G; inversion G as [|b' c p' l' Gb Gr]; subst; constructor; [|now apply IH].
  destruct Hab; inversion Gb; subst; cbn [pen_bow]; constructor; eapply px_near; eassumption.
Qed.
Lemma follows_hops q l : Forall2 follows q l -> hops l -> hops q.
Proof using. intros H [->|(a & r & ->)]; inversion H as [|o o' q' l' Ho Hr]; subst; [now left|]. inversion Ho; subst. apply hops_cons. Qed.
Lemma piece_covers c q p : piece_fits c p -> Forall2 (op_lands O vb x y w h t) q p -> hops (map bow_of q) /\ covers (tx / 16) (ty / 16) (dest O vb x y w h t) [c] (map bow_of q).
Proof using.
  destruct c as [l|cx cy rx ry]; cbn [piece_fits].
  - intros [Hh G] H. pose proof (op_follows q p l H G) as F. split; [exact (follows_hops _ _ F Hh)|].
    apply (covers_wider (tx / 16) (ty / 16) _ _ mv); [lra|lra|intros z; symmetry; apply dest_moved|]. now apply follow_covers.
  - intros (-> & B1 & B2 & B3 & B4) H. split; [|apply covers_ellipse, ops_page; assumption]. inversion H as [|o o' q' l' Ho Hr]; subst. inversion Ho; subst. cbn [map bow_of]. apply hops_cons.
Qed.
Lemma ops_cover cs p : plan_fits cs p -> forall q, Forall2 (op_lands O vb x y w h t) q p -> covers (tx / 16) (ty / 16) (dest O vb x y w h t) cs (map bow_of q).
Proof using.
  induction 1 as [|cs p c q Hp IH Hc]; intros k H; [inversion H; apply covers_nil|]. apply Forall2_app_inv_r in H as (k1 & k2 & H1 & H2 & ->). rewrite map_app.
  destruct (piece_covers c k2 q Hc H2) as [K1 K2]. apply covers_app; [exact K1|now apply IH|exact K2].
Qed.
Lemma unclosed_gridded p l : Forall2 gridded p l -> Forall2 gridded (filter drawing_op p) (filter (fun b => negb (is_back b)) l).
Proof using. induction 1 as [|a b p l Hab H IH]; [constructor|]. destruct Hab; cbn [filter drawing_op is_back negb]; try constructor; try assumption; constructor; assumption. Qed.
Lemma unclosed_hops l : hops l -> hops (filter (fun b => negb (is_back b)) l).
Proof using. intros [->|(a & r & ->)]; [now left|apply hops_cons]. Qed.
Lemma piece_pens c q p : piece_fits c p -> Forall2 (pen_lands O vb x y w h t) q (filter drawing_op p) ->
  hops (map (pen_bow O) q) /\ covers (tx / 16) (ty / 16) (dest O vb x y w h t) [unclosed c] (map (pen_bow O) q).
Proof using.
  destruct c as [l|cx cy rx ry]; cbn [piece_fits unclosed].
  - intros [Hh G] H. pose proof (pen_follows q _ _ H (unclosed_gridded _ _ G)) as F. apply unclosed_hops in Hh. split; [exact (follows_hops _ _ F Hh)|].
    apply (covers_wider (tx / 16) (ty / 16) _ _ mv); [lra|lra|intros z; symmetry; apply dest_moved|]. now apply follow_covers.
  - intros (-> & B1 & B2 & B3 & B4) H. split; [|apply covers_ellipse, pens_page; assumption]. unfold whole_ellipse in H. cbn [filter drawing_op] in H. inversion H as [|o o' q' l' Ho Hr]; subst. inversion Ho; subst. cbn [map pen_bow]. apply hops_cons.
Qed.
Lemma pens_cover cs p : plan_fits cs p -> forall q, Forall2 (pen_lands O vb x y w h t) q (filter drawing_op p) -> covers (tx / 16) (ty / 16) (dest O vb x y w h t) (map unclosed cs) (map (pen_bow O) q).
Proof using.
  induction 1 as [|cs p c q Hp IH Hc]; intros k H; [inversion H; apply covers_nil|]. rewrite filter_app in H. apply Forall2_app_inv_r in H as (k1 & k2 & H1 & H2 & ->). rewrite !map_app. cbn [map].
  destruct (piece_pens c k2 q Hc H2) as [K1 K2]. apply covers_app; [exact K1|now apply IH|exact K2].
Qed.
End Map.
Lemma figure_plan f cs : plan O Q vb f cs -> exists p, exact_outline O Q vb f p /\ plan_fits cs p.
Proof using HF. intros H. exact (plan_outline [] (fg_shapes E f) cs H [] pf_nil). Qed.
Lemma rx_figure_covers f l : rx_figure O Q vb x y w h f l -> rx_covers O Q vb x y w h f l.
Proof using HF.
  intros (q & Hq & Hl). exists q. split; [exact Hl|]. intros cs Hc. destruct (figure_plan f cs Hc) as (p & Hp & Hf). apply (ops_cover _ cs p Hf), Hq, Hp.
Qed.
Lemma pen_figure_covers f l : pen_figure O Q vb x y w h (turned O f) f l -> pen_covers O Q vb x y w h f l.
Proof using HF.
  intros Hq cs Hc. destruct (figure_plan f cs Hc) as (p & Hp & Hf). apply (pens_cover _ cs p Hf), Hq, Hp.
Qed.
(** with a transform *)
Lemma runs_upto f a l z : near_pt f -> near_pt a -> Forall near_bow l -> runs_through f a l z -> near_pt z.
Proof using.
  intros Hf Ha Hl H. revert Hf Ha Hl. assert (Z : forall r, Rabs r <= 2 ^ 16 -> Rabs (r - 0) <= 2 ^ 16) by (intros r Hr; now rewrite Rminus_0_r).
  assert (K1 : forall s a b, 0 <= s <= 1 -> Rabs a <= 2 ^ 16 -> Rabs b <= 2 ^ 16 -> Rabs (bezier1 s a b) <= 2 ^ 16).
  { intros s a0 b Hs H1 H2. replace (bezier1 s a0 b) with (bezier1 s a0 b - bezier1 s 0 0) by (unfold bezier1; ring). apply bez1_near; auto. }
  assert (K2 : forall s a b c, 0 <= s <= 1 -> Rabs a <= 2 ^ 16 -> Rabs b <= 2 ^ 16 -> Rabs c <= 2 ^ 16 -> Rabs (bezier2 s a b c) <= 2 ^ 16).
  { intros s a0 b c Hs H1 H2 H3. replace (bezier2 s a0 b c) with (bezier2 s a0 b c - bezier2 s 0 0 0) by (unfold bezier2; ring). apply bez2_near; auto. }
  assert (K3 : forall s a b c d, 0 <= s <= 1 -> Rabs a <= 2 ^ 16 -> Rabs b <= 2 ^ 16 -> Rabs c <= 2 ^ 16 -> Rabs d <= 2 ^ 16 -> Rabs (bezier3 s a b c d) <= 2 ^ 16).
  { intros s a0 b c d Hs H1 H2 H3 H4. replace (bezier3 s a0 b c d) with (bezier3 s a0 b c d - bezier3 s 0 0 0 0) by (unfold bezier3; ring). apply bez3_near; auto. }
  induction H; intros Hf Ha Hl; inversion Hl as [|? ? Hb Hr]; subst; cbn [near_bow] in Hb; unfold near_pt in *; cbn [fst snd] in *; try (apply IHruns_through; tauto).
  - split; apply K1; tauto.
  - split; apply K2; tauto.
  - split; apply K3; tauto.
  - split; apply K1; tauto.
Qed.
Lemma course_upto c z : near_course c -> (match c with Ellipse _ _ rx ry => 0 <= rx /\ 0 <= ry | _ => True end) -> points_of c z -> near_pt z.
Proof using.
  destruct c as [l|cx cy rx ry]; cbn [near_course points_of].
  - intros Hl _. apply runs_upto; try assumption; split; cbn [fst snd]; rewrite Rabs_R0; lra.
  - intros [B1 B2] [R1 R2] (t & ->). unfold ellipse_pt. split; cbn [fst snd]; apply ellipse_upto; try assumption; [apply COS_bound|apply SIN_bound].
Qed.
Lemma plan_radii cs p : plan_fits cs p -> forall c, List.In c cs -> match c with Ellipse _ _ rx ry => 0 <= rx /\ 0 <= ry | _ => True end.
Proof using.
  induction 1 as [|cs p c q Hp IH Hc]; intros c' Hi; [destruct Hi|]. apply in_app_or in Hi as [Hi|[<-|[]]]; [now apply IH|]. destruct c; [exact I|]. cbn [piece_fits] in Hc. tauto.
Qed.
Context (Hsq : square_page O vb x y w h).
Lemma turned_covers f v fs cs l : (forall c z, List.In c cs -> points_of c z -> near_pt z) -> turned_by O v f -> spells_turn O Q vb w v fs ->
  covers (tol_x O vb w h (turned O f) / 16) (tol_y O vb w h (turned O f) / 16) (dest O vb x y w h (turned O f)) cs l ->
  covers ((unit_x O Q vb x y w h fs + 3) / 16) ((unit_y O Q vb x y w h fs + 3) / 16) (image O Q vb x y w h fs) cs l.
Proof using HF HQ Hsq.
  intros Hn Hv Hs H.
  assert (K : forall z, near_pt z -> (Rabs (fst (dest O vb x y w h (turned O f) z) - fst (image O Q vb x y w h fs z)) <= / 64 / 2 /\ tol_x O vb w h (turned O f) <= unit_x O Q vb x y w h fs + 2 + 1 / 2)
    /\ (Rabs (snd (dest O vb x y w h (turned O f) z) - snd (image O Q vb x y w h fs z)) <= / 64 / 2 /\ tol_y O vb w h (turned O f) <= unit_y O Q vb x y w h fs + 2 + 1 / 2)).
  { intros z [Z1 Z2]. exact (turned_place O Q HF HQ vb x y w h Hsq v f fs z Hv Hs Z1 Z2). }
  assert (K0 : near_pt (0, 0)) by (split; cbn [fst snd]; rewrite Rabs_R0; lra). destruct (K _ K0) as [[_ T1] [_ T2]].
  apply (covers_beside _ _ (/ 64 / 2) (/ 64 / 2) _ (image O Q vb x y w h fs)) in H.
  - revert H. apply covers_wider; [lra|lra|reflexivity].
  - intros c z Hi Hp. destruct (K z (Hn c z Hi Hp)) as [[A _] [B _]]. split; assumption.
Qed.
Lemma unclosed_near c : near_course c -> near_course (unclosed c).
Proof using. destruct c as [l|]; cbn [near_course unclosed]; [|trivial]. intros H. induction H as [|b l Hb H IH]; [constructor|]. cbn [filter]. destruct (negb (is_back b)); [constructor; assumption|exact IH]. Qed.
Lemma rx_figure_sits f l : rx_figure O Q vb x y w h f l -> rx_sits O Q vb x y w h f l.
Proof using HF HQ Hsq.
  intros (q & Hq & Hl). exists q. split; [exact Hl|]. intros cs v fs Hc Hn Hv Hs. destruct (figure_plan f cs Hc) as (p & Hp & Hf). apply (turned_covers f v fs cs _); [|exact Hv|exact Hs|].
  - intros c z Hi. rewrite Forall_forall in Hn. apply course_upto; [now apply Hn|exact (plan_radii cs p Hf c Hi)].
  - apply (ops_cover _ cs p Hf), Hq, Hp.
Qed.
Lemma pen_figure_sits f l : pen_figure O Q vb x y w h (turned O f) f l -> pen_sits O Q vb x y w h f l.
Proof using HF HQ Hsq.
  intros Hq cs v fs Hc Hn Hv Hs. destruct (figure_plan f cs Hc) as (p & Hp & Hf). apply (turned_covers f v fs (map unclosed cs) _); [|exact Hv|exact Hs|].
  - intros c z Hi. apply in_map_iff in Hi as (c' & <- & Hi). rewrite Forall_forall in Hn. apply course_upto; [now apply unclosed_near, Hn|]. pose proof (plan_radii cs p Hf c' Hi) as K. destruct c'; exact K.
  - apply (pens_cover _ cs p Hf), Hq, Hp.
Qed.
End Figures.

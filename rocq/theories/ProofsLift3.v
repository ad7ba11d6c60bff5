(** * ProofsLift3: paths, arcs, rounded rectangles and ellipses in documents *)
From Coq Require Import Reals Lra Lia.
From Verif Require Import Logic SpecDoc SpecTree SpecLift SpecArc SpecRect ProofsSeg ProofsPath3 ProofsArc2 ProofsRound ProofsRect ProofsTree ProofsLift2.
Section L.
Context {E : Env} (add_comm : forall a b, fadd E a b = fadd E b a).
Theorem path_figure mode m vb off attrs p s cs : alone E mode m vb off "path" attrs p -> attr_once "d" attrs s -> spells E s cs -> closes_open E false cs = true ->
  p = draws E off cs.
Proof.
  intros Ha Hd Hs Hc. destruct (compilePath_draws add_comm s cs (c_pc (start_at E mode vb off)) Hs Hc) as (c' & H & Hp & _).
  rewrite (path_alone _ _ _ _ _ _ _ _ Ha Hd H), Hp. cbn. destruct off; reflexivity.
Qed.
Theorem steps_figure (arc : point E -> arc_args E -> point E -> list op -> point E -> Prop) mode m vb off attrs p lead body ks :
  (forall c, (pc_curX c, pc_curY c) = off -> exists c' o s, compilePath (lead ++ body) c = (c', Ret tt) /\ SpecArc.drawn E arc off (pen0 E) ks o s /\ pc_path c' = o) ->
  alone E mode m vb off "path" attrs p -> attr_once "d" attrs (lead ++ body) -> exists s, SpecArc.drawn E arc off (pen0 E) ks p s.
Proof.
  intros H Ha Hd. destruct (H _ (start_off mode vb off)) as (c' & o & s & H1 & H2 & <-).
  rewrite (path_alone _ _ _ _ _ _ _ _ Ha Hd H1). exists s. exact H2.
Qed.
End L.

Local Open Scope R_scope.
Section Reals.
Context (O : ROracles).
Notation K := (RealEnv O).
Theorem arc_figure_end mode m vb off attrs p lead body ks : alone K mode m vb off "path" attrs p -> attr_once "d" attrs (lead ++ body) ->
  seps lead = true -> spells_steps K body ks -> steps_close K false ks = true ->
  exists s, SpecArc.drawn K (fun _ _ q o e => ends_at K q o /\ e = q) off (pen0 K) ks p s.
Proof.
  intros Ha Hd H1 H2 H3. revert Ha Hd. apply steps_figure. intros c <-.
  destruct (arcs_end_real O lead body ks c H1 H2 H3) as (c' & o & s & A & B & C & _). eauto 8.
Qed.
Theorem arc_figure_svg mode m vb attrs p lead body ks : alone K mode m vb (0, 0) "path" attrs p -> attr_once "d" attrs (lead ++ body) ->
  seps lead = true -> spells_steps K body ks -> steps_close K false ks = true ->
  exists s, SpecArc.drawn K (fun s a q o e => let '(rx, ry, deg, fa, fs) := a in
         e = q /\ (0 < rx -> 0 < ry -> s <> q -> forall large sweep : bool,
           (large = true <-> fa <> 0) -> (sweep = true <-> fs <> 0) -> svg_arc s rx ry deg large sweep q o))
       (0, 0) (pen0 K) ks p s.
Proof.
  intros Ha Hd H1 H2 H3. revert Ha Hd. apply steps_figure. intros c Hc. injection Hc as Hx Hy.
  destruct (arcs_svg_real O lead body ks c Hx Hy H1 H2 H3) as (c' & o & s & A & B & C & _). eauto 8.
Qed.
Lemma alone_draws (E : Env) mode m vb off name attrs p : alone E mode m vb off name attrs p -> element_draws m name attrs (start_at E mode vb off) p.
Proof. intros H. apply H. Qed.
Theorem ellipse_figure mode m vb (off : R * R) attrs p (cx cy r rx ry : R) :
  length_attr (E := K) vb OfWidth "cx" attrs cx -> length_attr (E := K) vb OfHeight "cy" attrs cy ->
  (alone K mode m vb off "circle" attrs p -> length_attr (E := K) vb OfDiagonal "r" attrs r -> has_attr "rx" attrs = false -> has_attr "ry" attrs = false -> r <> 0 ->
     p = whole_ellipse (cx + fst off) (cy + snd off) r r)
  /\ (alone K mode m vb off "ellipse" attrs p -> length_attr (E := K) vb OfWidth "rx" attrs rx -> length_attr (E := K) vb OfHeight "ry" attrs ry -> has_attr "r" attrs = false ->
     rx <> 0 -> ry <> 0 -> p = whole_ellipse (cx + fst off) (cy + snd off) rx ry).
Proof.
  intros Hx Hy. destruct (round_real O m attrs cx cy r rx ry (start_at K mode vb off) eq_refl Hx Hy) as [H1 H2].
  split; intros Ha; intros; eapply draws_same; try exact (alone_draws _ _ _ _ _ _ _ _ Ha); auto.
Qed.
Theorem rect_figure mode m vb (off : R * R) attrs p (x y w h rx ry : R) : (1 <= m)%nat -> alone K mode m vb off "rect" attrs p ->
  length_attr (E := K) vb OfWidth "x" attrs x -> length_attr (E := K) vb OfHeight "y" attrs y ->
  length_attr (E := K) vb OfWidth "width" attrs w -> length_attr (E := K) vb OfHeight "height" attrs h ->
  length_attr (E := K) vb OfWidth "rx" attrs rx -> length_attr (E := K) vb OfHeight "ry" attrs ry ->
  let r := auto_radius rx ry (w / 2) in
  let minX := x + fst off in let minY := y + snd off in
  let maxX := minX + w in let maxY := minY + h in
  0 < w -> 0 < h -> 0 <= rx -> 0 <= ry -> 0 < r -> auto_radius ry rx (h / 2) = r ->
  Rabs minX <= 4194304 -> Rabs maxX <= 4194304 -> Rabs minY <= 4194304 -> Rabs maxY <= 4194304 ->
  round_outline grid_R r minX minY maxX maxY p /\ outline_inside minX minY maxX maxY p.
Proof.
  intros Hm Ha Hx Hy Hw Hh Hrx Hry r minX minY maxX maxY A1 A2 A3 A4 A5 A6 B1 B2 B3 B4.
  destruct (round_rect_real O m attrs x y w h rx ry (start_at K mode vb off) Hm eq_refl Hx Hy Hw Hh Hrx Hry A1 A2 A3 A4 A5 A6 B1 B2 B3 B4) as (q & H1 & H2).
  rewrite (draws_same _ _ _ _ _ _ (alone_draws _ _ _ _ _ _ _ _ Ha) H1). exact H2.
Qed.
(** a path of one M and one A inside a use *)
Theorem use_arc mode m vb off attrs p0 s (a p : R * R) (args : arc_args K) :
  alone K mode m vb off "path" attrs p0 -> attr_once "d" attrs s ->
  spells_steps K s [Plain (MoveTo (E := K) false a []); ArcTo (E := K) false args p] ->
  exists cs b c, p0 = OpMoveTo (grid_R (fst a + fst off, snd a + snd off)) :: cs ++ [OpCubicTo b c (grid_R p)].
Proof.
  intros Ha Hd Hs. destruct (arc_figure_end mode m vb off attrs p0 "" s _ Ha Hd eq_refl Hs eq_refl) as (e & H).
  inversion H as [|? ? ? o ? H1|]; subst. inversion H1 as [| |? ? ? ? ? o1 e1 o' ? H2 H3]; subst. inversion H3; subst.
  destruct H2 as ((cs & b & c & -> & _) & _). exists cs, b, c. cbn. rewrite app_nil_r. f_equal; [|do 2 f_equal].
  - f_equal. unfold dot, grid. cbn. apply (toFixed_real O).
  - f_equal. unfold grid. destruct p. apply (toFixed_real O).
Qed.
End Reals.

(** the outline of a figure made of one element, and of a figure whose last element is a path with data *)
Lemma single {E} mode m vb ps off n attrs p (P : Prop) : (alone E mode m vb off n attrs p -> P) -> outlines E (alone E mode m) vb [] ps p -> ps = [(off, n, attrs)] -> P.
Proof. intros H Ha ->. apply H. apply (one_outline (alone E mode m)). exact Ha. Qed.
Lemma last_path {E} mode m vb ps l off attrs d p (P : Prop) : (alone E mode m vb off "path" attrs p -> P) -> outlines E (alone E mode m) vb [] ps p ->
  ps = l ++ [(off, "path"%string, attrs)] -> attr_once "d" attrs d -> P.
Proof.
  intros H Ha -> (a & b & -> & _). apply H. clear H. revert Ha. generalize (@nil op) as q. induction l as [|[[o n] at_] l IH]; intros q Ha; inversion Ha as [|? ? ? ? ? ? ? H1 H2]; subst.
  - unfold joined in H2. cbn [String.eqb Ascii.eqb Bool.eqb andb] in H2. unfold has_attr in H2. rewrite existsb_app in H2. cbn in H2. rewrite Bool.orb_true_r in H2.
    inversion H2; subst. exact H1.
  - exact (IH _ H2).
Qed.

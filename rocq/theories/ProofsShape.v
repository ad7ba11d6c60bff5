(** * ProofsShape: the draw functions of the shapes *)
From Coq Require Import Lia.
From Verif Require Import SpecDoc ProofsPath2 ProofsPath3 ProofsUnit ProofsStyle ProofsKeep Logic.
Local Open Scope go_scope.

(** ** What path functions leave alone *)
Section Frame.
Context {E : Env}.
Notation pcur := (pcur E).
Definition frame (a b : pcur) : Prop := pc_curX b = pc_curX a /\ pc_curY b = pc_curY a /\ pc_mode b = pc_mode a.
Lemma fr_refl a : frame a a. Proof. unfold frame. auto. Qed.
Lemma fr_trans a b c : frame a b -> frame b c -> frame a c.
Proof. unfold frame. intuition congruence. Qed.
Ltac kf :=
  repeat first
  [ match goal with
    | |- forall _, keeps _ _ => intros ?
    | |- forall _ _, keeps _ _ => intros ? ?
    | |- keeps _ (ret _) => apply (keeps_ret frame fr_refl)
    | |- keeps _ nofuel => apply (keeps_nofuel frame fr_refl)
    | |- keeps _ (raise _) => apply (keeps_raise frame fr_refl)
    | |- keeps _ (lift _) => apply (keeps_lift frame fr_refl)
    | |- keeps _ (gets _) => apply (keeps_gets frame fr_refl)
    | |- keeps _ (modify _) => apply keeps_modify; intros ?; repeat split; reflexivity
    | |- keeps _ (onPath _) => unfold onPath
    | |- keeps _ (println _) => unfold println
    | |- keeps _ points => unfold points
    | |- keeps _ (fxp _ _) => unfold fxp
    | |- keeps _ (fxpt _) => unfold fxpt
    | |- keeps _ (moveTo _) => unfold moveTo
    | |- keeps _ (addPlaceAt _) => unfold addPlaceAt
    | |- keeps _ (addArcFromA _) => unfold addArcFromA
    | |- keeps _ (requireSets _ _) => unfold requireSets, hasSetsOrMore
    | |- keeps _ (pnt _) => intros ?; apply fr_refl
    | |- keeps _ (valsToAbs _) => unfold valsToAbs
    | |- keeps _ (pushFloat _) => unfold pushFloat
    | |- keeps _ (loop _ _ _ _ _) => apply (keeps_loop frame fr_refl fr_trans)
    | |- keeps _ (mapM _ _) => apply (keeps_mapM frame fr_refl fr_trans)
    | |- keeps _ (bind _ _) => apply (keeps_bind frame fr_trans)
    | |- keeps _ (if _ then _ else _) => apply (keeps_if frame)
    | |- keeps _ (match ?x with _ => _ end) => destruct x
    | |- keeps _ (let _ := _ in _) => cbv zeta
    end ].
Lemma fr_pointsToAbs sz : keeps frame (pointsToAbs (E := E) sz).
Proof. intros c. unfold pointsToAbs. destruct (abs_outer _ _ _ _ _ _); repeat split; reflexivity. Qed.
Lemma fr_reflectQ : keeps frame (reflectControlQuad (E := E)).
Proof. apply keeps_modify. intros c. destruct (is_key _ _); repeat split; reflexivity. Qed.
Lemma fr_reflectC : keeps frame (reflectControlCube (E := E)).
Proof. apply keeps_modify. intros c. destruct (is_key _ _); repeat split; reflexivity. Qed.
Lemma fr_readFloat_loop s rs : forall last b, keeps frame (readFloat_loop (E := E) s rs last b).
Proof. induction rs as [|[i n] r IH]; intros last b; cbn [readFloat_loop]; kf; apply IH. Qed.
Lemma fr_readFloat s : keeps frame (readFloat (E := E) s).
Proof. unfold readFloat. kf. apply fr_readFloat_loop. Qed.
Lemma fr_getPoints_loop s rs : forall last lr, keeps frame (getPoints_loop (E := E) s rs last lr).
Proof. induction rs as [|[i n] r IH]; intros last lr; cbn [getPoints_loop]; kf; try apply IH; apply fr_readFloat. Qed.
Lemma fr_getPoints s : keeps frame (getPoints (E := E) s).
Proof. unfold getPoints. kf; try apply fr_readFloat. apply fr_getPoints_loop. Qed.
Lemma fr_addSeg s : keeps frame (addSeg (E := E) s).
Proof.
  unfold addSeg. kf; try apply fr_getPoints. unfold segSwitch.
  kf; unfold segZ, segM, segL, segV, segH, segQ, segT, segC, segS, segA, segUnknown; kf;
    try apply fr_pointsToAbs; try apply fr_reflectQ; try apply fr_reflectC.
Qed.
Lemma fr_compilePath s : keeps frame (compilePath (E := E) s).
Proof.
  unfold compilePath, pinit. kf; try apply fr_addSeg.
  generalize (@None nat). induction (range_str s) as [|[i n] r IH]; intros o; cbn [compile_loop]; kf; try apply IH; apply fr_addSeg.
Qed.
End Frame.

(** ** Attribute folds *)
Section Shapes.
Context {E : Env}.
Notation F := (F E).
Notation pcur := (pcur E).
Notation cursor := (cursor E).
Notation lens vb e := (value_attr (is_length E vb e)).
(** one step: the attribute's name is [n], or none of the names *)
Ltac attr_cases a :=
  cbn [value_attr has_attr existsb] in *; unfold is;
  repeat match goal with
  | |- context [String.eqb (a_name a) ?n] =>
    let H := fresh "Hn" in destruct (String.eqb (a_name a) n) eqn:H;
      [apply String.eqb_eq in H; rewrite H in *; cbn [String.eqb Ascii.eqb Bool.eqb orb] in * |]
  end;
  repeat match goal with
  | H : context [if String.eqb (a_name a) ?n then _ else _], H' : String.eqb (a_name a) ?n = false |- _ => rewrite H' in H
  end.
Ltac attr_step IH :=
  repeat match goal with H : exists _, _ /\ _ |- _ => destruct H as (? & ? & ?) end;
  first [ eapply IH; eassumption
        | unfold bind, ret; unfold cParseUnit;
          match goal with H : is_length E _ ?e _ _ |- _ => apply resolveUnit_length in H; cbn [ref_of] in H; rewrite H end;
          eapply IH; eassumption ].
Lemma rect_fold attrs : forall x0 y0 w0 h0 rx0 ry0 x y w h rx ry (c : cursor),
  let vb := sv_viewBox (c_svg c) in
  lens vb OfWidth "x" x0 attrs x -> lens vb OfHeight "y" y0 attrs y -> lens vb OfWidth "width" w0 attrs w ->
  lens vb OfHeight "height" h0 attrs h -> lens vb OfWidth "rx" rx0 attrs rx -> lens vb OfHeight "ry" ry0 attrs ry ->
  foldM rectAttr (x0, y0, w0, h0, rx0, ry0) attrs c = (c, Ret (x, y, w, h, rx, ry)).
Proof.
  induction attrs as [|a attrs IH]; intros x0 y0 w0 h0 rx0 ry0 x y w h rx ry c vb Hx Hy Hw Hh Hrx Hry.
  - cbn in *. subst. reflexivity.
  - cbn [foldM]. unfold bind at 1, rectAttr at 1. subst vb. attr_cases a. all: attr_step IH.
Qed.
Lemma circle_fold attrs : forall cx0 cy0 r0 cx cy r (c : cursor),
  let vb := sv_viewBox (c_svg c) in
  lens vb OfWidth "cx" cx0 attrs cx -> lens vb OfHeight "cy" cy0 attrs cy -> lens vb OfDiagonal "r" r0 attrs r ->
  has_attr "rx" attrs = false -> has_attr "ry" attrs = false ->
  foldM circleAttr (cx0, cy0, r0, r0) attrs c = (c, Ret (cx, cy, r, r)).
Proof.
  induction attrs as [|a attrs IH]; intros cx0 cy0 r0 cx cy r c vb Hx Hy Hr H1 H2.
  - cbn in *. subst. reflexivity.
  - cbn [foldM]. unfold bind at 1, circleAttr at 1. subst vb. attr_cases a.
    all: try discriminate. all: attr_step IH.
Qed.
Lemma ellipse_fold attrs : forall cx0 cy0 rx0 ry0 cx cy rx ry (c : cursor),
  let vb := sv_viewBox (c_svg c) in
  lens vb OfWidth "cx" cx0 attrs cx -> lens vb OfHeight "cy" cy0 attrs cy ->
  lens vb OfWidth "rx" rx0 attrs rx -> lens vb OfHeight "ry" ry0 attrs ry -> has_attr "r" attrs = false ->
  foldM circleAttr (cx0, cy0, rx0, ry0) attrs c = (c, Ret (cx, cy, rx, ry)).
Proof.
  induction attrs as [|a attrs IH]; intros cx0 cy0 rx0 ry0 cx cy rx ry c vb Hx Hy Hrx Hry H1.
  - cbn in *. subst. reflexivity.
  - cbn [foldM]. unfold bind at 1, circleAttr at 1. subst vb. attr_cases a.
    all: try discriminate. all: attr_step IH.
Qed.
Lemma line_fold attrs : forall x10 x20 y10 y20 x1 x2 y1 y2 (c : cursor),
  let vb := sv_viewBox (c_svg c) in
  lens vb OfWidth "x1" x10 attrs x1 -> lens vb OfWidth "x2" x20 attrs x2 ->
  lens vb OfHeight "y1" y10 attrs y1 -> lens vb OfHeight "y2" y20 attrs y2 ->
  foldM lineAttr (x10, x20, y10, y20) attrs c = (c, Ret (x1, x2, y1, y2)).
Proof.
  induction attrs as [|a attrs IH]; intros x10 x20 y10 y20 x1 x2 y1 y2 c vb Hx1 Hx2 Hy1 Hy2.
  - cbn in *. subst. reflexivity.
  - cbn [foldM]. unfold bind at 1, lineAttr at 1. subst vb. attr_cases a. all: attr_step IH.
Qed.

(** ** Points *)
Lemma poly_none attrs (c : cursor) : has_attr "points" attrs = false -> foldM polyAttr tt attrs c = (c, Ret tt).
Proof.
  revert c. induction attrs as [|a attrs IH]; intros c H; [reflexivity|]. cbn [has_attr existsb] in H.
  apply Bool.orb_false_iff in H. destruct H as [Ha H]. cbn [foldM]. unfold bind, polyAttr at 1, is. rewrite Ha. exact (IH c H).
Qed.
Lemma poly_fold attrs s ps (c : cursor) : attr_once "points" attrs s -> spells_numbers E s (flat_map (p1 E) ps) ->
  foldM polyAttr tt attrs c = (c_set_pc (set_points (flat_map (p1 E) ps) (c_pc c)) c, Ret tt).
Proof.
  intros (l & r & -> & Hl & Hr) Hs. rewrite foldM_app, (bind_step _ _ _ _ _ (poly_none l c Hl)). cbn [foldM].
  erewrite bind_step; [apply poly_none, Hr|]. unfold polyAttr, is. cbn [a_name a_val String.eqb Ascii.eqb Bool.eqb].
  unfold attempt, bind, cGetPoints, liftP. rewrite getPoints_numbers, (numbers_spelled _ _ Hs). cbn [fst snd].
  unfold cPoints, gets. cbn [c_pc c_set_pc set_points pc_points]. rewrite p1_len, Nat.mod_mul by discriminate. reflexivity.
Qed.

Lemma c_pc_set (p q : pcur) (c : cursor) : c_set_pc p (c_set_pc q c) = c_set_pc p c. Proof. reflexivity. Qed.
Lemma loop_lift (m : nat -> P unit) fuel : forall i step bound (c : cursor),
  loop fuel i step bound (fun i => liftP (m i)) c = liftP (loop fuel i step bound m) c.
Proof.
  induction fuel as [|fuel IH]; intros i step bound c; cbn [loop]; destruct (i <? bound); try (destruct c; reflexivity).
  unfold bind. unfold liftP at 1. unfold liftP at 2. destruct (m i (c_pc c)) as [p [[]|e| |]]; try reflexivity.
  rewrite IH. unfold liftP. cbn [c_pc c_set_pc]. destruct (loop _ _ _ _ _ p). reflexivity.
Qed.
Lemma loop_ext {S} (m m' : nat -> M S unit) fuel : (forall i s, m i s = m' i s) -> forall i step bound s,
  loop fuel i step bound m s = loop fuel i step bound m' s.
Proof.
  intros H. induction fuel as [|fuel IH]; intros i step bound s; cbn [loop]; destruct (i <? bound); try reflexivity.
  unfold bind. rewrite H. destruct (m' i s) as [p [[]|e| |]]; auto.
Qed.

(** ** Each shape *)
Definition draws_as (df : list attr -> @C E unit) (attrs : list attr) (c : cursor) (p : path) : Prop :=
  exists pc', df attrs c = (c_set_pc pc' c, Ret tt) /\ pc_path pc' = p /\ frame (c_pc c) pc' /\ pc_log pc' = pc_log (c_pc c).
Notation offc c := (pc_curX (c_pc c), pc_curY (c_pc c)).

Lemma line_draws attrs x1 y1 x2 y2 (c : cursor) : let vb := sv_viewBox (c_svg c) in
  pc_path (c_pc c) = [] ->
  length_attr vb OfWidth "x1" attrs x1 -> length_attr vb OfHeight "y1" attrs y1 ->
  length_attr vb OfWidth "x2" attrs x2 -> length_attr vb OfHeight "y2" attrs y2 ->
  draws_as lineF attrs c [OpMoveTo (dot E (offc c) (x1, y1)); OpLineTo (dot E (offc c) (x2, y2))].
Proof.
  intros vb Hp H1 H2 H3 H4. eexists. unfold lineF. rewrite (bind_step _ _ _ _ _ (line_fold attrs _ _ _ _ x1 x2 y1 y2 c H1 H3 H2 H4)).
  cbv beta iota. unfold bind, liftP, fxp, gets, onCPath, liftP, onPath, modify. cbn. rewrite Hp. split; [reflexivity|]. repeat split; reflexivity.
Qed.
Lemma polyline_run attrs s p ps (c : cursor) : pc_path (c_pc c) = [] ->
  attr_once "points" attrs s -> spells_numbers E s (flat_map (p1 E) (p :: ps)) -> 2 <= length ps ->
  polylineF attrs c = (c_set_pc (set_path (OpMoveTo (dot E (offc c) p) :: map (fun q => OpLineTo (dot E (offc c) q)) ps)
                         (set_points (flat_map (p1 E) (p :: ps)) (c_pc c))) c, Ret tt).
Proof.
  intros Hp H1 H2 Hl. unfold polylineF. rewrite (bind_step _ _ _ _ _ (poly_fold attrs s (p :: ps) c H1 H2)).
  unfold cPoints. unfold bind at 1, gets at 1. cbn [c_pc c_set_pc set_points pc_points].
  assert (HL : length (flat_map (p1 E) (p :: ps)) = 2 + length ps * 2) by (rewrite p1_len; reflexivity).
  rewrite HL. destruct (4 <? 2 + length ps * 2) eqn:Hlt; [|apply Nat.ltb_ge in Hlt; lia].
  unfold bind at 1, liftP at 1. rewrite (fxpt_app [] (flat_map (p1 E) ps) (fst p) (snd p)) by reflexivity.
  unfold bind, onCPath at 1, liftP at 1, onPath, modify. cbn [c_pc c_set_pc].
  rewrite (loop_ext _ (fun i => liftP (b <- fxpt i ;; onPath (pLine b)))).
  2: { intros i d. unfold bind, liftP, onCPath. destruct (fxpt i (c_pc d)) as [q [a|e| |]]; reflexivity. }
  rewrite loop_lift. unfold liftP. cbn [c_pc c_set_pc].
  change (pc_path (set_points (flat_map (p1 E) (p :: ps)) (c_pc c))) with (pc_path (c_pc c)). rewrite Hp.
  rewrite (ops_loop (p1 E) 2 _ (fun q => [OpLineTo (dot E (offc c) q)]) (offc c)) with (l := ps) (pre := p1 E p); auto.
  - intros pre [x y] post d Hd Hq. unfold bind. rewrite (fxpt_app pre post x y) by auto. rewrite at_cur_dot. unfold ProofsSeg.offc in *. rewrite Hd. reflexivity.
  - lia.
Qed.
Lemma polyline_draws attrs s p ps (c : cursor) : pc_path (c_pc c) = [] ->
  attr_once "points" attrs s -> spells_numbers E s (flat_map (p1 E) (p :: ps)) -> 2 <= length ps ->
  draws_as polylineF attrs c (OpMoveTo (dot E (offc c) p) :: map (fun q => OpLineTo (dot E (offc c) q)) ps).
Proof. intros. eexists. erewrite polyline_run by eassumption. split; [reflexivity|]. repeat split; reflexivity. Qed.
Lemma polygon_draws attrs s p ps (c : cursor) : pc_path (c_pc c) = [] ->
  attr_once "points" attrs s -> spells_numbers E s (flat_map (p1 E) (p :: ps)) -> 2 <= length ps ->
  draws_as polygonF attrs c (OpMoveTo (dot E (offc c) p) :: map (fun q => OpLineTo (dot E (offc c) q)) ps ++ [OpClose]).
Proof.
  intros H1 H2 H3 H4. eexists. unfold polygonF.
  erewrite bind_step by (unfold attempt; rewrite (polyline_run attrs s p ps) by assumption; reflexivity).
  unfold cPoints. unfold bind at 1, gets at 1. cbn [c_pc c_set_pc set_points pc_points set_path].
  assert (HL : length (flat_map (p1 E) (p :: ps)) = 2 + length ps * 2) by (rewrite p1_len; reflexivity).
  rewrite HL. destruct (4 <? 2 + length ps * 2) eqn:Hlt; [|apply Nat.ltb_ge in Hlt; lia].
  unfold bind, onCPath, liftP, onPath, modify, pStop, ret. cbn [c_pc c_set_pc]. rewrite c_pc_set.
  split; [reflexivity|]. repeat split; reflexivity.
Qed.
Lemma path_none attrs (c : cursor) : has_attr "d" attrs = false -> pathF attrs c = (c, Ret tt).
Proof.
  unfold pathF. revert c. induction attrs as [|a attrs IH]; intros c H; [reflexivity|]. cbn [has_attr existsb] in H.
  apply Bool.orb_false_iff in H. destruct H as [Ha H]. cbn [mapM]. unfold bind, is. rewrite Ha. exact (IH c H).
Qed.
Lemma c_pc_same (c : cursor) : c_set_pc (c_pc c) c = c. Proof. destruct c; reflexivity. Qed.
Lemma mapM_app' {S A} (f : A -> M S unit) a : forall b c, mapM f (a ++ b) c = bind (mapM f a) (fun _ => mapM f b) c.
Proof.
  induction a as [|x a IH]; intros b c; [reflexivity|].
  cbn [app mapM]. unfold bind at 1 2 3. destruct (f x c) as [c1 [[]|e| |]]; try reflexivity. exact (IH b c1).
Qed.
Lemma path_draws (add_comm : forall a b, fadd E a b = fadd E b a) attrs s cs (c : cursor) :
  attr_once "d" attrs s -> spells E s cs -> closes_open E false cs = true ->
  draws_as pathF attrs c (draws E (offc c) cs).
Proof.
  intros (l & r & -> & Hl & Hr) Hs Hc. destruct (compilePath_draws add_comm s cs (c_pc c) Hs Hc) as (pc' & H & Hp & _ & Hlog).
  exists pc'. split; [|split; [exact Hp|split; [|exact Hlog]]].
  - unfold pathF. rewrite mapM_app'. erewrite bind_step by exact (path_none l c Hl). cbn [mapM].
    erewrite bind_step; [exact (path_none r _ Hr)|]. unfold is, liftP. cbn [a_name a_val String.eqb Ascii.eqb Bool.eqb]. rewrite H. reflexivity.
  - pose proof (fr_compilePath s (c_pc c)) as K. rewrite H in K. exact K.
Qed.
Lemma rect_draws fuel attrs x y w h rx ry (c : cursor) : let vb := sv_viewBox (c_svg c) in
  pc_path (c_pc c) = [] ->
  length_attr vb OfWidth "x" attrs x -> length_attr vb OfHeight "y" attrs y ->
  length_attr vb OfWidth "width" attrs w -> length_attr vb OfHeight "height" attrs h ->
  length_attr vb OfWidth "rx" attrs rx -> length_attr vb OfHeight "ry" attrs ry ->
  feqb E w (f0 E) = false -> feqb E h (f0 E) = false ->
  fleb E rx (f0 E) = true -> fleb E ry (f0 E) = true ->
  unmoved E (fdiv E (fadd E (fadd E x (fst (offc c))) (fadd E (fadd E w x) (fst (offc c)))) (fnum E 2))
            (fdiv E (fadd E (fadd E y (snd (offc c))) (fadd E (fadd E h y) (snd (offc c)))) (fnum E 2)) ->
  draws_as (rectF fuel) attrs c
      [OpMoveTo (dot E (offc c) (x, y)); OpLineTo (dot E (offc c) (fadd E w x, y)); OpLineTo (dot E (offc c) (fadd E w x, fadd E h y));
       OpLineTo (dot E (offc c) (x, fadd E h y)); OpClose].
Proof.
  intros vb Hp Hx Hy Hw Hh Hrx Hry Nw Nh Lx Ly Hm. eexists. unfold rectF.
  rewrite (bind_step _ _ _ _ _ (rect_fold attrs _ _ _ _ _ _ x y w h rx ry c Hx Hy Hw Hh Hrx Hry)).
  cbv beta iota. unfold f0 in *. rewrite Nw, Nh. cbn [orb].
  unfold curXY, bind, gets, lift. rewrite Hp.
  set (ry' := if negb (feqb E rx (fnum E 0)) && feqb E ry (fnum E 0) then rx else ry).
  set (rx' := if negb (feqb E ry' (fnum E 0)) && feqb E rx (fnum E 0) then ry' else rx).
  assert (L : fleb E rx' (fnum E 0) || fleb E ry' (fnum E 0) = true).
  { apply Bool.orb_true_iff. right. unfold ry'. destruct (_ && _); assumption. }
  unfold addRoundRect. rewrite L. unfold addRect. unfold aStart, aLine, pStart, pLine, pStop. unfold toFixedP.
  pose proof (fun a b => Hm (a, b)) as Hm'. unfold grid in Hm'. cbn [fst snd] in Hm'. rewrite !Hm'.
  unfold onCPath, liftP, onPath, modify. cbn [app]. split; [reflexivity|]. repeat split; reflexivity.
Qed.
Lemma rect_flat fuel attrs x y w h rx ry (c : cursor) : let vb := sv_viewBox (c_svg c) in
  length_attr vb OfWidth "x" attrs x -> length_attr vb OfHeight "y" attrs y ->
  length_attr vb OfWidth "width" attrs w -> length_attr vb OfHeight "height" attrs h ->
  length_attr vb OfWidth "rx" attrs rx -> length_attr vb OfHeight "ry" attrs ry ->
  feqb E w (f0 E) = true \/ feqb E h (f0 E) = true -> rectF fuel attrs c = (c, Ret tt).
Proof.
  intros vb Hx Hy Hw Hh Hrx Hry N. unfold rectF.
  rewrite (bind_step _ _ _ _ _ (rect_fold attrs _ _ _ _ _ _ x y w h rx ry c Hx Hy Hw Hh Hrx Hry)).
  cbv beta iota. unfold f0 in N. destruct N as [-> | ->]; [reflexivity|]. rewrite Bool.orb_true_r. reflexivity.
Qed.

(** ** Ellipses *)
Lemma ellSegs_spec n : forall i segs ra rb ex ey cx cy sT cT eta dEta al lx ly ldx ldy p,
  (n = 0 \/ (i + Z.of_nat n = segs + 1)%Z) ->
  exists cs, fst (ellSegs (E := E) n i segs ra rb ex ey cx cy sT cT eta dEta al lx ly ldx ldy p) = p ++ cs
    /\ Forall is_cubic cs /\ (cs = [] \/ exists pre b c, cs = pre ++ [OpCubicTo b c (toFixedP ex ey)]).
Proof.
  induction n as [|n IH]; intros i segs ra rb ex ey cx cy sT cT eta dEta al lx ly ldx ldy p Hn.
  - exists []. rewrite app_nil_r. cbn. auto.
  - destruct Hn as [Hn|Hn]; [discriminate|]. cbn [ellSegs].
    match goal with |- context [let (px, py) := ?e in _] => destruct e as [px py] eqn:He end.
    match goal with |- context [let (dx, dy) := ?e in _] => destruct e as [dx dy] eqn:Hd end.
    match goal with |- context [ellSegs n ?i' _ _ _ _ _ _ _ _ _ _ _ _ _ _ _ _ (pCube ?a ?b ?d p)] =>
      set (A := a); set (B := b) end.
    unfold pCube.
    destruct (IH (i + 1)%Z segs ra rb ex ey cx cy sT cT eta dEta al px py dx dy (p ++ [OpCubicTo A B (toFixedP px py)])) as (cs & H1 & H2 & H3).
    { right. lia. }
    rewrite H1. exists (OpCubicTo A B (toFixedP px py) :: cs). rewrite <- app_assoc. split; [reflexivity|].
    split; [constructor; [exact I|exact H2]|]. right. destruct H3 as [->|(pre & b & d & ->)].
    + destruct n as [|n].
      * assert (i = segs) by lia. subst i. rewrite Z.eqb_refl in He. injection He as <- <-. exists [], A, B. reflexivity.
      * exfalso. cbn [ellSegs] in H1. revert H1.
        match goal with |- context [let (px, py) := ?e in _] => destruct e end.
        match goal with |- context [let (dx, dy) := ?e in _] => destruct e end.
        intros H1. match type of H1 with fst (ellSegs _ _ _ _ _ ?ex ?ey ?cx ?cy _ _ ?eta ?de ?al ?lx ?ly ?ldx ?ldy ?q) = _ =>
          clear - H1; assert (K : exists r, fst (ellSegs (E := E) n (i + 1 + 1) segs ra rb ex ey cx cy sT cT eta de al lx ly ldx ldy q) = q ++ r) end.
        { clear. generalize (i + 1 + 1)%Z. intros j. match goal with |- exists r, fst (ellSegs _ _ _ _ _ _ _ _ _ _ _ _ _ _ ?lx ?ly ?ldx ?ldy ?q) = _ =>
            generalize lx ly ldx ldy q end. revert j.
          induction n as [|n IH]; intros j lx' ly' ldx' ldy' q; [exists []; rewrite app_nil_r; reflexivity|]. cbn [ellSegs].
          match goal with |- context [let (px, py) := ?e in _] => destruct e end.
          match goal with |- context [let (dx, dy) := ?e in _] => destruct e end.
          match goal with |- context [ellSegs n ?j' _ _ _ _ _ _ _ _ _ _ _ _ ?a ?b ?d ?e ?q'] => destruct (IH j' a b d e q') as [r ->] end.
          unfold pCube. eexists. rewrite <- app_assoc. reflexivity. }
        destruct K as [r K]. rewrite K in H1. unfold pCube in H1. rewrite app_nil_r in H1.
        apply (f_equal (@length op)) in H1. rewrite !app_length in H1. cbn in H1. lia.
    + exists (OpCubicTo A B (toFixedP px py) :: pre), b, d. reflexivity.
Qed.
Lemma ellipseAt_closed cx cy rx ry (c : pcur) : pc_path c = [] ->
  exists c', ellipseAt cx cy rx ry c = (c', Ret tt) /\ closed_curve (grid E (fadd E cx rx, cy)) (pc_path c')
    /\ frame c c' /\ pc_log c' = pc_log c.
Proof.
  intros Hp. unfold ellipseAt, bind, modify, gets, onPath, lift, modify. cbn [set_place pc_placeX pc_placeY pc_path set_points set_path]. rewrite Hp.
  unfold addArc. cbn [idx nth_error obind]. cbv zeta.
  match goal with |- context [ellipsePrime ?a ?b ?c ?d ?e] => destruct (ellipsePrime a b c d e) as [ldx ldy] end.
  match goal with |- context [ellSegs (Z.to_nat ?sg) 1 ?sg ?ra ?rb ?ex ?ey ?kx ?ky ?sT ?cT ?eta ?de ?al ?lx ?ly ?dx ?dy ?q] =>
    pose proof (ellSegs_spec (Z.to_nat sg) 1 sg ra rb ex ey kx ky sT cT eta de al lx ly dx dy q) as K;
    destruct (ellSegs (Z.to_nat sg) 1 sg ra rb ex ey kx ky sT cT eta de al lx ly dx dy q) as [p' [lx' ly']]; set (segs := sg) in * end.
  destruct K as (cs & K1 & K2 & K3).
  { destruct (Z_lt_le_dec segs 0) as [H|H]; [left; clearbody segs; destruct segs; [reflexivity|lia|reflexivity]|right; rewrite Z2Nat.id; lia]. }
  cbn [fst] in K1. subst p'. eexists. split; [reflexivity|]. split; [|repeat split; reflexivity].
  cbn [set_path pc_path set_place]. unfold pStart, pStop. exists cs. cbn [app]. split; [reflexivity|]. split; [exact K2|]. exact K3.
Qed.
Lemma circleF_draws attrs cx cy rx ry (c : cursor) : pc_path (c_pc c) = [] ->
  foldM circleAttr (f0 E, f0 E, f0 E, f0 E) attrs c = (c, Ret (cx, cy, rx, ry)) ->
  feqb E rx (f0 E) = false -> feqb E ry (f0 E) = false ->
  exists p, draws_as circleF attrs c p /\ closed_curve (grid E (fadd E (fadd E cx (fst (offc c))) rx, fadd E cy (snd (offc c)))) p.
Proof.
  intros Hp Hf N1 N2. unfold f0 in *. 
  destruct (ellipseAt_closed (fadd E cx (fst (offc c))) (fadd E cy (snd (offc c))) rx ry (c_pc c) Hp) as (pc' & H1 & H2 & H3 & H4).
  exists (pc_path pc'). split; [|exact H2]. exists pc'. split; [|auto].
  unfold circleF. rewrite (bind_step _ _ _ _ _ Hf). cbv beta iota. rewrite N1, N2. cbn [orb].
  unfold bind, curXY, gets. cbn [fst snd] in H1. unfold liftP. rewrite H1. reflexivity.
Qed.
Lemma circleF_flat attrs cx cy rx ry (c : cursor) : 
  foldM circleAttr (f0 E, f0 E, f0 E, f0 E) attrs c = (c, Ret (cx, cy, rx, ry)) ->
  feqb E rx (f0 E) = true \/ feqb E ry (f0 E) = true -> circleF attrs c = (c, Ret tt).
Proof.
  intros Hf N. unfold circleF. rewrite (bind_step _ _ _ _ _ Hf). cbv beta iota. unfold f0 in N.
  destruct N as [-> | ->]; [reflexivity|]. rewrite Bool.orb_true_r. reflexivity.
Qed.

Local Notation shape := SpecDoc.shape.
(** all shapes together: the element draws some outline of its shape *)
Theorem shape_draws (add_comm : forall a b, fadd E a b = fadd E b a) fuel vb off name attrs p0 (c : cursor) :
  shape E vb off name attrs p0 -> sv_viewBox (c_svg c) = vb -> offc c = off -> pc_path (c_pc c) = [] ->
  exists df p, drawFuncs fuel name = Some df /\ draws_as df attrs c p /\ shape E vb off name attrs p /\ (p = [] <-> p0 = []).
Proof.
  intros H Hvb Hoff Hp. subst vb off.
  assert (same : forall (df : list attr -> @C E unit) n p, drawFuncs fuel n = Some df -> draws_as df attrs c p -> shape E (sv_viewBox (c_svg c)) (offc c) n attrs p ->
    exists df p', drawFuncs fuel n = Some df /\ draws_as df attrs c p' /\ shape E (sv_viewBox (c_svg c)) (offc c) n attrs p' /\ (p' = [] <-> p = [])).
  { intros df n p H1 H2 H3. exists df, p. tauto. }
  assert (none : forall df : list attr -> @C E unit, df attrs c = (c, Ret tt) -> draws_as df attrs c []).
  { intros df Hd. exists (c_pc c). rewrite c_pc_same. split; [exact Hd|]. split; [exact Hp|]. split; [apply fr_refl|reflexivity]. }
  pose proof H as H'. destruct H.
  - eapply same; [reflexivity| |exact H']. apply line_draws; assumption.
  - eapply same; [reflexivity| |exact H']. eapply polyline_draws; eassumption.
  - eapply same; [reflexivity| |exact H']. eapply polygon_draws; eassumption.
  - eapply same; [reflexivity| |exact H']. eapply path_draws; eassumption.
  - eapply same; [reflexivity| |exact H']. apply none, path_none, H.
  - eapply same; [reflexivity| |exact H']. eapply rect_draws; eassumption.
  - eapply same; [reflexivity| |exact H']. apply none. eapply rect_flat; eassumption.
  - destruct (circleF_draws attrs cx cy r r c Hp) as (p' & H6 & H7); [apply circle_fold; assumption|assumption|assumption|].
    exists circleF, p'. split; [reflexivity|]. split; [exact H6|]. split; [eapply sh_circle; eassumption|].
    destruct H7 as (cs & -> & _), H5 as (cs' & -> & _). split; discriminate.
  - eapply same; [reflexivity| |exact H']. apply none. eapply circleF_flat; [apply circle_fold; eassumption|auto].
  - destruct (circleF_draws attrs cx cy rx ry c Hp) as (p' & H7 & H8); [apply ellipse_fold; assumption|assumption|assumption|].
    exists circleF, p'. split; [reflexivity|]. split; [exact H7|]. split; [eapply sh_ellipse; eassumption|].
    destruct H8 as (cs & -> & _), H6 as (cs' & -> & _). split; discriminate.
  - eapply same; [reflexivity| |exact H']. apply none. eapply circleF_flat; [apply ellipse_fold; eassumption|auto].
Qed.

(** an odd number of coordinates *)
Lemma poly_odd attrs s vs (c : cursor) : attr_once "points" attrs s -> spells_numbers E s vs -> Nat.odd (length vs) = true ->
  exists c', polylineF attrs c = (c', Err (ErrMsg "polygon has odd number of points")) /\ pc_path (c_pc c') = pc_path (c_pc c)
    /\ pc_points (c_pc c') = vs.
Proof.
  intros (l & r & -> & Hl & Hr) Hs Ho. exists (c_set_pc (set_points vs (c_pc c)) c). split; [|split; reflexivity].
  unfold polylineF. unfold bind at 1. rewrite foldM_app, (bind_step _ _ _ _ _ (poly_none l c Hl)). cbn [foldM].
  unfold bind at 1. unfold polyAttr at 1, is. cbn [a_name a_val String.eqb Ascii.eqb Bool.eqb].
  unfold attempt, bind, cGetPoints, liftP. rewrite getPoints_numbers, (numbers_spelled _ _ Hs). cbn [fst snd].
  unfold cPoints, gets. cbn [c_pc c_set_pc set_points pc_points].
  rewrite <- Nat.bit0_mod, Nat.bit0_odd, Ho. reflexivity.
Qed.
Lemma polygon_odd attrs s vs (c : cursor) : attr_once "points" attrs s -> spells_numbers E s vs -> Nat.odd (length vs) = true ->
  exists c', polygonF attrs c = (c', Err (ErrMsg "polygon has odd number of points")).
Proof.
  intros H1 H2 H3. destruct (poly_odd attrs s vs c H1 H2 H3) as (c' & H & _ & Hps). unfold polygonF.
  erewrite bind_step by (unfold attempt; rewrite H; reflexivity). unfold cPoints, bind, gets. rewrite Hps.
  destruct (4 <? length vs); eexists; reflexivity.
Qed.
(** two points or fewer *)
Lemma poly_short attrs s ps (c : cursor) : attr_once "points" attrs s -> spells_numbers E s (flat_map (p1 E) ps) -> length ps <= 2 ->
  pc_path (c_pc c) = [] -> draws_as polylineF attrs c [] /\ draws_as polygonF attrs c [].
Proof.
  intros H1 H2 Hl Hp.
  assert (H : polylineF attrs c = (c_set_pc (set_points (flat_map (p1 E) ps) (c_pc c)) c, Ret tt)).
  { unfold polylineF. rewrite (bind_step _ _ _ _ _ (poly_fold attrs s ps c H1 H2)). unfold cPoints, bind, gets. cbn [c_pc c_set_pc set_points pc_points].
    rewrite p1_len. replace (4 <? length ps * 2) with false by (symmetry; apply Nat.ltb_ge; lia). reflexivity. }
  split; eexists; (split; [|split; [|split]]).
  1: exact H. 1: exact Hp. 1: repeat split; reflexivity. 1: reflexivity.
  - unfold polygonF. erewrite bind_step by (unfold attempt; rewrite H; reflexivity). unfold cPoints, bind, gets. cbn [c_pc c_set_pc set_points pc_points].
    rewrite p1_len. replace (4 <? length ps * 2) with false by (symmetry; apply Nat.ltb_ge; lia). reflexivity.
  - exact Hp.
  - repeat split; reflexivity.
  - reflexivity.
Qed.

(** ** the statements of the property files *)
Lemma as_element fuel name df attrs (c : cursor) p : drawFuncs fuel name = Some df -> draws_as df attrs c p -> element_draws fuel name attrs c p.
Proof. intros H (pc' & H1 & H2 & _). exists df, (c_set_pc pc' c). auto. Qed.
Theorem line_element fuel attrs x1 y1 x2 y2 (c : cursor) : let vb := sv_viewBox (c_svg c) in
  pc_path (c_pc c) = [] ->
  length_attr vb OfWidth "x1" attrs x1 -> length_attr vb OfHeight "y1" attrs y1 ->
  length_attr vb OfWidth "x2" attrs x2 -> length_attr vb OfHeight "y2" attrs y2 ->
  element_draws fuel "line" attrs c [OpMoveTo (dot E (offset c) (x1, y1)); OpLineTo (dot E (offset c) (x2, y2))].
Proof. intros. eapply as_element; [reflexivity|]. apply line_draws; assumption. Qed.
Theorem poly_elements fuel attrs s p ps (c : cursor) : pc_path (c_pc c) = [] ->
  attr_once "points" attrs s -> spells_numbers E s (flat_map (p1 E) (p :: ps)) -> 2 <= length ps ->
  let outline := OpMoveTo (dot E (offset c) p) :: map (fun q => OpLineTo (dot E (offset c) q)) ps in
  element_draws fuel "polyline" attrs c outline /\ element_draws fuel "polygon" attrs c (outline ++ [OpClose]).
Proof.
  intros. split; (eapply as_element; [reflexivity|]); [eapply polyline_draws; eassumption|].
  eapply polygon_draws; eassumption.
Qed.
Theorem poly_two fuel attrs s ps (c : cursor) : pc_path (c_pc c) = [] ->
  attr_once "points" attrs s -> spells_numbers E s (flat_map (p1 E) ps) -> length ps <= 2 ->
  element_draws fuel "polyline" attrs c [] /\ element_draws fuel "polygon" attrs c [].
Proof.
  intros Hp H1 H2 H3. destruct (poly_short attrs s ps c H1 H2 H3 Hp). split; (eapply as_element; [reflexivity|assumption]).
Qed.
Theorem poly_odd_error fuel attrs s vs (c : cursor) : attr_once "points" attrs s -> spells_numbers E s vs -> Nat.odd (length vs) = true ->
  element_fails fuel "polyline" attrs c (ErrMsg "polygon has odd number of points")
  /\ element_fails fuel "polygon" attrs c (ErrMsg "polygon has odd number of points").
Proof.
  intros H1 H2 H3. destruct (poly_odd attrs s vs c H1 H2 H3) as (c1 & K1 & _), (polygon_odd attrs s vs c H1 H2 H3) as (c2 & K2).
  split; eexists; eexists; (split; [reflexivity|eassumption]).
Qed.
Theorem rect_element fuel attrs x y w h rx ry (c : cursor) : let vb := sv_viewBox (c_svg c) in
  pc_path (c_pc c) = [] ->
  length_attr vb OfWidth "x" attrs x -> length_attr vb OfHeight "y" attrs y ->
  length_attr vb OfWidth "width" attrs w -> length_attr vb OfHeight "height" attrs h ->
  length_attr vb OfWidth "rx" attrs rx -> length_attr vb OfHeight "ry" attrs ry ->
  feqb E w (f0 E) = false -> feqb E h (f0 E) = false ->
  fleb E rx (f0 E) = true -> fleb E ry (f0 E) = true ->
  let off := offset c in
  unmoved E (fdiv E (fadd E (fadd E x (fst off)) (fadd E (fadd E w x) (fst off))) (fnum E 2))
            (fdiv E (fadd E (fadd E y (snd off)) (fadd E (fadd E h y) (snd off))) (fnum E 2)) ->
  element_draws fuel "rect" attrs c
    [OpMoveTo (dot E off (x, y)); OpLineTo (dot E off (fadd E w x, y)); OpLineTo (dot E off (fadd E w x, fadd E h y));
     OpLineTo (dot E off (x, fadd E h y)); OpClose].
Proof. intros. eapply as_element; [reflexivity|]. eapply rect_draws; eassumption. Qed.
Theorem round_element fuel attrs cx cy r rx ry (c : cursor) : let vb := sv_viewBox (c_svg c) in
  pc_path (c_pc c) = [] -> length_attr vb OfWidth "cx" attrs cx -> length_attr vb OfHeight "cy" attrs cy ->
  (length_attr vb OfDiagonal "r" attrs r -> has_attr "rx" attrs = false -> has_attr "ry" attrs = false -> feqb E r (f0 E) = false ->
     exists p, element_draws fuel "circle" attrs c p
       /\ closed_curve (grid E (fadd E (fadd E cx (fst (offset c))) r, fadd E cy (snd (offset c)))) p)
  /\ (length_attr vb OfWidth "rx" attrs rx -> length_attr vb OfHeight "ry" attrs ry -> has_attr "r" attrs = false ->
     feqb E rx (f0 E) = false -> feqb E ry (f0 E) = false ->
     exists p, element_draws fuel "ellipse" attrs c p
       /\ closed_curve (grid E (fadd E (fadd E cx (fst (offset c))) rx, fadd E cy (snd (offset c)))) p).
Proof.
  intros vb Hp Hx Hy. split.
  - intros H1 H2 H3 H4. destruct (circleF_draws attrs cx cy r r c Hp) as (p & H6 & H7); [apply circle_fold; assumption|assumption|assumption|].
    exists p. split; [|exact H7]. eapply as_element; [reflexivity|exact H6].
  - intros H1 H2 H3 H4 H5. destruct (circleF_draws attrs cx cy rx ry c Hp) as (p & H6 & H7); [apply ellipse_fold; assumption|assumption|assumption|].
    exists p. split; [|exact H7]. eapply as_element; [reflexivity|exact H6].
Qed.
Theorem flat_elements fuel attrs x y w h rx ry cx cy r (c : cursor) : let vb := sv_viewBox (c_svg c) in
  (length_attr vb OfWidth "x" attrs x -> length_attr vb OfHeight "y" attrs y ->
   length_attr vb OfWidth "width" attrs w -> length_attr vb OfHeight "height" attrs h ->
   length_attr vb OfWidth "rx" attrs rx -> length_attr vb OfHeight "ry" attrs ry ->
   feqb E w (f0 E) = true \/ feqb E h (f0 E) = true -> element_draws fuel "rect" attrs c (pc_path (c_pc c)))
  /\ (length_attr vb OfWidth "cx" attrs cx -> length_attr vb OfHeight "cy" attrs cy -> length_attr vb OfDiagonal "r" attrs r ->
   has_attr "rx" attrs = false -> has_attr "ry" attrs = false ->
   feqb E r (f0 E) = true -> element_draws fuel "circle" attrs c (pc_path (c_pc c)))
  /\ (length_attr vb OfWidth "cx" attrs cx -> length_attr vb OfHeight "cy" attrs cy ->
   length_attr vb OfWidth "rx" attrs rx -> length_attr vb OfHeight "ry" attrs ry -> has_attr "r" attrs = false ->
   feqb E rx (f0 E) = true \/ feqb E ry (f0 E) = true -> element_draws fuel "ellipse" attrs c (pc_path (c_pc c))).
Proof.
  intros vb. split; [|split].
  - intros. eexists; eexists. split; [reflexivity|]. split; [eapply rect_flat; eassumption|reflexivity].
  - intros. eexists; eexists. split; [reflexivity|]. split; [eapply circleF_flat; [apply circle_fold; eassumption|auto]|reflexivity].
  - intros. eexists; eexists. split; [reflexivity|]. split; [eapply circleF_flat; [apply ellipse_fold; eassumption|auto]|reflexivity].
Qed.
End Shapes.

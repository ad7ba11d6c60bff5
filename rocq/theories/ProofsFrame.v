(** * ProofsFrame: a shape element appends its outline, and draws the same from every state *)
From Coq Require Import Lia.
From Verif Require Import ProofsPath4.
From Verif Require Export SpecTree ProofsAttrs ProofsKeep.
Local Open Scope go_scope.

Section L.
Context {E : Env}.
Notation cursor := (cursor E).

(** ** Only the path cursor changes, and neither its offset nor the error mode *)
Definition still (c c' : cursor) : Prop := c' = c_set_pc (c_pc c') c /\ frame (c_pc c) (c_pc c').
Lemma still_refl c : still c c. Proof. split; [destruct c; reflexivity|apply fr_refl]. Qed.
Lemma still_trans a b c : still a b -> still b c -> still a c.
Proof.
  intros [H1 H2] [H3 H4]. split; [|eapply fr_trans; eassumption]. rewrite H3, H1. destruct a; reflexivity.
Qed.
Notation st := (keeps still).
Lemma st_liftP {A} (m : M (pcur E) A) : keeps frame m -> st (liftP m).
Proof.
  intros H c. unfold liftP. specialize (H (c_pc c)). destruct (m (c_pc c)) as [p' o]. cbn [fst] in *. split; [reflexivity|exact H].
Qed.
Lemma st_fold {A L} (f : L -> A -> @C E L) xs l : (forall l a, st (f l a)) -> st (foldM f l xs).
Proof. intros H. apply (keeps_foldM still still_refl still_trans). assumption. Qed.
Lemma st_onCPath f : st (onCPath f).
Proof. apply st_liftP. intros c. split; [reflexivity|split; reflexivity]. Qed.
Lemma st_unit s p : st (cParseUnit s p). Proof. intros c. apply still_refl. Qed.
Ltac ks := repeat first
  [ assumption
  | match goal with
    | |- forall _, keeps _ _ => intros ?
    | |- forall _ _, keeps _ _ => intros ? ?
    | |- keeps _ (ret _) => apply (keeps_ret still still_refl)
    | |- keeps _ (raise _) => apply (keeps_raise still still_refl)
    | |- keeps _ (lift _) => apply (keeps_lift still still_refl)
    | |- keeps _ (gets _) => apply (keeps_gets still still_refl)
    | |- keeps _ curXY => apply (keeps_gets still still_refl)
    | |- keeps _ cPoints => apply (keeps_gets still still_refl)
    | |- keeps _ (bind _ _) => apply (keeps_bind still still_trans)
    | |- keeps _ (attempt _) => apply (keeps_attempt still)
    | |- keeps _ (if _ then _ else _) => apply (keeps_if still)
    | |- keeps _ (match ?x with _ => _ end) => destruct x
    | |- keeps _ (let _ := _ in _) => cbv zeta
    | |- keeps _ (cParseUnit _ _) => apply st_unit
    | |- keeps _ (onCPath _) => apply st_onCPath
    | |- keeps _ (foldM _ _ _) => apply st_fold
    end ].
Ltac kf := repeat first
  [ match goal with
    | |- forall _, keeps _ _ => intros ?
    | |- forall _ _, keeps _ _ => intros ? ?
    | |- keeps _ (ret _) => apply (keeps_ret frame fr_refl)
    | |- keeps _ (lift _) => apply (keeps_lift frame fr_refl)
    | |- keeps _ (gets _) => apply (keeps_gets frame fr_refl)
    | |- keeps _ (modify _) => apply keeps_modify; intros ?; repeat split; reflexivity
    | |- keeps _ (onPath _) => unfold onPath
    | |- keeps _ (pnt _) => intros ?; apply fr_refl
    | |- keeps _ (bind _ _) => apply (keeps_bind frame fr_trans)
    | |- keeps _ (match ?x with _ => _ end) => destruct x
    | |- keeps _ (let _ := _ in _) => cbv zeta
    end ].
Lemma fr_fxp x y : keeps frame (fxp (E := E) x y). Proof. unfold fxp. kf. Qed.
Lemma fr_fxpt i : keeps frame (fxpt (E := E) i). Proof. unfold fxpt, fxp. kf. Qed.
Lemma fr_ellipseAt a b c d : keeps frame (ellipseAt (E := E) a b c d). Proof. unfold ellipseAt. kf. Qed.
Lemma st_shape fuel name df attrs : List.In name shape_names -> drawFuncs fuel name = Some df -> st (df attrs).
Proof.
  intros Hn Hd. assert (Hpoly : st (polylineF (E := E) attrs)).
  { unfold polylineF, polyAttr, cGetPoints. ks; try (apply st_liftP; first [apply fr_getPoints|apply fr_fxpt]).
    apply (keeps_loop still still_refl still_trans). ks. apply st_liftP, fr_fxpt. }
  cbn in Hn. repeat (destruct Hn as [<-|Hn]; [injection Hd as <-|]); try destruct Hn.
  - unfold lineF. ks; try (apply st_liftP, fr_fxp). destruct l as [[[x y] w] h]. unfold lineAttr. ks.
  - unfold rectF. ks. destruct l as [[[[[x y] w] h] rx] ry]. unfold rectAttr. ks.
  - unfold circleF. ks; try (apply st_liftP, fr_ellipseAt). destruct l as [[[x y] w] h]. unfold circleAttr. ks.
  - unfold circleF. ks; try (apply st_liftP, fr_ellipseAt). destruct l as [[[x y] w] h]. unfold circleAttr. ks.
  - exact Hpoly.
  - unfold polygonF. ks.
  - unfold pathF. apply (keeps_mapM still still_refl still_trans). ks. apply st_liftP, fr_compilePath.
Qed.


(** ** The path operations append *)
Definition after (pre : path) (o : outcome path) : outcome path := obind o (fun p => Ret (pre ++ p)).
Lemma pLine_pre pre b p : pLine b (pre ++ p) = pre ++ pLine b p. Proof. unfold pLine. rewrite app_assoc. reflexivity. Qed.
Lemma pStart_pre pre b p : pStart b (pre ++ p) = pre ++ pStart b p. Proof. unfold pStart. rewrite app_assoc. reflexivity. Qed.
Lemma pCube_pre pre a b c p : pCube a b c (pre ++ p) = pre ++ pCube a b c p. Proof. unfold pCube. rewrite app_assoc. reflexivity. Qed.
Lemma pStop_pre pre l p : pStop l (pre ++ p) = pre ++ pStop l p. Proof. unfold pStop. destruct l; [rewrite app_assoc|]; reflexivity. Qed.
Lemma arcSegs_pre pre n : forall i (m : matrix E) a r t d al s l p, arcSegs n i m a r t d al s l (pre ++ p) = pre ++ arcSegs n i m a r t d al s l p.
Proof. induction n as [|n IH]; intros; cbn [arcSegs]; [reflexivity|]. unfold aCube. rewrite pCube_pre. apply IH. Qed.
Lemma gap_pre pre f (m : matrix E) a t l p : roundGap f m a t l (pre ++ p) = after pre (roundGap f m a t l p).
Proof.
  unfold roundGap, addCircArc, after. destruct (raise_angle _ _ _); cbn [obind]; try reflexivity.
  unfold aLine. rewrite pLine_pre, arcSegs_pre, pLine_pre. reflexivity.
Qed.
Lemma after_bind pre o (k : path -> outcome path) : (forall p, k (pre ++ p) = after pre (k p)) -> obind (after pre o) k = after pre (obind o k).
Proof. intros H. destruct o; try reflexivity. cbn. apply H. Qed.
Lemma round_pre pre f (x0 y0 x1 y1 rx ry rot : F E) p : addRoundRect f x0 y0 x1 y1 rx ry rot (pre ++ p) = after pre (addRoundRect f x0 y0 x1 y1 rx ry rot p).
Proof.
  unfold addRoundRect. destruct (_ || _).
  - unfold after, addRect, aStart, aLine. cbn [obind]. cbv zeta. rewrite pStart_pre, !pLine_pre, pStop_pre. reflexivity.
  - cbv zeta. unfold aStart, aLine. rewrite pStart_pre, pLine_pre, gap_pre.
    do 3 (apply after_bind; intros; rewrite pLine_pre, gap_pre). apply after_bind. intros. rewrite pStop_pre. reflexivity.
Qed.
Lemma ellSegs_pre pre n : forall i segs (ra rb ex ey cx cy s c e d al lx ly ldx ldy : F E) p,
  ellSegs n i segs ra rb ex ey cx cy s c e d al lx ly ldx ldy (pre ++ p)
  = let (q, l) := ellSegs n i segs ra rb ex ey cx cy s c e d al lx ly ldx ldy p in (pre ++ q, l).
Proof.
  induction n as [|n IH]; intros; cbn [ellSegs]; [reflexivity|].
  destruct (if (i =? segs)%Z then _ else _) as [px py]. destruct (ellipsePrime _ _ _ _ _) as [dx dy]. rewrite pCube_pre. apply IH.
Qed.
Lemma addArc_pre pre ps (cx cy px py : F E) p : addArc ps cx cy px py (pre ++ p) = obind (addArc ps cx cy px py p) (fun r => Ret (pre ++ fst r, snd r)).
Proof.
  unfold addArc. do 7 (destruct (idx ps _); cbn [obind]; try reflexivity). cbv zeta.
  destruct (ellipsePrime _ _ _ _ _) as [dx dy]. rewrite ellSegs_pre. destruct (ellSegs _ _ _ _ _ _ _ _ _ _ _ _ _ _ _ _ _ _ p) as [q l]. reflexivity.
Qed.

(** ** Two states with the same view box, offset and mode, one with [pre] before its path *)
Section Pre.
Context (pre : path).
Definition alike (b : bool) (c1 c2 : cursor) : Prop :=
  sv_viewBox (c_svg c1) = sv_viewBox (c_svg c2)
  /\ pc_curX (c_pc c1) = pc_curX (c_pc c2) /\ pc_curY (c_pc c1) = pc_curY (c_pc c2) /\ pc_mode (c_pc c1) = pc_mode (c_pc c2)
  /\ pc_path (c_pc c1) = pre ++ pc_path (c_pc c2) /\ (b = true -> pc_points (c_pc c1) = pc_points (c_pc c2)).
Definition al {A} (b b' : bool) (m : @C E A) : Prop := rel2 (alike b) (alike b') (alike b) m m.
Lemma alike_weak b c1 c2 : alike b c1 c2 -> alike false c1 c2.
Proof. unfold alike. intuition discriminate. Qed.
Lemma al_unit b s p : al b b (cParseUnit s p).
Proof. intros c1 c2 H. unfold cParseUnit. destruct H as (H1 & H2). rewrite H1. destruct (resolveUnit _ s p); cbn; unfold alike; auto. Qed.
Lemma al_bind {A B} b (m : @C E A) (k : A -> @C E B) : al b b m -> (forall a, al b b (k a)) -> al b b (bind m k).
Proof. intros H1 H2. eapply rel2_bind; eauto. Qed.
Lemma al_ret {A} b (a : A) : al b b (ret a). Proof. apply rel2_ret. Qed.
Lemma al_if {A} b (x : bool) (m n : @C E A) : al b b m -> al b b n -> al b b (if x then m else n).
Proof. destruct x; auto. Qed.
Lemma al_fold {A L} b (f : L -> A -> @C E L) xs l : (forall l a, al b b (f l a)) -> al b b (foldM f l xs).
Proof. intros H. apply rel2_foldM. exact H. Qed.
Lemma al_curXY b : al b b curXY.
Proof. apply rel2_gets. intros s t (_ & H1 & H2 & _). rewrite H1, H2. reflexivity. Qed.
Lemma al_cPoints : al true true cPoints.
Proof. apply rel2_gets. intros s t (_ & _ & _ & _ & _ & H). exact (H eq_refl). Qed.
Lemma al_onCPath b f : (forall p, f (pre ++ p) = pre ++ f p) -> al b b (onCPath f).
Proof.
  intros Hf c1 c2 (H1 & H2 & H3 & H4 & H5 & H6). cbn. split; [reflexivity|]. unfold alike. cbn. rewrite H5, Hf. auto 10.
Qed.
Lemma al_append b (f : path -> outcome path) : (forall p, f (pre ++ p) = after pre (f p)) ->
  al b b (p <- gets (fun c => pc_path (c_pc c));; p <- lift (f p);; onCPath (fun _ => p)).
Proof.
  intros Hf c1 c2 H. pose proof H as (H1 & H2 & H3 & H4 & H5 & H6). unfold bind, gets, lift, onCPath, liftP, modify. rewrite H5, Hf.
  destruct (f (pc_path (c_pc c2))); cbn; auto. unfold alike. cbn. auto 10.
Qed.
Lemma al_fxp b x y : al b b (liftP (fxp x y)).
Proof.
  intros c1 c2 H. pose proof H as (H1 & H2 & H3 & H4 & H5 & H6). cbn. unfold at_cur. rewrite H2, H3. split; [reflexivity|].
  destruct c1, c2; exact H.
Qed.
Lemma al_lift {A} b (o : outcome A) : al b b (lift o).
Proof. apply rel2_lift. auto. Qed.
Ltac aa := repeat first
  [ match goal with
    | |- forall _, al _ _ _ => intros ?
    | |- forall _ _, al _ _ _ => intros ? ?
    | |- al _ _ (ret _) => apply al_ret
    | |- al _ _ (lift _) => apply al_lift
    | |- al _ _ curXY => apply al_curXY
    | |- al _ _ (bind (gets (fun c => pc_path (c_pc c))) _) => apply al_append; intros; apply round_pre
    | |- al _ _ (bind _ _) => apply al_bind
    | |- al _ _ (if _ then _ else _) => apply al_if
    | |- al _ _ (match ?x with _ => _ end) => destruct x
    | |- al _ _ (let _ := _ in _) => cbv zeta
    | |- al _ _ (cParseUnit _ _) => apply al_unit
    | |- al _ _ (onCPath _) => apply al_onCPath; intros; auto using pStart_pre, pLine_pre, pStop_pre
    | |- al _ _ (foldM _ _ _) => apply al_fold
    | |- al _ _ (liftP (fxp _ _)) => apply al_fxp
    end ].
Lemma al_lineF b attrs : al b b (lineF attrs).
Proof. unfold lineF. aa. destruct l as [[[x y] w] h]. unfold lineAttr. aa. Qed.
Lemma al_rectF b fuel attrs : al b b (rectF fuel attrs).
Proof. unfold rectF. aa. destruct l as [[[[[x y] w] h] rx] ry]. unfold rectAttr. aa. Qed.
Lemma al_ellipseAt x y rx ry : al false false (liftP (ellipseAt x y rx ry)).
Proof.
  intros c1 c2 (H1 & H2 & H3 & H4 & H5 & H6). unfold liftP, ellipseAt, bind, modify, gets, lift, onPath. cbn -[addArc pStart pStop toFixedP].
  rewrite H5, pStart_pre, addArc_pre.
  destruct (addArc _ _ _ _ _ _) as [[p [lx ly]]|e| |]; cbn -[pStart pStop]; [split; [reflexivity|]|split; [reflexivity|]| |];
    unfold alike; cbn -[pStart pStop]; rewrite ?H5, ?pStart_pre, ?pStop_pre; intuition discriminate.
Qed.
Lemma al_circleF attrs : al false false (circleF attrs).
Proof. unfold circleF. aa; try apply al_ellipseAt. destruct l as [[[x y] w] h]. unfold circleAttr. aa. Qed.
Lemma poly_attr b a : rel2 (alike b) (alike (b || String.eqb (a_name a) "points")) (alike true) (polyAttr tt a) (polyAttr tt a).
Proof.
  unfold polyAttr, is. destruct (String.eqb (a_name a) "points") eqn:Hn.
  2:{ rewrite orb_false_r. apply rel2_ret. }
  rewrite orb_true_r. intros c1 c2 (H1 & H2 & H3 & H4 & H5 & _).
  unfold bind, attempt, cGetPoints, liftP, cPoints, gets. rewrite !getPoints_numbers.
  set (vs := fst (numbers (a_val a))). set (o := snd (numbers (a_val a))).
  assert (A : alike true (c_set_pc (set_points vs (c_pc c1)) c1) (c_set_pc (set_points vs (c_pc c2)) c2)).
  { unfold alike. cbn. auto 10. }
  destruct o as [[]|e| |]; cbn [pc_points c_pc c_set_pc set_points]; auto; destruct (negb _); cbn; auto.
Qed.
Lemma poly_fold attrs : forall b, rel2 (alike b) (alike (b || has_attr "points" attrs)) (alike true) (foldM polyAttr tt attrs) (foldM polyAttr tt attrs).
Proof.
  induction attrs as [|a attrs IH]; intros b; cbn [foldM has_attr existsb].
  - rewrite orb_false_r. apply rel2_ret.
  - eapply rel2_bind; [apply poly_attr|]. intros []. rewrite orb_assoc. apply IH.
Qed.
Lemma al_fxpt i : al true true (liftP (fxpt i)).
Proof.
  intros c1 c2 H. pose proof H as (H1 & H2 & H3 & H4 & H5 & H6). specialize (H6 eq_refl). unfold liftP, fxpt, fxp, bind, pnt, gets, at_cur.
  assert (A : alike true (c_set_pc (c_pc c1) c1) (c_set_pc (c_pc c2) c2)) by (destruct c1, c2; exact H).
  rewrite H6, H2, H3. destruct (idx (pc_points (c_pc c2)) i); auto. destruct (idx _ _); auto.
Qed.
Lemma al_polyline b attrs : b || has_attr "points" attrs = true -> rel2 (alike b) (alike true) (alike true) (polylineF attrs) (polylineF attrs).
Proof.
  intros Hp. unfold polylineF. eapply rel2_bind.
  { pose proof (poly_fold attrs b) as H. rewrite Hp in H. exact H. }
  intros []. change (al true true (ps <- cPoints;; (if 4 <? length ps
     then a <- liftP (fxpt 0);; onCPath (pStart a);; loop (length ps) 2 2 (length ps - 1) (fun i : nat => b <- liftP (fxpt i);; onCPath (pLine b))
     else ret tt))).
  aa; try apply al_cPoints; try apply al_fxpt.
  apply rel2_loop; [auto|]. intros i. change (al true true (b <- liftP (fxpt i);; onCPath (pLine b))). aa. apply al_fxpt.
Qed.
Lemma al_polygon b attrs : b || has_attr "points" attrs = true -> rel2 (alike b) (alike true) (alike true) (polygonF attrs) (polygonF attrs).
Proof.
  intros Hp. unfold polygonF. eapply rel2_bind.
  { intros c1 c2 H. pose proof (al_polyline b attrs Hp c1 c2 H) as K. unfold attempt.
    destruct (polylineF attrs c1) as [d1 [[]|e1| |]], (polylineF attrs c2) as [d2 [[]|e2| |]]; try contradiction; try exact K.
    - destruct K as [_ K]. split; [reflexivity|exact K].
    - destruct K as [-> K]. split; [reflexivity|exact K]. }
  intros err. change (al true true (ps <- cPoints;; (if 4 <? length ps then onCPath (pStop true) else ret tt);; match err with Some e => raise e | None => ret tt end)).
  aa; try apply al_cPoints. apply rel2_raise. auto.
Qed.
End Pre.
(** path data replaces what was there before *)
Lemma path_attr pre a : rel2 (alike pre false) (alike (if String.eqb (a_name a) "d" then [] else pre) false) (alike [] false)
  (if is a "d" then liftP (compilePath (a_val a)) else ret tt) (if is a "d" then liftP (compilePath (a_val a)) else ret tt).
Proof.
  unfold is. destruct (String.eqb (a_name a) "d"); [|apply rel2_ret].
  intros c1 c2 (H1 & H2 & H3 & H4 & H5 & H6). destruct (compilePath_history (a_val a) (c_pc c1) (c_pc c2) H2 H3 H4) as (K1 & K2 & _).
  pose proof (fr_compilePath (a_val a) (c_pc c1)) as F1. pose proof (fr_compilePath (a_val a) (c_pc c2)) as F2. unfold liftP.
  destruct (compilePath (a_val a) (c_pc c1)) as [p1 o1], (compilePath (a_val a) (c_pc c2)) as [p2 o2]. cbn [fst snd] in *. subst o2.
  destruct F1 as (X1 & X2 & X3), F2 as (Y1 & Y2 & Y3).
  assert (alike [] false (c_set_pc p1 c1) (c_set_pc p2 c2)).
  { unfold alike. cbn. repeat split; try congruence; discriminate. }
  destruct o1; auto.
Qed.
Lemma al_pathF attrs : forall pre, rel2 (alike pre false) (alike (if has_attr "d" attrs then [] else pre) false) (alike [] false) (pathF attrs) (pathF attrs).
Proof.
  unfold pathF. induction attrs as [|a attrs IH]; intros pre; cbn [mapM]; [apply rel2_ret|].
  eapply rel2_bind; [apply path_attr|]. intros []. cbn [has_attr existsb]. destruct (String.eqb (a_name a) "d"); [|apply IH].
  cbn [orb]. specialize (IH []). destruct (has_attr "d" attrs); exact IH.
Qed.
Lemma al_shape pre b fuel name df attrs : List.In name shape_names -> (name = "polyline" \/ name = "polygon" -> b || has_attr "points" attrs = true)%string ->
  drawFuncs fuel name = Some df -> forall c1 c2, alike pre b c1 c2 ->
  snd (df attrs c1) = snd (df attrs c2)
  /\ (snd (df attrs c2) = Ret tt -> pc_path (c_pc (fst (df attrs c1))) = joined name attrs pre (pc_path (c_pc (fst (df attrs c2))))).
Proof.
  intros Hn Hp Hd c1 c2 H.
  assert (fin : forall (pre' : path) b1 b2 (Q : cursor -> cursor -> Prop) (m : @C E unit), rel2 (alike pre b1) (alike pre' b2) Q m m -> alike pre b1 c1 c2 ->
     snd (m c1) = snd (m c2) /\ (snd (m c2) = Ret tt -> pc_path (c_pc (fst (m c1))) = pre' ++ pc_path (c_pc (fst (m c2))))).
  { intros pre' b1 b2 Q m Hm H'. specialize (Hm c1 c2 H'). destruct (m c1) as [d1 o1], (m c2) as [d2 o2]. cbn.
    destruct o1, o2; try contradiction; cbn in Hm.
    - destruct Hm as [-> Hm]. split; [reflexivity|]. intros _. apply Hm.
    - destruct Hm as [-> Hm]. split; [reflexivity|]. discriminate.
    - split; [reflexivity|]. discriminate.
    - split; [reflexivity|]. discriminate. }
  assert (Hw : alike pre false c1 c2) by (destruct H as (? & ? & ? & ? & ? & ?); unfold alike; intuition discriminate).
  cbn in Hn. repeat (destruct Hn as [<-|Hn]; [injection Hd as <-|]); try destruct Hn.
  - apply (fin _ _ _ _ _ (al_lineF pre false attrs) Hw).
  - apply (fin _ _ _ _ _ (al_rectF pre false fuel attrs) Hw).
  - apply (fin _ _ _ _ _ (al_circleF pre attrs) Hw).
  - apply (fin _ _ _ _ _ (al_circleF pre attrs) Hw).
  - apply (fin _ _ _ _ _ (al_polyline pre b attrs (Hp (or_introl eq_refl))) H).
  - apply (fin _ _ _ _ _ (al_polygon pre b attrs (Hp (or_intror eq_refl))) H).
  - unfold joined. cbn [String.eqb Ascii.eqb Bool.eqb andb].
    pose proof (fin _ _ _ _ _ (al_pathF attrs pre) Hw) as [K1 K2]. split; [exact K1|]. intros K. specialize (K2 K). destruct (has_attr "d" attrs); exact K2.
Qed.
End L.

(** * ProofsFuel: where the parser can run out of fuel, where it can panic

    [nf m]   [m] never runs out of fuel
    [fn m]   [m] neither runs out of fuel nor panics, in any state *)
From Coq Require Import Lia.
From Verif Require Export ProofsPath3 ProofsStyle2 Triples.
Local Open Scope go_scope.

Section NF.
Context {S : Type}.
Definition nf {A} (m : M S A) : Prop := forall s, snd (m s) <> NoFuel.
Definition fn {A} (m : M S A) : Prop := forall s, fine (snd (m s)).
Lemma fine_nf {A} (m : M S A) : fn m -> nf m.
Proof. intros H s. specialize (H s). destruct (snd (m s)); cbn in *; congruence || contradiction. Qed.
Lemma nf_ret {A} (a : A) : nf (ret a). Proof. intros s. discriminate. Qed.
Lemma nf_raise {A} e : nf (@raise S A e). Proof. intros s. discriminate. Qed.
Lemma nf_gets {A} (f : S -> A) : nf (gets f). Proof. intros s. discriminate. Qed.
Lemma nf_modify (f : S -> S) : nf (modify f). Proof. intros s. discriminate. Qed.
Lemma nf_lift {A} (o : outcome A) : o <> NoFuel -> nf (lift o). Proof. intros H s. exact H. Qed.
Lemma nf_bind {A B} (m : M S A) (k : A -> M S B) : nf m -> (forall a, nf (k a)) -> nf (bind m k).
Proof. intros Hm Hk s. unfold bind. specialize (Hm s). destruct (m s) as [t [a|e| |]]; cbn in *; [apply Hk|congruence..]. Qed.
Lemma nf_if {A} (b : bool) (m n : M S A) : nf m -> nf n -> nf (if b then m else n). Proof. destruct b; auto. Qed.
Lemma nf_attempt (m : M S unit) : nf m -> nf (attempt m).
Proof. intros Hm s. unfold attempt. specialize (Hm s). destruct (m s) as [t [a|e| |]]; cbn in *; congruence. Qed.
Lemma nf_deferred {A} f (m : M S A) : nf m -> nf (deferred f m).
Proof. intros Hm s. unfold deferred. specialize (Hm s). destruct (m s) as [t o]. exact Hm. Qed.
Lemma nf_mapM {A} (f : A -> M S unit) l : (forall a, nf (f a)) -> nf (mapM f l).
Proof. intros Hf. induction l; cbn [mapM]; auto using nf_ret, nf_bind. Qed.
Lemma nf_foldM {A L} (f : L -> A -> M S L) xs : forall l, (forall l a, nf (f l a)) -> nf (foldM f l xs).
Proof. induction xs; intros l Hf; cbn [foldM]; auto using nf_ret, nf_bind. Qed.
Lemma fn_ret {A} (a : A) : fn (ret a). Proof. intros s. exact I. Qed.
Lemma fn_raise {A} e : fn (@raise S A e). Proof. intros s. exact I. Qed.
Lemma fn_gets {A} (f : S -> A) : fn (gets f). Proof. intros s. exact I. Qed.
Lemma fn_modify (f : S -> S) : fn (modify f). Proof. intros s. exact I. Qed.
Lemma fn_lift {A} (o : outcome A) : fine o -> fn (lift o). Proof. intros H s. exact H. Qed.
Lemma fn_bind {A B} (m : M S A) (k : A -> M S B) : fn m -> (forall a, fn (k a)) -> fn (bind m k).
Proof. intros Hm Hk s. unfold bind. specialize (Hm s). destruct (m s) as [t [a|e| |]]; cbn in *; try tauto. apply Hk. Qed.
Lemma fn_if {A} (b : bool) (m n : M S A) : fn m -> fn n -> fn (if b then m else n). Proof. destruct b; auto. Qed.
Lemma fn_attempt (m : M S unit) : fn m -> fn (attempt m).
Proof. intros Hm s. unfold attempt. specialize (Hm s). destruct (m s) as [t [a|e| |]]; cbn in *; tauto. Qed.
Lemma fn_mapM {A} (f : A -> M S unit) l : (forall a, fn (f a)) -> fn (mapM f l).
Proof. intros Hf. induction l; cbn [mapM]; auto using fn_ret, fn_bind. Qed.
Lemma fn_foldM {A L} (f : L -> A -> M S L) xs : forall l, (forall l a, fn (f l a)) -> fn (foldM f l xs).
Proof. induction xs; intros l Hf; cbn [foldM]; auto using fn_ret, fn_bind. Qed.
End NF.

(** outcomes of pure functions *)
Definition onf {A} (o : outcome A) : Prop := o <> NoFuel.
Lemma onf_bind {A B} (o : outcome A) (k : A -> outcome B) : onf o -> (forall a, onf (k a)) -> onf (obind o k).
Proof. unfold onf. intros H K. destruct o; cbn; [apply K|congruence..]. Qed.
Lemma onf_fine {A} (o : outcome A) : fine o -> onf o. Proof. unfold onf. destruct o; cbn; congruence || tauto. Qed.
Lemma fine_obind {A B} (o : outcome A) (k : A -> outcome B) : fine o -> (forall a, fine (k a)) -> fine (obind o k).
Proof. intros H K. destruct o; cbn in *; try tauto. apply K. Qed.
Ltac pure := repeat match goal with
  | |- forall _, onf _ => intros ?
  | |- onf (obind _ _) => apply onf_bind
  | |- onf (Ret _) => discriminate
  | |- onf (Err _) => discriminate
  | |- onf Panic => discriminate
  | |- onf (if ?b then _ else _) => destruct b
  | |- onf (match ?x with _ => _ end) => destruct x
  | |- onf (let _ := _ in _) => cbv zeta
  end.

Section Leaf.
Context {E : Env}.
Notation cursor := (cursor E).
Notation pcur := (pcur E).
Lemma onf_slice s a b : onf (slice s a b). Proof. unfold slice. pure. Qed.
Lemma onf_byteat s i : onf (byteat s i). Proof. unfold byteat. pure. Qed.
Lemma onf_idx {A} (l : list A) i : onf (idx l i). Proof. unfold idx. pure. Qed.
Lemma fine_parseUnit s : fine (parseUnit (E := E) s).
Proof. unfold parseUnit. destruct (findUnit s). destruct (parseFloat E s0); exact I. Qed.
Lemma fine_resolveUnit vb s p : fine (resolveUnit (E := E) vb s p).
Proof. unfold resolveUnit. apply fine_obind; [apply fine_parseUnit|]. intros [v []]; [destruct p|]; exact I. Qed.
Lemma fine_parseBasicFloat s : fine (parseBasicFloat (E := E) s).
Proof. unfold parseBasicFloat. apply fine_obind; [apply fine_parseUnit|]. intros []; exact I. Qed.
Lemma fine_readFraction s : fine (readFraction (E := E) s).
Proof.
  unfold readFraction. destruct (hasSuffix (trimSpace s) "%"); (apply fine_obind; [apply fine_parseBasicFloat|intros; exact I]).
Qed.
Lemma fine_readTransformAttr m k ps : fine (readTransformAttr (E := E) m k ps).
Proof. unfold readTransformAttr. repeat match goal with |- fine (if ?b then _ else _) => destruct b | |- fine (match ?x with _ => _ end) => destruct x end; exact I. Qed.
Lemma onf_parseSVGColor s : onf (parseSVGColor (E := E) s).
Proof.
  unfold parseSVGColor, parseSVGColorNum, parseColorValue, atoi, parseUint16_8. pure; try apply onf_slice; try apply onf_byteat; pure.
Qed.
Lemma fine_slice1 v : hasPrefix v "#" = true -> fine (slice v 1 (String.length v)).
Proof. intros H. apply prefix_iff in H as (r & ->). rewrite slice_tail; [exact I|reflexivity|]. rewrite len_app. reflexivity. Qed.
Lemma index_ge s i : hasPrefix s "url(" = true -> String.index 0 ")" s = Some i -> 4 <= i <= String.length s.
Proof.
  intros H Hi. apply prefix_iff in H as (r & ->). 
  pose proof (String.index_correct1 _ _ _ _ Hi) as H1. 
  assert (Hn : String.get i ("url(" ++ r) = Some ")"%char).
  { clear Hi. revert H1. generalize ("url(" ++ r)%string. induction i; intros [|x s]; cbn; try discriminate.
    - intros H. injection H as ->. reflexivity.
    - apply IHi. }
  clear H1 Hi. split.
  - do 4 (destruct i as [|i]; [discriminate|]). lia.
  - revert Hn. generalize ("url(" ++ r)%string. intros s. revert i. induction s; intros [|i]; cbn; try discriminate; try lia. intros Hs. apply IHs in Hs. lia.
Qed.
Lemma fine_parseSelector v : fine (parseSelector v).
Proof.
  unfold parseSelector. destruct (_ || _); [exact I|]. destruct (hasPrefix v "url(") eqn:Hp; [|exact I].
  destruct (String.index 0 ")" v) as [i|] eqn:Hi; [|exact I]. apply (index_ge _ _ Hp) in Hi as [H1 H2].
  unfold slice. rewrite (proj2 (Nat.leb_le 4 i)), (proj2 (Nat.leb_le i _)) by assumption. cbn [andb obind].
  set (w := String.substring 4 (i - 4) v). destruct (hasPrefix w "#") eqn:Hh; cbn [negb]; [|exact I]. 
  change (fine (slice w 1 (String.length w))). apply fine_slice1, Hh.
Qed.

Lemma fn_liftP {A} (m : M pcur A) : fn m -> fn (liftP m).
Proof. intros H c. unfold liftP. specialize (H (c_pc c)). destruct (m (c_pc c)). exact H. Qed.
Lemma fn_cParseUnit s p : fn (cParseUnit (E := E) s p). Proof. intros c. apply fine_resolveUnit. Qed.
Lemma fn_handleError s : fn (handleError (E := E) s).
Proof. unfold handleError. apply fn_bind; [apply fn_gets|]. intros []; [apply fn_ret|apply fn_liftP, fn_modify|apply fn_raise]. Qed.
Lemma fn_getPoints s : fn (liftP (getPoints (E := E) s)). Proof. apply fn_liftP. intros c. apply getPoints_fine. Qed.
Ltac fs := repeat first
  [ assumption
  | match goal with
    | |- forall _, fn _ => intros ?
    | |- forall _ _, fn _ => intros ? ?
    | |- fn (ret _) => apply fn_ret
    | |- fn (raise _) => apply fn_raise
    | |- fn (gets _) => apply fn_gets
    | |- fn (modify _) => apply fn_modify
    | |- fn (onSvg _) => apply fn_modify
    | |- fn (onCPath _) => apply fn_liftP, fn_modify
    | |- fn (cParseUnit _ _) => apply fn_cParseUnit
    | |- fn (handleError _) => apply fn_handleError
    | |- fn (liftP (getPoints _)) => apply fn_getPoints
    | |- fn (cGetPoints _) => apply fn_getPoints
    | |- fn cPoints => apply fn_gets
    | |- fn curXY => apply fn_gets
    | |- fn (liftP (fxp _ _)) => apply fn_liftP, fn_gets
    | |- fn (lift (parseBasicFloat _)) => apply fn_lift, fine_parseBasicFloat
    | |- fn (lift (readFraction _)) => apply fn_lift, fine_readFraction
    | |- fn (lift (readTransformAttr _ _ _)) => apply fn_lift, fine_readTransformAttr
    | |- fn (lift (parseSelector _)) => apply fn_lift, fine_parseSelector
    | |- fn (lift (resolveUnit _ _ _)) => apply fn_lift, fine_resolveUnit
    | |- fn (foldM _ _ _) => apply fn_foldM
    | |- fn (mapM _ _) => apply fn_mapM
    | |- fn (attempt _) => apply fn_attempt
    | |- fn (bind _ _) => apply fn_bind
    | |- fn (if _ then _ else _) => apply fn_if
    | |- fn (match ?x with _ => _ end) => destruct x
    | |- fn (let _ := _ in _) => cbv zeta
    end ].
Lemma fn_transformStep m t : fn (transformStep (E := E) m t).
Proof. unfold transformStep. fs. Qed.
Lemma fn_parseDashes l : fn (parseDashes (E := E) l).
Proof. induction l; cbn [parseDashes]; fs. Qed.
Lemma fn_appendStr s id : fn (appendStr (E := E) s id).
Proof. intros c. unfold appendStr. destruct (_ <? _); exact I. Qed.
Lemma nf_topStyle : nf (topStyle (E := E)). Proof. intros c. unfold topStyle. destruct (c_stack c); discriminate. Qed.
Lemma nf_popStyle : nf (popStyle (E := E)). Proof. intros c. unfold popStyle. destruct (c_stack c); discriminate. Qed.
Ltac ns := repeat first
  [ assumption
  | match goal with
    | |- forall _, nf _ => intros ?
    | |- forall _ _, nf _ => intros ? ?
    | |- nf (ret _) => apply nf_ret
    | |- nf (raise _) => apply nf_raise
    | |- nf (gets _) => apply nf_gets
    | |- nf (modify _) => apply nf_modify
    | |- nf (onSvg _) => apply nf_modify
    | |- nf topStyle => apply nf_topStyle
    | |- nf popStyle => apply nf_popStyle
    | |- nf (lift (parseSVGColor _)) => apply nf_lift, onf_parseSVGColor
    | |- nf (lift (slice _ _ _)) => apply nf_lift, onf_slice
    | |- nf (lift (idx _ _)) => apply nf_lift, onf_idx
    | |- nf (foldM _ _ _) => apply nf_foldM
    | |- nf (attempt _) => apply nf_attempt
    | |- nf (cParseUnit _ _) => apply fine_nf; fs
    | |- nf (handleError _) => apply fine_nf; fs
    | |- nf (lift (parseBasicFloat _)) => apply fine_nf; fs
    | |- nf (lift (readFraction _)) => apply fine_nf; fs
    | |- nf (lift (resolveUnit _ _ _)) => apply fine_nf; fs
    | |- nf (lift (parseSelector _)) => apply fine_nf; fs
    | |- nf (parseDashes _) => apply fine_nf, fn_parseDashes
    | |- nf (appendStr _ _) => apply fine_nf, fn_appendStr
    | |- nf (transformStep _ _) => apply fine_nf, fn_transformStep
    | |- nf (bind _ _) => apply nf_bind
    | |- nf (if _ then _ else _) => apply nf_if
    | |- nf (match ?x with _ => _ end) => destruct x
    | |- nf (let _ := _ in _) => cbv zeta
    end ].
Lemma nf_parseTransform v : nf (parseTransform (E := E) v). Proof. unfold parseTransform. ns. Qed.
Lemma nf_readGradURL v d : nf (readGradURL (E := E) v d). Proof. unfold readGradURL. ns. Qed.
Lemma nf_readStyleAttr st k v : nf (readStyleAttr (E := E) st k v).
Proof. unfold readStyleAttr. ns; try apply nf_readGradURL. apply nf_parseTransform. Qed.
Lemma nf_pushStyle attrs : nf (pushStyle (E := E) attrs).
Proof. unfold pushStyle, stylePair. ns. apply nf_readStyleAttr. Qed.
Lemma nf_onGrad f : nf (onGrad (E := E) f).
Proof. intros c. unfold onGrad. destruct (c_grad c); [|discriminate]. destruct (nth_error _ _); discriminate. Qed.
Lemma nf_theGrad : nf (theGrad (E := E)). Proof. intros c. unfold theGrad. destruct (c_grad c); [apply onf_idx|discriminate]. Qed.
Lemma nf_registerGrad id : nf (registerGrad (E := E) id). Proof. intros c. unfold registerGrad. destruct (c_grad c); discriminate. Qed.
Lemma nf_readGradAttr a : nf (readGradAttr (E := E) a).
Proof. unfold readGradAttr. ns; try apply nf_onGrad. apply nf_parseTransform. Qed.
Lemma nf_linearGradientF attrs : nf (linearGradientF (E := E) attrs).
Proof. unfold linearGradientF, newGrad, linAttr. ns; try apply nf_registerGrad; try apply nf_readGradAttr; try apply nf_theGrad; apply nf_onGrad. Qed.
Lemma nf_radialGradientF attrs : nf (radialGradientF (E := E) attrs).
Proof. unfold radialGradientF, newGrad, radAttr. ns; try apply nf_registerGrad; try apply nf_readGradAttr; try apply nf_theGrad; apply nf_onGrad. Qed.
Lemma nf_stopF attrs : nf (stopF (E := E) attrs).
Proof. unfold stopF, stopAttr. ns. apply nf_onGrad. Qed.
Lemma nf_collectPath : nf (collectPath (E := E)).
Proof. unfold collectPath, onCPath. ns; apply fine_nf; fs; apply fn_liftP, fn_modify. Qed.

(** ** Shapes *)
Lemma fine_addArc p0 p1 p2 p3 p4 p5 p6 cx cy px py p : fine (addArc (E := E) [p0; p1; p2; p3; p4; p5; p6] cx cy px py p).
Proof. unfold addArc. cbn [idx nth_error obind]. cbv zeta. destruct (ellipsePrime _ _ _ _ _). exact I. Qed.
Lemma fn_ellipseAt cx cy rx ry : fn (ellipseAt (E := E) cx cy rx ry).
Proof.
  unfold ellipseAt. apply fn_bind; [apply fn_modify|]. intros _. apply fn_bind; [apply fn_gets|]. intros c. cbv zeta.
  apply fn_bind; [apply fn_modify|]. intros _. apply fn_bind; [apply fn_modify|]. intros _. apply fn_bind; [apply fn_gets|]. intros c1.
  apply fn_bind; [apply fn_lift, fine_addArc|]. intros [p [lx ly]]. apply fn_bind; apply fn_modify || (intros; apply fn_modify).
Qed.
Lemma fn_circleF attrs : fn (circleF (E := E) attrs).
Proof. unfold circleF, circleAttr. fs. apply fn_liftP, fn_ellipseAt. Qed.
Lemma fn_lineF attrs : fn (lineF (E := E) attrs).
Proof. unfold lineF, lineAttr. fs. Qed.
Lemma fn_pathF attrs : fn (pathF (E := E) attrs).
Proof. unfold pathF. fs. apply fn_liftP. intros c. apply compilePath_fine. Qed.
Lemma fn_svgF attrs : fn (svgF (E := E) attrs).
Proof. unfold svgF, svgAttr. fs. Qed.
Lemma fn_maskF attrs : fn (maskF (E := E) attrs).
Proof. unfold maskF, maskAttr. fs. Qed.
(** the loop over the points: they do not change in it *)
Definition has (n : nat) (c : cursor) : Prop := List.length (pc_points (c_pc c)) = n.
Definition Wf (o : outcome unit) (c : cursor) : Prop := fine o.
Lemma tri_fxpt n i : i + 1 < n -> tri (has n) (liftP (fxpt (E := E) i)) (fun _ => has n) Wf.
Proof.
  intros Hi c Hc. unfold liftP, fxpt, bind, pnt, idx. unfold has in Hc.
  destruct (nth_error (pc_points (c_pc c)) i) eqn:H1; [|apply nth_error_None in H1; lia].
  destruct (nth_error (pc_points (c_pc c)) (i + 1)) eqn:H2; [|apply nth_error_None in H2; lia].
  unfold fxp, gets. exact Hc.
Qed.
Lemma tri_onCPath n f : tri (has n) (onCPath (E := E) f) (fun _ => has n) Wf.
Proof. intros c Hc. exact Hc. Qed.
Lemma tri_polyLoop n fuel : forall i, n - 1 <= i + fuel ->
  tri (has n) (loop fuel i 2 (n - 1) (fun i => b <- liftP (fxpt (E := E) i) ;; onCPath (pLine b))) (fun _ => has n) Wf.
Proof.
  induction fuel as [|fuel IH]; intros i Hi; cbn [loop].
  - destruct (Nat.ltb_spec i (n - 1)); [lia|]. apply tri_ret. auto.
  - destruct (Nat.ltb_spec i (n - 1)); [|apply tri_ret; auto].
    eapply (tri_bind _ _ _ (fun _ => has n)). 2:{ intros []. apply IH. lia. }
    eapply (tri_bind _ _ _ (fun _ => has n)). { apply tri_fxpt. lia. } intros b. apply tri_onCPath.
Qed.
Lemma fn_polylineF attrs : fn (polylineF (E := E) attrs).
Proof.
  unfold polylineF. apply fn_bind. { unfold polyAttr. fs. } intros [].
  intros c. unfold bind at 1. unfold cPoints at 1, gets.
  remember (List.length (pc_points (c_pc c))) as n eqn:Hn. destruct (Nat.ltb_spec 4 n); [|exact I].
  assert (T : tri (has n) (a <- liftP (fxpt (E := E) 0) ;; onCPath (pStart a) ;; loop n 2 2 (n - 1) (fun i => b <- liftP (fxpt (E := E) i) ;; onCPath (pLine b))) (fun _ => has n) Wf).
  { eapply (tri_bind _ _ _ (fun _ => has n)). { apply tri_fxpt. lia. } intros a.
    eapply (tri_bind _ _ _ (fun _ => has n)). { apply tri_onCPath. } intros []. apply tri_polyLoop. lia. }
  specialize (T c (eq_sym Hn)). match goal with |- fine (snd ?x) => set (y := x) in *; change (match y with (t, Ret a) => (fun _ => has n) a t | (t, Err e) => Wf (Err e) t | (t, Panic) => Wf Panic t | (t, NoFuel) => Wf NoFuel t end) in T; clearbody y end.
  destruct y as [t [a|e| |]]; exact I || exact T.
Qed.
Lemma fn_polygonF attrs : fn (polygonF (E := E) attrs).
Proof. unfold polygonF. fs. apply fn_polylineF. Qed.

(** the angle loop of a rounded rectangle ends: [k] turns are enough *)
Definition turns (k : nat) : Prop := forall y1 x1 y2 x2 fuel, k <= fuel -> onf (raise_angle (E := E) fuel (fatan2 E y1 x1) (fatan2 E y2 x2)).
Lemma raise_no_panic fuel : forall a b, raise_angle (E := E) fuel a b <> Panic.
Proof. induction fuel; intros a b; cbn [raise_angle]; destruct (fltb E a b); try discriminate. apply IHfuel. Qed.
Lemma raise_no_err fuel : forall a b e, raise_angle (E := E) fuel a b <> Err e.
Proof. induction fuel; intros a b e; cbn [raise_angle]; destruct (fltb E a b); try discriminate. apply IHfuel. Qed.
Context (k : nat) (Hturns : turns k).
Lemma fine_roundGap fuel m a t l p : k <= fuel -> fine (roundGap (E := E) fuel m a t l p).
Proof.
  intros Hk. unfold roundGap, addCircArc. apply fine_obind; [|intros; exact I]. apply fine_obind; [|intros; exact I].
  pose proof (fun y1 x1 y2 x2 => Hturns y1 x1 y2 x2 fuel Hk) as H.
  match goal with |- fine (raise_angle _ (fatan2 E ?y1 ?x1) (fatan2 E ?y2 ?x2)) => specialize (H y1 x1 y2 x2); pose proof (raise_no_panic fuel (fatan2 E y1 x1) (fatan2 E y2 x2)) as H1 end.
  unfold onf in H. destruct (raise_angle _ _ _); cbn; congruence || exact I.
Qed.
Lemma fn_rectF fuel attrs : k <= fuel -> fn (rectF (E := E) fuel attrs).
Proof.
  intros Hk. unfold rectF, rectAttr. fs. apply fn_lift. unfold addRoundRect. destruct (_ || _); [exact I|]. cbv zeta.
  repeat (apply fine_obind; [apply fine_roundGap, Hk|intros ?]). exact I.
Qed.
(** every element but use, gradients and stops *)
Lemma fn_drawFunc fuel name df attrs : k <= fuel -> drawFunc (E := E) fuel name = Some df ->
  name <> "stop"%string -> name <> "linearGradient"%string -> name <> "radialGradient"%string -> fn (df attrs).
Proof.
  unfold drawFunc. intros Hk H N1 N2 N3. apply String.eqb_neq in N1, N2, N3. rewrite N1, N2, N3 in H.
  repeat match type of H with (if ?b then _ else _) = _ => destruct b; [injection H as <-|] end; try discriminate.
  - apply fn_svgF. - apply fn_ret. - apply fn_lineF. - apply fn_rectF, Hk. - apply fn_circleF. - apply fn_circleF.
  - apply fn_polylineF. - apply fn_polygonF. - apply fn_pathF. - intros c. exact I. - intros c. exact I. - intros c. exact I. - apply fn_maskF.
Qed.
Lemma nf_drawFunc fuel name df attrs : k <= fuel -> drawFunc (E := E) fuel name = Some df -> nf (df attrs).
Proof.
  intros Hk H. destruct (String.eqb_spec name "stop") as [->|N1]. { injection H as <-. apply nf_stopF. }
  destruct (String.eqb_spec name "linearGradient") as [->|N2]. { injection H as <-. apply nf_linearGradientF. }
  destruct (String.eqb_spec name "radialGradient") as [->|N3]. { injection H as <-. apply nf_radialGradientF. }
  apply fine_nf. eapply fn_drawFunc; eassumption.
Qed.
End Leaf.

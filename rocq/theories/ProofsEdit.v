(** * ProofsEdit: documents in which some shapes were replaced by others *)
From Coq Require Import Lia.
From Verif Require Import ProofsPath4 ProofsShape ProofsMode ProofsKeep ProofsFlags ProofsFrame ProofsErase ProofsOrder3.
From Verif Require Export SpecEdit.
Local Open Scope go_scope.

Section Edit.
Context {E : Env}.
Notation cursor := (cursor E).
Notation style := (style E).
Notation svg := (svg E).
Notation C := (@C E).

(** ** The path cursor: what the numbers of earlier elements left behind does not matter *)
Definition Lpc (b : bool) (p q : pcur E) : Prop :=
  pc_curX p = pc_curX q /\ pc_curY p = pc_curY q /\ pc_mode p = pc_mode q /\ pc_path p = pc_path q /\ (b = true -> pc_points p = pc_points q).
Lemma Lpc_weak b p q : Lpc b p q -> Lpc false p q. Proof. unfold Lpc. intuition discriminate. Qed.

Definition pdef (d : definition) : Prop := has_points (d_tag d) (d_attrs d).
Definition pdefs (m : smap (list definition)) : Prop := Forall (fun kv => Forall pdef (snd kv)) m.

Section Rel.
Context (A X Y : list (svgPath E)).
Inductive Lc (b : bool) : cursor -> cursor -> Prop :=
| lc p q B vb ti de tr ms w h gr df mh st g gh b1 b2 b3 b4 b5 d m : Lpc b p q -> pdefs df -> Forall pdef d ->
    Lc b (mkCur p (mkSvg vb ti de (A ++ X ++ B) tr ms w h gr df mh) st g gh b1 b2 b3 b4 b5 d m)
         (mkCur q (mkSvg vb ti de (A ++ Y ++ B) tr ms w h gr df mh) st g gh b1 b2 b3 b4 b5 d m).
Ltac lcase := intros ? ? [zp zq zB zvb zti zde ztr zms zw zh zgr zdf zmh zst zg zgh zb1 zb2 zb3 zb4 zb5 zd zm HP HD Hd].
Lemma Lc_weak b c1 c2 : Lc b c1 c2 -> Lc false c1 c2.
Proof. intros []. constructor; auto. eapply Lpc_weak; eassumption. Qed.
Notation al b b' m := (rel2 (Lc b) (Lc b') (Lc false) m m).
Notation self m := (al false false m).
Lemma l_bind {T U} b b' b'' (m : C T) (k : T -> C U) : al b b' m -> (forall a, al b' b'' (k a)) -> al b b'' (bind m k).
Proof. intros. eapply rel2_bind; eauto. Qed.
Lemma l_lift {T} b (o : outcome T) : al b b (lift o). Proof. apply rel2_lift. apply Lc_weak. Qed.
Lemma l_raise {T} b b' e : al b b' (@raise _ T e). Proof. apply rel2_raise. apply Lc_weak. Qed.
Lemma l_nofuel {T} b b' : al b b' (@nofuel _ T). Proof. apply rel2_nofuel. apply Lc_weak. Qed.
Lemma l_ret {T} (b b' : bool) (a : T) : (b' = true -> b = true) -> al b b' (ret a).
Proof. intros H c1 c2 Hc. cbn. split; [reflexivity|]. destruct b'; [rewrite H in Hc by reflexivity; exact Hc|eapply Lc_weak; exact Hc]. Qed.
Lemma l_attempt b (m : C unit) : al b b m -> rel2 (Lc b) (Lc false) (Lc false) (attempt m) (attempt m).
Proof.
  intros Hm c1 c2 H. specialize (Hm c1 c2 H). unfold attempt.
  destruct (m c1) as [t1 [a|e| |]], (m c2) as [t2 [b'|e'| |]]; try contradiction; try exact Hm; destruct Hm as [H1 H2]; subst; split; auto. eapply Lc_weak; exact H2.
Qed.
Lemma l_liftP {T} b b' b'' (m : M (pcur E) T) : rel2 (Lpc b) (Lpc b') (Lpc b'') m m -> rel2 (Lc b) (Lc b') (Lc b'') (liftP m) (liftP m).
Proof.
  intros Hm. lcase. specialize (Hm zp zq HP). unfold liftP. cbn [c_pc].
  destruct (m zp) as [t1 [a|e| |]], (m zq) as [t2 [a'|e'| |]]; try contradiction; try (destruct Hm as [<- Hm]; split; [reflexivity|]); constructor; auto.
Qed.
Lemma p_getPoints b v : rel2 (Lpc b) (Lpc true) (Lpc true) (getPoints v) (getPoints v).
Proof.
  intros p q (H1 & H2 & H3 & H4 & _). rewrite !getPoints_numbers. set (vs := fst (numbers v)). destruct (snd (numbers v)) as [[]|e| |]; try (split; [reflexivity|]); repeat split; auto.
Qed.
Lemma p_getPoints' b v : rel2 (Lpc b) (Lpc true) (Lpc false) (getPoints v) (getPoints v).
Proof. eapply rel2_weaken; [apply (p_getPoints b)|auto|auto|apply Lpc_weak]. Qed.
Lemma p_onPath b Q f : rel2 (Lpc b) (Lpc b) Q (onPath f) (onPath f).
Proof. intros p q (H1 & H2 & H3 & H4 & H5). cbn. split; [reflexivity|]. repeat split; auto. cbn. rewrite H4. reflexivity. Qed.
Lemma p_fxp b Q x y : rel2 (Lpc b) (Lpc b) Q (fxp x y) (fxp x y).
Proof. intros p q H. pose proof H as (H1 & H2 & H3 & H4 & H5). cbn. unfold at_cur. rewrite H1, H2. auto. Qed.
Lemma p_fxpt i : rel2 (Lpc true) (Lpc true) (Lpc true) (fxpt i) (fxpt i).
Proof.
  intros p q H. pose proof H as (H1 & H2 & H3 & H4 & H5). specialize (H5 eq_refl). unfold fxpt, fxp, bind, pnt, gets, at_cur.
  rewrite H5, H1, H2. destruct (idx (pc_points q) i); auto. destruct (idx _ _); auto.
Qed.
Lemma p_ellipseAt x y rx ry : rel2 (Lpc false) (Lpc false) (Lpc false) (ellipseAt x y rx ry) (ellipseAt x y rx ry).
Proof.
  intros p q (H1 & H2 & H3 & H4 & _). unfold ellipseAt, bind, modify, gets, lift, onPath. cbn -[addArc pStart pStop toFixedP]. rewrite H4.
  destruct (addArc _ _ _ _ _ _) as [[r [lx ly]]|e| |]; cbn -[pStart pStop]; try (split; [reflexivity|]); unfold Lpc; cbn -[pStart pStop]; rewrite ?H4; intuition discriminate.
Qed.
Lemma p_compilePath v : rel2 (Lpc false) (Lpc false) (Lpc false) (compilePath v) (compilePath v).
Proof.
  intros p q (H1 & H2 & H3 & H4 & _). destruct (compilePath_history v p q H1 H2 H3) as (K1 & K2 & _).
  pose proof (fr_compilePath v p) as F1. pose proof (fr_compilePath v q) as F2.
  destruct (compilePath v p) as [t1 o1], (compilePath v q) as [t2 o2]. cbn [fst snd] in *. subst o2. destruct F1 as (X1 & X2 & X3), F2 as (Y1 & Y2 & Y3).
  assert (Lpc false t1 t2) by (repeat split; try congruence; discriminate). destruct o1; auto.
Qed.
Lemma p_println s : rel2 (Lpc false) (Lpc false) (Lpc false) (println s) (println s).
Proof. intros p q (H1 & H2 & H3 & H4 & _). cbn. split; [reflexivity|]. repeat split; auto. discriminate. Qed.
Lemma l_cParseUnit b s u : al b b (cParseUnit s u).
Proof. lcase. unfold cParseUnit. cbn [c_svg sv_viewBox]. destruct (resolveUnit _ s u); try (split; [reflexivity|]); constructor; auto; eapply Lpc_weak; eassumption. Qed.
Lemma l_gets {T} b (f : cursor -> T) : (forall s t, Lc b s t -> f s = f t) -> al b b (gets f). Proof. apply rel2_gets. Qed.
Lemma l_modify b b' f : (forall s t, Lc b s t -> Lc b' (f s) (f t)) -> al b b' (modify f). Proof. apply rel2_modify. Qed.
Lemma l_points : al true true (gets (fun c : cursor => pc_points (c_pc c))).
Proof. apply l_gets. lcase. cbn. apply HP. reflexivity. Qed.
Lemma l_curXY b : al b b curXY. Proof. apply l_gets. lcase. cbn. destruct HP as (-> & -> & _). reflexivity. Qed.
Lemma l_path b : al b b (gets (fun c : cursor => pc_path (c_pc c))). Proof. apply l_gets. lcase. cbn. apply HP. Qed.
Lemma l_topStyle b : al b b topStyle. Proof. lcase. unfold topStyle. cbn. destruct zst; try (split; [reflexivity|]); constructor; auto. eapply Lpc_weak; eassumption. Qed.
Lemma l_popStyle : self popStyle. Proof. lcase. unfold popStyle. cbn. destruct zst; try (split; [reflexivity|]); constructor; auto. Qed.
Ltac step1 :=
  match goal with
  | |- forall _, rel2 _ _ _ _ _ => intros ?
  | |- rel2 _ _ _ (ret _) _ => apply l_ret; auto; discriminate
  | |- rel2 _ _ _ (raise _) _ => apply l_raise
  | |- rel2 _ _ _ (lift _) _ => apply l_lift
  | |- rel2 _ _ _ nofuel _ => apply l_nofuel
  | |- rel2 _ _ _ (if _ then _ else _) _ => apply rel2_if
  | |- rel2 _ _ _ (loop _ _ _ _ _) _ => apply rel2_loop; [apply Lc_weak|]; intros
  | |- rel2 _ _ _ (foldM _ _ _) _ => apply rel2_foldM; intros
  | |- rel2 _ _ _ (mapM _ _) _ => apply rel2_mapM; intros
  | |- rel2 _ _ _ (attempt _) _ => apply l_attempt
  | |- rel2 _ _ _ (liftP (compilePath _)) _ => apply l_liftP, p_compilePath
  | |- rel2 _ _ _ (liftP (fxp _ _)) _ => apply l_liftP, p_fxp
  | |- rel2 _ _ _ (liftP (ellipseAt _ _ _ _)) _ => apply l_liftP, p_ellipseAt
  | |- rel2 _ _ _ (liftP (println _)) _ => apply l_liftP, p_println
  | |- rel2 _ _ _ (liftP (getPoints _)) _ => apply l_liftP, p_getPoints'
  | |- rel2 _ _ _ (onCPath _) _ => apply l_liftP, p_onPath
  | |- rel2 _ _ _ cPoints _ => apply l_points
  | |- rel2 _ _ _ (gets (fun c => pc_points (c_pc c))) _ => apply l_points
  | |- rel2 _ _ _ (gets (fun c => pc_path (c_pc c))) _ => apply l_path
  | |- rel2 _ _ _ curXY _ => apply l_curXY
  | |- rel2 _ _ _ topStyle _ => apply l_topStyle
  | |- rel2 _ _ _ popStyle _ => apply l_popStyle
  | |- rel2 _ _ _ (cParseUnit _ _) _ => apply l_cParseUnit
  | |- rel2 _ _ _ (bind (liftP (getPoints _)) _) _ => apply (l_bind _ true)
  | |- rel2 _ _ _ (bind (gets (fun c => pc_points (c_pc c))) _) _ => apply (l_bind _ true)
  | |- rel2 _ _ _ (bind _ _) _ => apply (l_bind _ false)
  | |- rel2 _ _ _ (match ?x with _ => _ end) _ => destruct x
  | |- rel2 _ _ _ (let _ := _ in _) _ => cbv zeta
  end.
Lemma l_get {T} (k : cursor -> C T) b b' : (forall c1 c2, Lc b c1 c2 -> rel2 (fun s t => s = c1 /\ t = c2) (Lc b') (Lc false) (k c1) (k c2)) -> al b b' (bind (gets (fun c => c)) k).
Proof. intros H c1 c2 Hc. unfold bind, gets. apply (H c1 c2 Hc). auto. Qed.
Lemma l_exact {T} b b' c1 c2 (m : C T) : Lc b c1 c2 -> al b b' m -> rel2 (fun s t => s = c1 /\ t = c2) (Lc b') (Lc false) m m.
Proof. intros Hc Hm s t [-> ->]. apply Hm, Hc. Qed.
Lemma l_handleError msg : self (handleError msg).
Proof. unfold handleError. eapply l_bind; [apply l_gets; lcase; cbn; apply HP|]. intros []; repeat step1. Qed.
Lemma l_readGradURL v d : self (readGradURL v d).
Proof.
  unfold readGradURL. apply rel2_if; [|step1]. eapply l_bind; [step1|]. intros s. cbv zeta. apply rel2_if; [|step1]. eapply l_bind; [step1|]. intros id.
  apply l_get. intros c1 c2 Hc. assert (H : sv_grads (c_svg c1) = sv_grads (c_svg c2) /\ c_gheap c1 = c_gheap c2) by (destruct Hc; split; reflexivity).
  destruct H as [-> ->]. eapply l_exact; [exact Hc|]. repeat step1.
Qed.
Lemma l_parseDashes l : self (parseDashes l). Proof. induction l; cbn [parseDashes]; repeat step1. exact IHl. Qed.
Lemma l_transformStep m t : self (transformStep m t).
Proof. unfold transformStep. repeat step1. intros s1 s2 Hs. destruct (readTransformAttr _ _ _); cbn; try (split; [reflexivity|]); eapply Lc_weak; exact Hs. Qed.
Lemma l_parseTransform v : self (parseTransform v). Proof. unfold parseTransform. repeat step1. apply l_transformStep. Qed.
Lemma l_appendStr x id : self (appendStr x id).
Proof. lcase. unfold appendStr. cbn [c_svg sv_mheap]. destruct (sl_len x <? sl_cap x); (split; [reflexivity|]); constructor; auto. Qed.
Lemma l_readStyleAttr s k v : self (readStyleAttr s k v).
Proof. unfold readStyleAttr. repeat (step1 || apply l_readGradURL || apply l_parseDashes || apply l_parseTransform || apply l_appendStr || apply l_handleError). Qed.
Lemma l_pushStyle l : self (pushStyle l).
Proof. unfold pushStyle. repeat step1. { unfold stylePair. repeat step1. apply l_readStyleAttr. } apply l_modify. lcase. constructor; auto. Qed.
Lemma l_onSvg b f : (forall s t, Lc b s t -> Lc b (c_set_svg (f (c_svg s)) s) (c_set_svg (f (c_svg t)) t)) -> al b b (onSvg f).
Proof. intros H. apply l_modify, H. Qed.
Ltac svg1 := apply l_onSvg; lcase; constructor; auto.
Ltac mod1 := apply l_modify; lcase; constructor; auto.
Ltac step2 := first [step1|svg1; fail|mod1; fail].
Lemma l_attemptPoints v : al false true (attempt (cGetPoints v)).
Proof.
  intros c1 c2 Hc. unfold attempt, cGetPoints. destruct Hc as [p q B vb ti de tr ms w h gr df mh st g gh b1 b2 b3 b4 b5 d m HP HD Hd]. unfold liftP. cbn [c_pc].
  pose proof (p_getPoints false v p q HP) as K. destruct (getPoints v p) as [t1 [[]|e| |]], (getPoints v q) as [t2 [[]|e'| |]]; try contradiction.
  - destruct K as [_ K]. split; [reflexivity|]. constructor; auto.
  - destruct K as [<- K]. split; [reflexivity|]. constructor; auto.
  - constructor; auto. eapply Lpc_weak; exact K.
  - constructor; auto. eapply Lpc_weak; exact K.
Qed.
Lemma l_svgF l : self (svgF l).
Proof.
  unfold svgF. eapply l_bind; [svg1|]. intros _. eapply l_bind.
  - apply rel2_foldM. intros [w h] a. unfold svgAttr. apply rel2_if.
    + eapply l_bind; [apply l_attemptPoints|]. intros o. eapply l_bind; [apply l_points|]. intros ps.
      do 5 (try (destruct ps as [|? ps]; [try apply l_raise|])); try apply l_raise. eapply l_bind; [svg1|]. intros _. destruct o; repeat step1.
    + repeat step2.
  - intros [w h]. svg1.
Qed.
(** the points are the same afterwards, also after an error *)
Notation alt b b' m := (rel2 (Lc b) (Lc b') (Lc true) m m).
Lemma t_polyAttr b a : alt b (b || String.eqb (a_name a) "points") (polyAttr tt a).
Proof.
  unfold polyAttr, is. destruct (String.eqb (a_name a) "points").
  2:{ rewrite orb_false_r. apply rel2_ret. }
  rewrite orb_true_r. intros c1 c2 Hc. unfold bind. pose proof (l_attemptPoints (a_val a) c1 c2 (Lc_weak _ _ _ Hc)) as K.
  destruct (attempt (cGetPoints (a_val a)) c1) as [t1 [o|e| |]] eqn:K1, (attempt (cGetPoints (a_val a)) c2) as [t2 [o'|e'| |]] eqn:K2; try contradiction.
  - destruct K as [<- K]. cbn. assert (Hp : pc_points (c_pc t1) = pc_points (c_pc t2)) by (destruct K; cbn; apply H; reflexivity). rewrite Hp.
    destruct (negb _); [cbn; auto|]. destruct o; cbn; auto.
  - unfold attempt in K1. destruct (cGetPoints _ c1) as [? [[]|? | |]]; discriminate.
  - exfalso. unfold attempt, cGetPoints, liftP in K1. rewrite getPoints_numbers in K1. destruct (numbers_total (E := E) (a_val a)) as [G|[e G]]; rewrite G in K1; discriminate.
  - exfalso. unfold attempt, cGetPoints, liftP in K1. rewrite getPoints_numbers in K1. destruct (numbers_total (E := E) (a_val a)) as [G|[e G]]; rewrite G in K1; discriminate.
Qed.
Lemma t_polyFold l : forall b, alt b (b || has_attr "points" l) (foldM polyAttr tt l).
Proof.
  induction l as [|a l IH]; intros b; cbn [foldM has_attr existsb]; [rewrite orb_false_r; apply rel2_ret|].
  eapply rel2_bind; [apply t_polyAttr|]. intros []. rewrite orb_assoc. apply IH.
Qed.
Lemma t_polylineF l : has_attr "points" l = true -> alt false true (polylineF l).
Proof.
  intros Hp. unfold polylineF. eapply rel2_bind. { pose proof (t_polyFold l false) as H. rewrite Hp in H. exact H. }
  intros []. eapply rel2_bind; [apply rel2_gets; lcase; apply HP; reflexivity|]. intros ps. apply rel2_if; [|apply rel2_ret].
  eapply rel2_bind; [apply l_liftP, p_fxpt|]. intros a. eapply rel2_bind; [apply l_liftP, p_onPath|]. intros _.
  apply rel2_loop; [auto|]. intros i. eapply rel2_bind; [apply l_liftP, p_fxpt|]. intros x. apply l_liftP, p_onPath.
Qed.
Lemma l_polylineF l : has_attr "points" l = true -> self (polylineF l).
Proof. intros Hp. eapply rel2_weaken; [apply t_polylineF, Hp|auto|apply Lc_weak|apply Lc_weak]. Qed.
Lemma l_polygonF l : has_attr "points" l = true -> self (polygonF l).
Proof.
  intros Hp. unfold polygonF. apply (l_bind _ true).
  { intros c1 c2 H. pose proof (t_polylineF l Hp c1 c2 H) as K. unfold attempt.
    destruct (polylineF l c1) as [d1 [[]|e1| |]], (polylineF l c2) as [d2 [[]|e2| |]]; try contradiction; try (eapply Lc_weak; exact K).
    - destruct K as [_ K]. split; [reflexivity|exact K].
    - destruct K as [-> K]. split; [reflexivity|exact K]. }
  intros o. apply (l_bind _ true); [apply l_points|]. intros ps. apply (l_bind _ true). { apply rel2_if; [apply l_liftP, p_onPath|apply rel2_ret]. }
  intros _. destruct o; repeat step1.
Qed.
Lemma l_newGrad : self newGrad. Proof. unfold newGrad. mod1. Qed.
Lemma l_registerGrad id : self (registerGrad id).
Proof. lcase. unfold registerGrad. cbn. destruct zg; try (split; [reflexivity|]); constructor; auto. Qed.
Lemma l_theGrad : self theGrad.
Proof. lcase. unfold theGrad. cbn. destruct zg; [|constructor; auto]. destruct (idx zgh n); try (split; [reflexivity|]); constructor; auto. Qed.
Lemma l_onGrad f : self (onGrad f).
Proof. lcase. unfold onGrad. cbn. destruct zg; [|constructor; auto]. destruct (nth_error zgh n); try (split; [reflexivity|]); constructor; auto. Qed.
Lemma l_readGradAttr a : self (readGradAttr a).
Proof. unfold readGradAttr. repeat (step1 || apply l_parseTransform || apply l_onGrad). Qed.
Ltac step3 := first [step2|apply l_newGrad|apply l_registerGrad|apply l_theGrad|apply l_onGrad|apply l_readGradAttr].
Lemma l_drawFunc fuel name df l : has_points name l -> drawFunc (E := E) fuel name = Some df -> self (df l).
Proof.
  intros Hp. unfold drawFunc. intros H.
  repeat match type of H with (if String.eqb name ?n then _ else _) = _ => destruct (String.eqb_spec name n) as [->|?]; [injection H as <-|] end; try discriminate.
  - apply l_svgF.
  - unfold gF. step1.
  - unfold lineF, lineAttr. repeat step3.
  - unfold stopF, stopAttr. apply (l_bind _ false); [apply l_gets; lcase; reflexivity|]. repeat step3.
  - unfold rectF, rectAttr. repeat step3.
  - unfold circleF, circleAttr. repeat step3.
  - unfold circleF, circleAttr. repeat step3.
  - apply l_polylineF, Hp. auto.
  - apply l_polygonF, Hp. auto.
  - unfold pathF. repeat step3.
  - unfold descF. repeat step3.
  - unfold defsF. repeat step3.
  - unfold titleF. repeat step3.
  - unfold linearGradientF, linAttr. repeat step3.
  - unfold radialGradientF, radAttr. repeat step3.
  - unfold maskF, maskAttr. repeat step3.
Qed.
Lemma l_useLoop draw ds : Forall pdef ds -> (forall name df l, has_points name l -> draw name = Some df -> self (df l)) -> self (useLoop draw ds).
Proof.
  intros Hd Hf. induction Hd as [|x ds Hx _ IH]; cbn [useLoop]; [step1|]. apply rel2_if; [repeat step1; exact IH|].
  apply (l_bind _ false); [apply l_pushStyle|]. intros _. destruct (draw (d_tag x)) as [df|] eqn:Hdf; [|apply l_handleError].
  apply (l_bind _ false); [exact (Hf _ _ _ Hx Hdf)|]. intros _. repeat step1. exact IH.
Qed.
Lemma pdefs_get id df ds : pdefs df -> mget id df = Some ds -> Forall pdef ds.
Proof.
  intros H. induction H as [|[k v] df Hv _ IH]; cbn [mget]; [discriminate|]. destruct (String.eqb id k); [|exact IH]. intros K. injection K as <-. exact Hv.
Qed.
Lemma l_useF fuel : forall l, self (useF fuel l).
Proof.
  induction fuel as [|fuel IH]; intros l; cbn [useF]; [apply l_nofuel|]. apply (l_bind _ false). { unfold useAttr. repeat step3. }
  intros [[href x] y]. apply (l_bind _ false). { apply l_modify. lcase. constructor; auto. destruct HP as (H1 & H2 & H3 & H4 & H5). repeat split; auto. }
  intros _. eapply rel2_deferred with (R1 := Lc false) (Q := Lc false).
  - apply rel2_if; [apply l_raise|]. apply rel2_if; [apply l_raise|]. apply (l_bind _ false); [apply l_lift|]. intros id.
    intros c1 c2 Hc. unfold bind, gets. assert (Hs : sv_defs (c_svg c1) = sv_defs (c_svg c2) /\ pdefs (sv_defs (c_svg c2))) by (destruct Hc; split; auto).
    destruct Hs as [-> Hs]. destruct (mget id (sv_defs (c_svg c2))) as [ds|] eqn:Hg; [|cbn; auto].
    refine (l_useLoop _ ds (pdefs_get _ _ _ Hs Hg) _ c1 c2 Hc). intros name df l' Hp Hd. cbv beta in Hd. destruct (String.eqb name "use"); [injection Hd as <-; apply IH|].
    eapply l_drawFunc; eassumption.
  - lcase. constructor; auto. destruct HP as (H1 & H2 & H3 & H4 & H5). repeat split; auto.
  - lcase. constructor; auto. destruct HP as (H1 & H2 & H3 & H4 & H5). repeat split; auto.
Qed.
Lemma l_collectPath : self collectPath.
Proof.
  unfold collectPath. apply l_get. intros c1 c2 Hc.
  assert (K : pc_path (c_pc c1) = pc_path (c_pc c2) /\ c_inMask c1 = c_inMask c2 /\ c_mask c1 = c_mask c2) by (destruct Hc; repeat split; apply H).
  destruct K as (-> & -> & ->). eapply l_exact; [exact Hc|]. destruct (pc_path (c_pc c2)) as [|o r]; [step1|].
  apply (l_bind _ false); [|repeat step1]. apply rel2_if.
  - destruct (c_mask c2); repeat step3.
  - apply (l_bind _ false); [apply l_topStyle|]. intros s. apply l_onSvg. lcase. cbn [c_svg c_set_svg sv_set_paths sv_paths].
    unfold c_set_svg, sv_set_paths. cbn. rewrite <- !app_assoc. constructor; auto.
Qed.
Lemma pdefs_put k ds df : Forall pdef ds -> pdefs df -> pdefs (mput k ds df).
Proof.
  intros H1 H2. unfold mput. constructor; [exact H1|]. unfold pdefs in *. rewrite Forall_forall in *. intros x Hx. apply filter_In in Hx as [Hx _]. auto.
Qed.
Lemma l_flushDefs : self flushDefs.
Proof. unfold flushDefs. apply l_modify. lcase. cbn. destruct zd; constructor; auto. apply pdefs_put; auto. Qed.
Lemma l_addDef d : pdef d -> self (addDef d).
Proof. intros Hp. apply l_modify. lcase. constructor; auto. apply Forall_app. auto. Qed.
Lemma l_start fuel name l : has_points name l -> self (readStartElement fuel name l).
Proof.
  intros Hp. unfold readStartElement. apply l_get. intros c1 c2 Hc.
  assert (K : c_inGrad c1 = c_inGrad c2 /\ c_inDefs c1 = c_inDefs c2) by (destruct Hc; auto). destruct K as (-> & ->). cbv zeta.
  eapply l_exact; [exact Hc|]. apply rel2_if.
  - apply (l_bind _ false); [apply rel2_if; [apply l_flushDefs|step1]|]. intros _. apply l_addDef, Hp.
  - destruct (drawFuncs fuel name) as [df|] eqn:Hd; [|apply l_handleError]. apply (l_bind _ false); [|intros o; apply (l_bind _ false); [apply l_collectPath|]; intros _; repeat step1].
    apply l_attempt. unfold drawFuncs in Hd. destruct (String.eqb name "use"); [injection Hd as <-; apply l_useF|eapply l_drawFunc; eassumption].
Qed.
Lemma l_endElement name : self (endElement name).
Proof.
  unfold endElement. apply (l_bind _ false); [step1|]. intros _. apply rel2_if.
  { apply (l_bind _ false); [apply l_gets; lcase; reflexivity|]. intros []; [|step1]. apply l_addDef. intros [H|H]; discriminate. }
  apply rel2_if.
  { apply (l_bind _ false); [apply l_gets; lcase; reflexivity|]. intros o. apply (l_bind _ false); [destruct o|]; repeat step3. }
  apply rel2_if; [mod1|]. apply rel2_if; [mod1|]. apply rel2_if; [apply (l_bind _ false); [apply l_flushDefs|intros _; mod1]|]. apply rel2_if; [mod1|step1].
Qed.
Lemma l_chars s : self (charData s).
Proof.
  unfold charData. apply l_get. intros c1 c2 Hc.
  assert (K : c_inTitle c1 = c_inTitle c2 /\ c_inDesc c1 = c_inDesc c2 /\ sv_titles (c_svg c1) = sv_titles (c_svg c2) /\ sv_descs (c_svg c1) = sv_descs (c_svg c2)) by (destruct Hc; auto).
  destruct K as (-> & -> & -> & ->). eapply l_exact; [exact Hc|]. repeat step3.
Qed.
Lemma l_token fuel t : pointed t -> self (stepToken fuel t).
Proof.
  destruct t as [name l|name|s|]; cbn [stepToken pointed]; intros Hp.
  - apply (l_bind _ false); [apply l_pushStyle|]. intros _. apply l_start, Hp.
  - apply l_endElement.
  - apply l_chars.
  - step1.
Qed.
Lemma l_tokens fuel ts : Forall pointed ts -> self (mapM (stepToken fuel) ts).
Proof. induction 1 as [|t ts Ht _ IH]; cbn [mapM]; [step1|]. apply (l_bind _ false); [apply l_token, Ht|]. intros _. exact IH. Qed.
End Rel.

(** ** The elements that only draw *)
Definition stillp (c c' : cursor) : Prop := still c c' /\ pc_path (c_pc c') = pc_path (c_pc c).
Lemma sp_refl c : stillp c c. Proof. split; [apply still_refl|reflexivity]. Qed.
Lemma sp_trans a b c : stillp a b -> stillp b c -> stillp a c.
Proof. intros [H1 H2] [H3 H4]. split; [eapply still_trans; eassumption|congruence]. Qed.
Notation sp := (keeps stillp).
Ltac sps := repeat first
  [ match goal with
    | |- forall _, keeps _ _ => intros ?
    | |- forall _ _, keeps _ _ => intros ? ?
    | |- keeps _ (ret _) => apply (keeps_ret stillp sp_refl)
    | |- keeps _ (raise _) => apply (keeps_raise stillp sp_refl)
    | |- keeps _ (lift _) => apply (keeps_lift stillp sp_refl)
    | |- keeps _ (gets _) => apply (keeps_gets stillp sp_refl)
    | |- keeps _ (bind _ _) => apply (keeps_bind stillp sp_trans)
    | |- keeps _ (if _ then _ else _) => apply (keeps_if stillp)
    | |- keeps _ (match ?x with _ => _ end) => destruct x
    | |- keeps _ (let _ := _ in _) => cbv zeta
    | |- keeps _ (cParseUnit _ _) => intros ?; apply sp_refl
    | |- keeps _ topStyle => intros ?; unfold topStyle; destruct (c_stack _); apply sp_refl
    | |- keeps _ (liftP (println _)) => intros ?; split; [split; [reflexivity|repeat split]|reflexivity]
    | |- keeps _ (liftP (getPoints _)) => intros ?; unfold liftP; rewrite getPoints_numbers; split; [split; [reflexivity|repeat split]|reflexivity]
    | |- keeps _ (foldM _ _ _) => apply (keeps_foldM stillp sp_refl sp_trans)
    end ].
Lemma sp_handleError msg : sp (handleError msg). Proof. unfold handleError. sps. Qed.
Lemma sp_dashes l : sp (parseDashes l). Proof. induction l; cbn [parseDashes]; sps. exact IHl. Qed.
Lemma sp_readStyleAttr s k v : k <> "mask"%string -> sp (readStyleAttr s k v).
Proof.
  intros Hk. unfold readStyleAttr. destruct (String.eqb_spec k "mask"); [contradiction|]. unfold readGradURL, parseTransform, transformStep.
  sps; try apply sp_handleError; apply sp_dashes.
Qed.
Lemma push_draws l c c1 : unmasked l -> pushStyle (E := E) l c = (c1, Ret tt) -> exists s c', stillp c c' /\ c1 = c_set_stack (s :: c_stack c) c'.
Proof.
  intros (ds & Hl & Hds) H. unfold pushStyle in H. apply bindC in H as (c2 & top & H1 & H). apply bindC in H as (c3 & s & H2 & H3). injection H3 as <-.
  assert (c2 = c) by (unfold topStyle in H1; destruct (c_stack c); [discriminate|injection H1 as <- _; reflexivity]). subst c2.
  rewrite (attrs_reads _ _ Hl) in H2.
  assert (K : stillp c c3).
  { clear Hl H1. revert top c H2. induction Hds as [|[k v] ds Hk _ IH]; intros top c H2; cbn [foldM] in H2; [injection H2 as <- _; apply sp_refl|].
    apply bindC in H2 as (c4 & s' & H2 & H3). unfold readDecl in H2. pose proof (sp_readStyleAttr top k v Hk c) as K. cbn [fst snd] in H2. rewrite H2 in K.
    eapply sp_trans; [exact K|]. eapply IH, H3. }
  exists s, c3. split; [exact K|]. f_equal. f_equal. destruct K as [[K _] _]. rewrite K. reflexivity.
Qed.
Record calm (c : cursor) : Prop := mkCalm {
  ca_defs : c_inDefs c = false; ca_grad : c_inGrad c = false; ca_title : c_inTitle c = false; ca_desc : c_inDesc c = false;
  ca_mask : c_mask c = None; ca_path : pc_path (c_pc c) = [] }.
Definition addPaths (x : list (svgPath E)) (c : cursor) : cursor := c_set_svg (sv_set_paths (sv_paths (c_svg c) ++ x) (c_svg c)) c.
(** only paths are added, no more than [n] *)
Definition Gd (n : nat) (c c' : cursor) : Prop :=
  exists x, List.length x <= n /\ c' = c_set_pc (c_pc c') (addPaths x c) /\ frame (c_pc c) (c_pc c') /\ pc_path (c_pc c') = [].
Lemma addPaths_nil c : addPaths [] c = c. Proof. destruct c as [? []]. unfold addPaths, c_set_svg, sv_set_paths. cbn. rewrite app_nil_r. reflexivity. Qed.
Lemma Gd_refl c : pc_path (c_pc c) = [] -> Gd 0 c c.
Proof. intros H. exists []. split; [auto|]. rewrite addPaths_nil. split; [destruct c; reflexivity|]. split; [apply fr_refl|exact H]. Qed.
Lemma Gd_trans n m a b c : Gd n a b -> Gd m b c -> Gd (n + m) a c.
Proof.
  intros (x & H1 & H2 & H3 & H4) (y & K1 & K2 & K3 & K4). exists (x ++ y). split; [rewrite app_length; lia|]. split; [|split; [eapply fr_trans; eassumption|exact K4]].
  rewrite K2 at 1. rewrite H2. destruct a as [? []]. unfold addPaths, c_set_svg, c_set_pc, sv_set_paths. cbn. rewrite app_assoc. reflexivity.
Qed.
Lemma Gd_calm n c c' : Gd n c c' -> calm c -> calm c'.
Proof. intros (x & _ & H & _ & Hp) []. rewrite H. constructor; auto. Qed.
Lemma Gd_stack n c c' s : Gd n c c' -> Gd n (c_set_stack s c) (c_set_stack s c').
Proof. intros (x & H1 & H2 & H3 & H4). exists x. split; [exact H1|]. split; [rewrite H2; destruct c as [? []]; reflexivity|]. split; assumption. Qed.
Lemma draws_func fuel name df l c : draws_only name -> c_inGrad c = false -> drawFuncs (E := E) fuel name = Some df -> still c (fst (df l c)).
Proof.
  intros Hn Hg Hd. assert (Hs : List.In name shape_names \/ ~ List.In name shape_names).
  { destruct (in_dec string_dec name shape_names); auto. }
  destruct Hs as [Hs|Hs]; [exact (st_shape fuel name df l Hs Hd c)|].
  unfold drawFuncs, drawFunc in Hd. unfold draws_only in Hn. unfold shape_names in Hs. cbn [List.In] in Hn, Hs.
  repeat match type of Hd with (if String.eqb name ?n then _ else _) = _ => destruct (String.eqb_spec name n) as [->|?]; [try (exfalso; tauto); injection Hd as <-|] end; try discriminate; try (exfalso; tauto).
  - apply still_refl.
  - unfold stopF, bind, gets. rewrite Hg. apply still_refl.
Qed.
Lemma draws_start fuel name l c c1 : draws_only name -> calm c -> readStartElement (E := E) fuel name l c = (c1, Ret tt) -> Gd 1 c c1.
Proof.
  intros Hn Hc H. pose proof Hc as [C1 C2 C3 C4 C5 C6]. unfold readStartElement in H. unfold bind at 1, gets in H. rewrite C1 in H. cbn [andb] in H. cbv zeta in H.
  destruct (drawFuncs fuel name) as [df|] eqn:Hd.
  2:{ pose proof (sp_handleError (cannotProcess name) c) as K. rewrite H in K. destruct K as [[K1 K2] K3]. cbn [fst] in *. exists []. split; [cbn; lia|]. rewrite addPaths_nil. split; [exact K1|]. split; [exact K2|congruence]. }
  apply bindC in H as (c2 & o & H1 & H). apply bindC in H as (c3 & [] & H2 & H3).
  assert (K : still c c2).
  { pose proof (draws_func fuel name df l c Hn C2 Hd) as K. unfold attempt in H1. destruct (df l c) as [c4 [[]|e| |]]; try discriminate; injection H1 as <- _; exact K. }
  assert (c1 = c3) by (destruct o; [discriminate|injection H3 as <-; reflexivity]). subst c3. clear H3.
  destruct K as [K1 K2]. unfold collectPath in H2. unfold bind at 1, gets in H2. destruct (pc_path (c_pc c2)) as [|op r] eqn:Hp.
  - injection H2 as <-. exists []. split; [cbn; lia|]. rewrite addPaths_nil. split; [exact K1|]. split; assumption.
  - apply bindC in H2 as (c3 & [] & H2 & H3). cbn in H3. injection H3 as <-.
    assert (K3 : exists x, List.length x <= 1 /\ c3 = addPaths x c2).
    { destruct (c_inMask c2).
      - replace (c_mask c2) with (@None (svgMask E)) in H2 by (rewrite K1; symmetry; exact C5). injection H2 as <-. exists []. rewrite addPaths_nil. split; [cbn; lia|reflexivity].
      - apply bindC in H2 as (c4 & s & H2 & H3). unfold topStyle in H2. destruct (c_stack c2); [discriminate|]. injection H2 as <- <-. injection H3 as <-. eexists [_]. split; [cbn; lia|reflexivity]. }
    destruct K3 as (x & K3 & ->). exists x. split; [exact K3|]. split; [rewrite K1; reflexivity|]. split; [|reflexivity].
    destruct K2 as (F1 & F2 & F3). repeat split; assumption.
Qed.
Lemma draws_end name c c1 s r : draws_only name -> calm c -> c_stack c = s :: r -> endElement (E := E) name c = (c1, Ret tt) -> c1 = c_set_stack r c.
Proof.
  intros Hn Hc Hs H. unfold endElement in H. unfold bind at 1, popStyle in H. rewrite Hs in H. unfold draws_only in Hn. cbn [List.In] in Hn.
  destruct (String.eqb name "g").
  - unfold bind, gets in H. cbn in H. rewrite (ca_defs _ Hc) in H. injection H as <-. reflexivity.
  - repeat match type of H with (if String.eqb name ?n then _ else _) _ = _ => destruct (String.eqb_spec name n) as [->|?]; [exfalso; tauto|] end.
    destruct (String.eqb_spec name "radialGradient") as [->|?]; [exfalso; tauto|]. destruct (String.eqb_spec name "linearGradient") as [->|?]; [exfalso; tauto|].
    injection H as <-. reflexivity.
Qed.
Lemma draws_node fuel : forall n c c1, drawing n -> calm c -> mapM (stepToken (E := E) fuel) (tokens n) c = (c1, Ret tt) -> Gd (elements n) c c1.
Proof.
  induction n as [name l kids IH|s|] using node_ind'; intros c c1 Hn Hc H.
  - inversion Hn as [? ? ? Hd Hp Hu Hk| |]; subst. cbn [tokens mapM] in H. apply bindC in H as (c2 & [] & H1 & H). cbn [stepToken] in H1. apply bindC in H1 as (c3 & [] & H1 & H2).
    destruct (push_draws l c c3 Hu H1) as (s & c4 & K1 & ->).
    assert (G0 : Gd 0 c c4).
    { destruct K1 as [[K1 K2] K3]. exists []. split; [auto|]. rewrite addPaths_nil. split; [exact K1|]. split; [exact K2|]. rewrite K3. apply Hc. }
    assert (Hc4 : calm (c_set_stack (s :: c_stack c) c4)) by (destruct (Gd_calm _ _ _ G0 Hc); constructor; assumption).
    pose proof (draws_start fuel name l _ _ Hd Hc4 H2) as G1. pose proof (Gd_calm _ _ _ G1 Hc4) as Hc2.
    rewrite mapM_app in H. apply bindC in H as (c5 & [] & H3 & H4).
    assert (G2 : Gd (list_sum (map elements kids)) c2 c5).
    { clear -IH Hk H3 Hc2. revert c2 Hc2 H3. induction IH as [|k kids Hk1 _ IHk]; intros c2 Hc2 H3.
      - injection H3 as <-. apply Gd_refl, Hc2.
      - cbn [flat_map] in H3. rewrite mapM_app in H3. apply bindC in H3 as (c3 & [] & H3 & H4). inversion Hk; subst. cbn [map list_sum].
        pose proof (Hk1 _ _ H1 Hc2 H3) as G. eapply Gd_trans; [exact G|]. apply IHk; auto. eapply Gd_calm; eassumption. }
    pose proof (Gd_trans _ _ _ _ _ G1 G2) as G3. pose proof (Gd_calm _ _ _ G2 Hc2) as Hc5. cbn [mapM stepToken] in H4. apply bindC in H4 as (c6 & [] & H4 & H5). injection H5 as <-.
    assert (Hs : c_stack c5 = s :: c_stack c) by (destruct G3 as (x & _ & -> & _); reflexivity).
    rewrite (draws_end name c5 c6 s (c_stack c) Hd Hc5 Hs H4). cbn [elements]. change (S (list_sum (map elements kids))) with (0 + (1 + list_sum (map elements kids))).
    eapply Gd_trans; [exact G0|]. apply (Gd_stack _ _ _ (c_stack c)) in G3. replace (c_set_stack (c_stack c) (c_set_stack (s :: c_stack c) c4)) with c4 in G3; [exact G3|].
    destruct K1 as [[K1 _] _]. rewrite K1. destruct c; reflexivity.
  - cbn [tokens mapM stepToken] in H. apply bindC in H as (c2 & [] & H & H0). injection H0 as <-. unfold charData in H. unfold bind at 1, gets in H. rewrite (ca_title _ Hc), (ca_desc _ Hc) in H. injection H as <-. apply Gd_refl, Hc.
  - cbn [tokens mapM stepToken] in H. apply bindC in H as (c2 & [] & H & H0). injection H0 as <-. injection H as <-. apply Gd_refl, Hc.
Qed.
Definition size (ns : list node) : nat := list_sum (map elements ns).
Lemma draws_nodes fuel ns : forall c c1, Forall drawing ns -> calm c -> mapM (stepToken (E := E) fuel) (flat_map tokens ns) c = (c1, Ret tt) -> Gd (size ns) c c1.
Proof.
  induction ns as [|n ns IH]; intros c c1 Hn Hc H.
  - injection H as <-. apply Gd_refl, Hc.
  - cbn [flat_map] in H. rewrite mapM_app in H. apply bindC in H as (c2 & [] & H1 & H2). inversion Hn; subst. unfold size. cbn [map list_sum].
    pose proof (draws_node fuel n c c2 H3 Hc H1) as G. eapply Gd_trans; [exact G|]. apply IH; auto. eapply Gd_calm; eassumption.
Qed.
Lemma drawing_pointed : forall n, drawing n -> Forall pointed (tokens n).
Proof.
  induction n as [name l kids IH|s|] using node_ind'; intros Hn; cbn [tokens]; [|repeat constructor|repeat constructor].
  inversion Hn as [? ? ? Hd Hp Hu Hk| |]; subst. constructor; [exact Hp|]. apply Forall_app. split; [|repeat constructor].
  clear -IH Hk. induction IH as [|k kids Hk1 _ IHk]; [constructor|]. inversion Hk; subst. cbn [flat_map]. apply Forall_app. auto.
Qed.
Lemma drawings_pointed ns : Forall drawing ns -> Forall pointed (flat_map tokens ns).
Proof. induction 1; cbn [flat_map]; [constructor|]. apply Forall_app. split; [apply drawing_pointed|]; assumption. Qed.

(** ** Documents *)
Lemma pre_defs fuel mode pre c : Forall pointed pre -> mapM (stepToken (E := E) fuel) pre (cursor0 mode) = (c, Ret tt) -> pdefs (sv_defs (c_svg c)) /\ Forall pdef (c_curDef c).
Proof.
  intros Hp H. pose proof (l_tokens [] [] [] fuel pre Hp (cursor0 mode) (cursor0 mode)) as K. rewrite H in K.
  assert (K0 : Lc [] [] [] false (cursor0 (E := E) mode) (cursor0 mode)).
  { unfold cursor0, svg0. apply (lc [] [] [] false _ _ []); [repeat split|constructor|constructor]. }
  destruct (K K0) as [_ K1]. clear -K1. inversion K1. split; assumption.
Qed.
(** two states that got different paths *)
Lemma Gd_Lc n m c c1 c2 : pdefs (sv_defs (c_svg c)) -> Forall pdef (c_curDef c) -> Gd n c c1 -> Gd m c c2 ->
  exists x y, List.length x <= n /\ List.length y <= m /\ sv_paths (c_svg c1) = sv_paths (c_svg c) ++ x /\ sv_paths (c_svg c2) = sv_paths (c_svg c) ++ y
  /\ Lc (sv_paths (c_svg c)) x y false c1 c2.
Proof.
  intros Hd1 Hd2 (x & H1 & H2 & H3 & H4) (y & K1 & K2 & K3 & K4). exists x, y. split; [exact H1|]. split; [exact K1|]. rewrite H2, K2. split; [reflexivity|]. split; [reflexivity|].
  assert (L : Lpc false (c_pc c1) (c_pc c2)).
  { destruct H3 as (F1 & F2 & F3), K3 as (F4 & F5 & F6). repeat split; try congruence. }
  destruct c as [pc [vb ti de pa tr ms w h gr df mh] st g gh b1 b2 b3 b4 b5 d m']. unfold addPaths, c_set_pc, c_set_svg, sv_set_paths. cbn in *.
  pose proof (lc pa x y false (c_pc c1) (c_pc c2) [] vb ti de tr ms w h gr df mh st g gh b1 b2 b3 b4 b5 d m' L Hd1 Hd2) as K. rewrite !app_nil_r in K. exact K.
Qed.
Lemma calm_at fuel mode u pre c : tidy_at u pre -> mapM (stepToken (E := E) fuel) pre (cursor0 mode) = (c, Ret tt) -> calm c.
Proof. intros Hp H. destruct (tidy_at_st fuel mode u pre Hp c H) as (T & Dd & []). constructor; auto. Qed.
Lemma Lc_result A x y fuel mode pre ts ts' c1 c2 post tm : Forall pointed post -> seenTag pre = true ->
  mapM (stepToken (E := E) fuel) (pre ++ ts) (cursor0 mode) = (c1, Ret tt) -> mapM (stepToken fuel) (pre ++ ts') (cursor0 mode) = (c2, Ret tt) -> Lc A x y false c1 c2 ->
  replaced_result A x y (parse fuel mode (pre ++ ts ++ post) tm) (parse fuel mode (pre ++ ts' ++ post) tm).
Proof.
  intros Hp Hs H1 H2 HL. unfold parse. rewrite !app_assoc. rewrite (mapM_app (stepToken fuel) (pre ++ ts) post), (mapM_app (stepToken fuel) (pre ++ ts') post). unfold bind. rewrite H1, H2.
  unfold seenTag in *. rewrite !existsb_app, Hs. cbn [orb].
  pose proof (l_tokens A x y fuel post Hp c1 c2 HL) as K.
  assert (F : forall d1 d2, Lc A x y false d1 d2 -> exists b, replaced A x y b (c_svg d1) (c_svg d2)).
  { intros d1 d2 []. exists B. cbn. unfold replaced. cbn. auto 15. }
  destruct (mapM (stepToken fuel) post c1) as [d1 [[]|e| |]], (mapM (stepToken fuel) post c2) as [d2 [[]|e'| |]]; try contradiction; cbn; auto.
  - destruct K as [_ K]. destruct tm; cbn; auto.
  - destruct K as [-> K]. auto.
Qed.
Lemma parse_ok fuel mode ts (s : svg) log : parse fuel mode ts TermEOF = PSvg s None log -> exists c, mapM (stepToken fuel) ts (cursor0 mode) = (c, Ret tt) /\ s = c_svg c /\ log = pc_log (c_pc c).
Proof.
  unfold parse. destruct (mapM (stepToken fuel) ts (cursor0 mode)) as [c [[]|e| |]]; try discriminate. destruct (seenTag ts); [|discriminate]. intros H. injection H as <- <-. eauto.
Qed.
Lemma opened_seen pre : (exists name attrs, List.In (TStart name attrs) pre) -> seenTag pre = true.
Proof. intros (n & l & H). unfold seenTag. apply existsb_exists. exists (TStart n l). auto. Qed.
Theorem shapes_replaced fuel mode u pre ns ns' (s1 s2 : svg) l1 l2 :
  tidy_at u pre -> (exists name attrs, List.In (TStart name attrs) pre) -> Forall pointed pre -> Forall drawing ns -> Forall drawing ns' ->
  parse fuel mode (pre ++ flat_map tokens ns) TermEOF = PSvg s1 None l1 -> parse fuel mode (pre ++ flat_map tokens ns') TermEOF = PSvg s2 None l2 ->
  exists s0 l0 x y, parse fuel mode pre TermEOF = PSvg s0 None l0
  /\ sv_paths s1 = sv_paths s0 ++ x /\ sv_paths s2 = sv_paths s0 ++ y /\ List.length x <= list_sum (map elements ns) /\ List.length y <= list_sum (map elements ns')
  /\ forall post tm, Forall pointed post ->
     replaced_result (sv_paths s0) x y (parse fuel mode (pre ++ flat_map tokens ns ++ post) tm) (parse fuel mode (pre ++ flat_map tokens ns' ++ post) tm).
Proof.
  intros Ht Ho Hp Hn Hn' H1 H2. apply opened_seen in Ho. apply parse_ok in H1 as (c1 & H1 & -> & _). apply parse_ok in H2 as (c2 & H2 & -> & _).
  pose proof H1 as K1. pose proof H2 as K2. rewrite mapM_app in K1, K2. apply bindC in K1 as (c & [] & K0 & K1). apply bindC in K2 as (c' & [] & K0' & K2). rewrite K0 in K0'. injection K0' as <-.
  pose proof (calm_at fuel mode u pre c Ht K0) as Hc. destruct (pre_defs fuel mode pre c Hp K0) as [D1 D2].
  destruct (Gd_Lc _ _ c c1 c2 D1 D2 (draws_nodes fuel ns c c1 Hn Hc K1) (draws_nodes fuel ns' c c2 Hn' Hc K2)) as (x & y & L1 & L2 & P1 & P2 & HL).
  exists (c_svg c), (pc_log (c_pc c)), x, y. split; [unfold parse; rewrite K0, Ho; reflexivity|]. repeat (split; [assumption|]).
  intros post tm Hpost. exact (Lc_result _ _ _ fuel mode pre _ _ c1 c2 post tm Hpost Ho H1 H2 HL).
Qed.
Theorem shapes_deleted fuel mode u pre ns (s1 : svg) l1 :
  tidy_at u pre -> (exists name attrs, List.In (TStart name attrs) pre) -> Forall pointed pre -> Forall drawing ns ->
  parse fuel mode (pre ++ flat_map tokens ns) TermEOF = PSvg s1 None l1 ->
  exists a x, sv_paths s1 = a ++ x /\ List.length x <= list_sum (map elements ns)
  /\ forall post tm, Forall pointed post -> replaced_result a x [] (parse fuel mode (pre ++ flat_map tokens ns ++ post) tm) (parse fuel mode (pre ++ post) tm).
Proof.
  intros Ht Ho Hp Hn H1. pose proof (parse_ok _ _ _ _ _ H1) as (c1 & K1 & _). rewrite mapM_app in K1. apply bindC in K1 as (c & [] & K0 & _).
  assert (H2 : parse fuel mode (pre ++ flat_map tokens []) TermEOF = PSvg (c_svg c) None (pc_log (c_pc c))).
  { cbn [flat_map]. rewrite app_nil_r. unfold parse. rewrite K0, (opened_seen pre Ho). reflexivity. }
  destruct (shapes_replaced fuel mode u pre ns [] s1 (c_svg c) l1 _ Ht Ho Hp Hn (Forall_nil _) H1 H2) as (s0 & l0 & x & y & _ & P1 & _ & L1 & L2 & K).
  exists (sv_paths s0), x. split; [exact P1|]. split; [exact L1|]. intros post tm Hpost. specialize (K post tm Hpost). destruct y; [|cbn in L2; lia]. exact K.
Qed.
Theorem shapes_swapped fuel mode u pre ns ns' (s1 : svg) l1 :
  tidy_at u pre -> (exists name attrs, List.In (TStart name attrs) pre) -> Forall pointed pre -> Forall drawing ns -> Forall drawing ns' ->
  parse fuel mode (pre ++ flat_map tokens ns ++ flat_map tokens ns') TermEOF = PSvg s1 None l1 ->
  exists a x y, sv_paths s1 = a ++ x ++ y /\ List.length x <= list_sum (map elements ns) /\ List.length y <= list_sum (map elements ns')
  /\ forall post tm, Forall pointed post ->
     replaced_result a (x ++ y) (y ++ x) (parse fuel mode (pre ++ flat_map tokens ns ++ flat_map tokens ns' ++ post) tm) (parse fuel mode (pre ++ flat_map tokens ns' ++ flat_map tokens ns ++ post) tm).
Proof.
  intros Ht Ho Hp Hn Hn' H1. apply opened_seen in Ho. apply parse_ok in H1 as (c12 & H1 & -> & _).
  pose proof H1 as K1. rewrite mapM_app in K1. apply bindC in K1 as (c & [] & K0 & K1). rewrite mapM_app in K1. apply bindC in K1 as (c1 & [] & K1 & K12).
  pose proof (calm_at fuel mode u pre c Ht K0) as Hc. destruct (pre_defs fuel mode pre c Hp K0) as [D1 D2].
  pose proof (draws_nodes fuel ns c c1 Hn Hc K1) as G1. pose proof (draws_nodes fuel ns' c1 c12 Hn' (Gd_calm _ _ _ G1 Hc) K12) as G12.
  destruct (Gd_Lc _ _ c c1 c D1 D2 G1 (Gd_refl c (ca_path _ Hc))) as (x & e & L1 & L0 & P1 & _ & HL). destruct e; [|cbn in L0; lia].
  pose proof (l_tokens _ _ _ fuel _ (drawings_pointed ns' Hn') c1 c HL) as R. rewrite K12 in R.
  destruct (mapM (stepToken fuel) (flat_map tokens ns') c) as [c2 [[]|e| |]] eqn:K2; try contradiction. destruct R as [_ R].
  pose proof (draws_nodes fuel ns' c c2 Hn' Hc K2) as G2.
  destruct (Gd_Lc _ _ c c2 c D1 D2 G2 (Gd_refl c (ca_path _ Hc))) as (y & e & L2 & L0' & P2 & _ & HL2). destruct e; [|cbn in L0'; lia].
  pose proof (l_tokens _ _ _ fuel _ (drawings_pointed ns Hn) c2 c HL2) as R2. rewrite K1 in R2.
  destruct (mapM (stepToken fuel) (flat_map tokens ns) c2) as [c21 [[]|e| |]] eqn:K21; try contradiction. destruct R2 as [_ R2].
  assert (Y12 : sv_paths (c_svg c12) = sv_paths (c_svg c) ++ x ++ y).
  { inversion R as [? ? B ? ? ? ? ? ? ? ? ? ? ? ? ? ? ? ? ? ? ? ? ? ? ? E1 E2]. subst c2. cbn in *. apply app_inv_head in P2. subst B. reflexivity. }
  assert (Y21 : sv_paths (c_svg c21) = sv_paths (c_svg c) ++ y ++ x).
  { inversion R2 as [? ? B ? ? ? ? ? ? ? ? ? ? ? ? ? ? ? ? ? ? ? ? ? ? ? E1 E2]. subst c1. cbn in *. apply app_inv_head in P1. subst B. reflexivity. }
  pose proof (draws_nodes fuel ns c2 c21 Hn (Gd_calm _ _ _ G2 Hc) K21) as G21.
  destruct (Gd_Lc _ _ c c12 c21 D1 D2 (Gd_trans _ _ _ _ _ G1 G12) (Gd_trans _ _ _ _ _ G2 G21)) as (xy & yx & _ & _ & Q1 & Q2 & HL3).
  rewrite Y12 in Q1. rewrite Y21 in Q2. apply app_inv_head in Q1, Q2. subst xy yx.
  exists (sv_paths (c_svg c)), x, y. repeat (split; [assumption|]). intros post tm Hpost.
  assert (A2 : mapM (stepToken fuel) (pre ++ flat_map tokens ns' ++ flat_map tokens ns) (cursor0 mode) = (c21, Ret tt)).
  { rewrite mapM_app. unfold bind. rewrite K0. rewrite mapM_app. unfold bind. rewrite K2. exact K21. }
  pose proof (Lc_result _ _ _ fuel mode pre _ _ c12 c21 post tm Hpost Ho H1 A2 HL3) as K. rewrite <- !app_assoc in K. exact K.
Qed.
End Edit.

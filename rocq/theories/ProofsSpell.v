(** * ProofsSpell: documents in which elements are written in another way *)
From Coq Require Import Lia.
From Verif Require Import SpecLong ProofsLong ProofsPath4 ProofsShape ProofsMode ProofsKeep ProofsFlags ProofsFrame ProofsLift ProofsErase ProofsOrder3 ProofsEdit.
From Verif Require Export SpecSpell.
Local Open Scope go_scope.

Section Spell.
Context {E : Env}.
Notation cursor := (cursor E).
Notation style := (style E).
Notation svg := (svg E).
Notation C := (@C E).

Definition Ddef (x y : definition) : Prop := d_id x = d_id y /\ respelled E true (d_tag x) (d_attrs x) (d_tag y) (d_attrs y).
Definition Ddefs (x y : string * list definition) : Prop := fst x = fst y /\ Forall2 Ddef (snd x) (snd y).
Inductive Lc (b : bool) : cursor -> cursor -> Prop :=
| lc p q vb ti de ps tr ms w h gr df df' mh st g gh b1 b2 b3 b4 b5 d d' m : Lpc b p q -> Forall2 Ddefs df df' -> Forall2 Ddef d d' ->
    Lc b (mkCur p (mkSvg vb ti de ps tr ms w h gr df mh) st g gh b1 b2 b3 b4 b5 d m)
         (mkCur q (mkSvg vb ti de ps tr ms w h gr df' mh) st g gh b1 b2 b3 b4 b5 d' m).
Ltac lcase := intros ? ? [zp zq zvb zti zde zps ztr zms zw zh zgr zdf zdf' zmh zst zg zgh zb1 zb2 zb3 zb4 zb5 zd zd' zm HP HD Hd].
Lemma Lc_weak b c1 c2 : Lc b c1 c2 -> Lc false c1 c2.
Proof. intros []. constructor; auto. eapply Lpc_weak; eassumption. Qed.
Notation al b b' m := (rel2 (Lc b) (Lc b') (Lc false) m m).
Notation self m := (al false false m).
Lemma l_bind {T U} b b' b'' (m : C T) (k : T -> C U) : al b b' m -> (forall a, al b' b'' (k a)) -> al b b'' (bind m k).
Proof. intros. eapply rel2_bind; eauto. Qed.
Lemma l_lift {T} b (o : outcome T) : al b b (lift o). Proof. apply rel2_lift. apply Lc_weak. Qed.
Lemma l_raise {T} b b' e : al b b' (@raise _ T e). Proof. apply rel2_raise. apply Lc_weak. Qed.
Lemma l_nofuel {T} b b' : al b b' (@nofuel _ T). Proof. apply rel2_nofuel. apply Lc_weak. Qed.
Lemma l_ret {T} (b b' : bool) (a : T) : (b' = true -> b = true) -> al b b' (ret a).
Proof. intros H c1 c2 Hc. cbn. split; [reflexivity|]. destruct b'; [rewrite H in Hc by reflexivity; exact Hc|eapply Lc_weak; exact Hc]. Qed.
Lemma l_attempt b (m : C unit) : al b b m -> rel2 (Lc b) (Lc false) (Lc false) (attempt m) (attempt m).
Proof.
  intros Hm c1 c2 H. specialize (Hm c1 c2 H). unfold attempt.
  destruct (m c1) as [t1 [a|e| |]], (m c2) as [t2 [b'|e'| |]]; try contradiction; try exact Hm; destruct Hm as [H1 H2]; subst; split; auto. eapply Lc_weak; exact H2.
Qed.
Lemma l_liftP {T} b b' b'' (m : M (pcur E) T) : rel2 (Lpc b) (Lpc b') (Lpc b'') m m -> rel2 (Lc b) (Lc b') (Lc b'') (liftP m) (liftP m).
Proof.
  intros Hm. lcase. specialize (Hm zp zq HP). unfold liftP. cbn [c_pc].
  destruct (m zp) as [t1 [a|e| |]], (m zq) as [t2 [a'|e'| |]]; try contradiction; try (destruct Hm as [<- Hm]; split; [reflexivity|]); constructor; auto.
Qed.
Lemma l_cParseUnit b s u : al b b (cParseUnit s u).
Proof. lcase. unfold cParseUnit. cbn [c_svg sv_viewBox]. destruct (resolveUnit _ s u); try (split; [reflexivity|]); constructor; auto; eapply Lpc_weak; eassumption. Qed.
Lemma l_gets {T} b (f : cursor -> T) : (forall s t, Lc b s t -> f s = f t) -> al b b (gets f). Proof. apply rel2_gets. Qed.
Lemma l_modify b b' f : (forall s t, Lc b s t -> Lc b' (f s) (f t)) -> al b b' (modify f). Proof. apply rel2_modify. Qed.
Lemma l_points : al true true (gets (fun c : cursor => pc_points (c_pc c))).
Proof. apply l_gets. lcase. cbn. apply HP. reflexivity. Qed.
Lemma l_curXY b : al b b curXY. Proof. apply l_gets. lcase. cbn. destruct HP as (-> & -> & _). reflexivity. Qed.
Lemma l_path b : al b b (gets (fun c : cursor => pc_path (c_pc c))). Proof. apply l_gets. lcase. cbn. apply HP. Qed.
Lemma l_topStyle b : al b b topStyle. Proof. lcase. unfold topStyle. cbn. destruct zst; try (split; [reflexivity|]); constructor; auto. eapply Lpc_weak; eassumption. Qed.
Lemma l_popStyle : self popStyle. Proof. lcase. unfold popStyle. cbn. destruct zst; try (split; [reflexivity|]); constructor; auto. Qed.
Ltac step1 :=
  match goal with
  | |- forall _, rel2 _ _ _ _ _ => intros ?
  | |- rel2 _ _ _ (ret _) _ => apply l_ret; auto; discriminate
  | |- rel2 _ _ _ (raise _) _ => apply l_raise
  | |- rel2 _ _ _ (lift _) _ => apply l_lift
  | |- rel2 _ _ _ nofuel _ => apply l_nofuel
  | |- rel2 _ _ _ (if _ then _ else _) _ => apply rel2_if
  | |- rel2 _ _ _ (loop _ _ _ _ _) _ => apply rel2_loop; [apply Lc_weak|]; intros
  | |- rel2 _ _ _ (foldM _ _ _) _ => apply rel2_foldM; intros
  | |- rel2 _ _ _ (mapM _ _) _ => apply rel2_mapM; intros
  | |- rel2 _ _ _ (attempt _) _ => apply l_attempt
  | |- rel2 _ _ _ (liftP (compilePath _)) _ => apply l_liftP, p_compilePath
  | |- rel2 _ _ _ (liftP (fxp _ _)) _ => apply l_liftP, p_fxp
  | |- rel2 _ _ _ (liftP (ellipseAt _ _ _ _)) _ => apply l_liftP, p_ellipseAt
  | |- rel2 _ _ _ (liftP (println _)) _ => apply l_liftP, p_println
  | |- rel2 _ _ _ (liftP (getPoints _)) _ => apply l_liftP, p_getPoints'
  | |- rel2 _ _ _ (onCPath _) _ => apply l_liftP, p_onPath
  | |- rel2 _ _ _ cPoints _ => apply l_points
  | |- rel2 _ _ _ (gets (fun c => pc_points (c_pc c))) _ => apply l_points
  | |- rel2 _ _ _ (gets (fun c => pc_path (c_pc c))) _ => apply l_path
  | |- rel2 _ _ _ curXY _ => apply l_curXY
  | |- rel2 _ _ _ topStyle _ => apply l_topStyle
  | |- rel2 _ _ _ popStyle _ => apply l_popStyle
  | |- rel2 _ _ _ (cParseUnit _ _) _ => apply l_cParseUnit
  | |- rel2 _ _ _ (bind (liftP (getPoints _)) _) _ => apply (l_bind _ true)
  | |- rel2 _ _ _ (bind (gets (fun c => pc_points (c_pc c))) _) _ => apply (l_bind _ true)
  | |- rel2 _ _ _ (bind _ _) _ => apply (l_bind _ false)
  | |- rel2 _ _ _ (match ?x with _ => _ end) _ => destruct x
  | |- rel2 _ _ _ (let _ := _ in _) _ => cbv zeta
  end.
Lemma l_get {T} (k : cursor -> C T) b b' : (forall c1 c2, Lc b c1 c2 -> rel2 (fun s t => s = c1 /\ t = c2) (Lc b') (Lc false) (k c1) (k c2)) -> al b b' (bind (gets (fun c => c)) k).
Proof. intros H c1 c2 Hc. unfold bind, gets. apply (H c1 c2 Hc). auto. Qed.
Lemma l_exact {T} b b' c1 c2 (m : C T) : Lc b c1 c2 -> al b b' m -> rel2 (fun s t => s = c1 /\ t = c2) (Lc b') (Lc false) m m.
Proof. intros Hc Hm s t [-> ->]. apply Hm, Hc. Qed.
Lemma l_handleError msg : self (handleError msg).
Proof. unfold handleError. eapply l_bind; [apply l_gets; lcase; cbn; apply HP|]. intros []; repeat step1. Qed.
Lemma l_readGradURL v d : self (readGradURL v d).
Proof.
  unfold readGradURL. apply rel2_if; [|step1]. eapply l_bind; [step1|]. intros s. cbv zeta. apply rel2_if; [|step1]. eapply l_bind; [step1|]. intros id.
  apply l_get. intros c1 c2 Hc. assert (H : sv_grads (c_svg c1) = sv_grads (c_svg c2) /\ c_gheap c1 = c_gheap c2) by (destruct Hc; split; reflexivity).
  destruct H as [-> ->]. eapply l_exact; [exact Hc|]. repeat step1.
Qed.
Lemma l_parseDashes l : self (parseDashes l). Proof. induction l; cbn [parseDashes]; repeat step1. exact IHl. Qed.
Lemma l_transformStep m t : self (transformStep m t).
Proof. unfold transformStep. repeat step1. intros s1 s2 Hs. destruct (readTransformAttr _ _ _); cbn; try (split; [reflexivity|]); eapply Lc_weak; exact Hs. Qed.
Lemma l_parseTransform v : self (parseTransform v). Proof. unfold parseTransform. repeat step1. apply l_transformStep. Qed.
Lemma l_appendStr x id : self (appendStr x id).
Proof. lcase. unfold appendStr. cbn [c_svg sv_mheap]. destruct (sl_len x <? sl_cap x); (split; [reflexivity|]); constructor; auto. Qed.
Lemma l_readStyleAttr s k v : self (readStyleAttr s k v).
Proof. unfold readStyleAttr. repeat (step1 || apply l_readGradURL || apply l_parseDashes || apply l_parseTransform || apply l_appendStr || apply l_handleError). Qed.
Lemma l_pushStyle l : self (pushStyle l).
Proof. unfold pushStyle. repeat step1. { unfold stylePair. repeat step1. apply l_readStyleAttr. } apply l_modify. lcase. constructor; auto. Qed.
Lemma l_onSvg b f : (forall s t, Lc b s t -> Lc b (c_set_svg (f (c_svg s)) s) (c_set_svg (f (c_svg t)) t)) -> al b b (onSvg f).
Proof. intros H. apply l_modify, H. Qed.
Ltac svg1 := apply l_onSvg; lcase; constructor; auto.
Ltac mod1 := apply l_modify; lcase; constructor; auto.
Ltac step2 := first [step1|svg1; fail|mod1; fail].
Lemma l_attemptPoints v : al false true (attempt (cGetPoints v)).
Proof.
  intros c1 c2 Hc. unfold attempt, cGetPoints. destruct Hc as [p q vb ti de ps tr ms w h gr df df' mh st g gh b1 b2 b3 b4 b5 d d' m HP HD Hd]. unfold liftP. cbn [c_pc].
  pose proof (p_getPoints false v p q HP) as K. destruct (getPoints v p) as [t1 [[]|e| |]], (getPoints v q) as [t2 [[]|e'| |]]; try contradiction.
  - destruct K as [_ K]. split; [reflexivity|]. constructor; auto.
  - destruct K as [<- K]. split; [reflexivity|]. constructor; auto.
  - constructor; auto. eapply Lpc_weak; exact K.
  - constructor; auto. eapply Lpc_weak; exact K.
Qed.
Lemma l_svgF l : self (svgF l).
Proof.
  unfold svgF. eapply l_bind; [svg1|]. intros _. eapply l_bind.
  - apply rel2_foldM. intros [w h] a. unfold svgAttr. apply rel2_if.
    + eapply l_bind; [apply l_attemptPoints|]. intros o. eapply l_bind; [apply l_points|]. intros ps.
      do 5 (try (destruct ps as [|? ps]; [try apply l_raise|])); try apply l_raise. eapply l_bind; [svg1|]. intros _. destruct o; repeat step1.
    + repeat step2.
  - intros [w h]. svg1.
Qed.
(** the points are the same afterwards, also after an error *)
Notation alt b b' m := (rel2 (Lc b) (Lc b') (Lc true) m m).
Lemma t_polyAttr b a : alt b (b || String.eqb (a_name a) "points") (polyAttr tt a).
Proof.
  unfold polyAttr, is. destruct (String.eqb (a_name a) "points").
  2:{ rewrite orb_false_r. apply rel2_ret. }
  rewrite orb_true_r. intros c1 c2 Hc. unfold bind. pose proof (l_attemptPoints (a_val a) c1 c2 (Lc_weak _ _ _ Hc)) as K.
  destruct (attempt (cGetPoints (a_val a)) c1) as [t1 [o|e| |]] eqn:K1, (attempt (cGetPoints (a_val a)) c2) as [t2 [o'|e'| |]] eqn:K2; try contradiction.
  - destruct K as [<- K]. cbn. assert (Hp : pc_points (c_pc t1) = pc_points (c_pc t2)) by (destruct K; cbn; apply H; reflexivity). rewrite Hp.
    destruct (negb _); [cbn; auto|]. destruct o; cbn; auto.
  - unfold attempt in K1. destruct (cGetPoints _ c1) as [? [[]|? | |]]; discriminate.
  - exfalso. unfold attempt, cGetPoints, liftP in K1. rewrite getPoints_numbers in K1. destruct (numbers_total (E := E) (a_val a)) as [G|[e G]]; rewrite G in K1; discriminate.
  - exfalso. unfold attempt, cGetPoints, liftP in K1. rewrite getPoints_numbers in K1. destruct (numbers_total (E := E) (a_val a)) as [G|[e G]]; rewrite G in K1; discriminate.
Qed.
Lemma t_polyFold l : forall b, alt b (b || has_attr "points" l) (foldM polyAttr tt l).
Proof.
  induction l as [|a l IH]; intros b; cbn [foldM has_attr existsb]; [rewrite orb_false_r; apply rel2_ret|].
  eapply rel2_bind; [apply t_polyAttr|]. intros []. rewrite orb_assoc. apply IH.
Qed.
Lemma t_polylineF l : has_attr "points" l = true -> alt false true (polylineF l).
Proof.
  intros Hp. unfold polylineF. eapply rel2_bind. { pose proof (t_polyFold l false) as H. rewrite Hp in H. exact H. }
  intros []. eapply rel2_bind; [apply rel2_gets; lcase; apply HP; reflexivity|]. intros ps. apply rel2_if; [|apply rel2_ret].
  eapply rel2_bind; [apply l_liftP, p_fxpt|]. intros a. eapply rel2_bind; [apply l_liftP, p_onPath|]. intros _.
  apply rel2_loop; [auto|]. intros i. eapply rel2_bind; [apply l_liftP, p_fxpt|]. intros x. apply l_liftP, p_onPath.
Qed.
Lemma l_polylineF l : has_attr "points" l = true -> self (polylineF l).
Proof. intros Hp. eapply rel2_weaken; [apply t_polylineF, Hp|auto|apply Lc_weak|apply Lc_weak]. Qed.
Lemma l_polygonF l : has_attr "points" l = true -> self (polygonF l).
Proof.
  intros Hp. unfold polygonF. apply (l_bind _ true).
  { intros c1 c2 H. pose proof (t_polylineF l Hp c1 c2 H) as K. unfold attempt.
    destruct (polylineF l c1) as [d1 [[]|e1| |]], (polylineF l c2) as [d2 [[]|e2| |]]; try contradiction; try (eapply Lc_weak; exact K).
    - destruct K as [_ K]. split; [reflexivity|exact K].
    - destruct K as [-> K]. split; [reflexivity|exact K]. }
  intros o. apply (l_bind _ true); [apply l_points|]. intros ps. apply (l_bind _ true). { apply rel2_if; [apply l_liftP, p_onPath|apply rel2_ret]. }
  intros _. destruct o; repeat step1.
Qed.
Lemma l_newGrad : self newGrad. Proof. unfold newGrad. mod1. Qed.
Lemma l_registerGrad id : self (registerGrad id).
Proof. lcase. unfold registerGrad. cbn. destruct zg; try (split; [reflexivity|]); constructor; auto. Qed.
Lemma l_theGrad : self theGrad.
Proof. lcase. unfold theGrad. cbn. destruct zg; [|constructor; auto]. destruct (idx zgh n); try (split; [reflexivity|]); constructor; auto. Qed.
Lemma l_onGrad f : self (onGrad f).
Proof. lcase. unfold onGrad. cbn. destruct zg; [|constructor; auto]. destruct (nth_error zgh n); try (split; [reflexivity|]); constructor; auto. Qed.
Lemma l_readGradAttr a : self (readGradAttr a).
Proof. unfold readGradAttr. repeat (step1 || apply l_parseTransform || apply l_onGrad). Qed.
Ltac step3 := first [step2|apply l_newGrad|apply l_registerGrad|apply l_theGrad|apply l_onGrad|apply l_readGradAttr].
Lemma l_drawFunc fuel name df l : has_points name l -> drawFunc (E := E) fuel name = Some df -> self (df l).
Proof.
  intros Hp. unfold drawFunc. intros H.
  repeat match type of H with (if String.eqb name ?n then _ else _) = _ => destruct (String.eqb_spec name n) as [->|?]; [injection H as <-|] end; try discriminate.
  - apply l_svgF.
  - unfold gF. step1.
  - unfold lineF, lineAttr. repeat step3.
  - unfold stopF, stopAttr. apply (l_bind _ false); [apply l_gets; lcase; reflexivity|]. repeat step3.
  - unfold rectF, rectAttr. repeat step3.
  - unfold circleF, circleAttr. repeat step3.
  - unfold circleF, circleAttr. repeat step3.
  - apply l_polylineF, Hp. auto.
  - apply l_polygonF, Hp. auto.
  - unfold pathF. repeat step3.
  - unfold descF. repeat step3.
  - unfold defsF. repeat step3.
  - unfold titleF. repeat step3.
  - unfold linearGradientF, linAttr. repeat step3.
  - unfold radialGradientF, radAttr. repeat step3.
  - unfold maskF, maskAttr. repeat step3.
Qed.

(** ** Runs that succeed *)
Definition relS {A} (m1 m2 : C A) : Prop := forall s1 s2, Lc false s1 s2 -> forall t1 a, m1 s1 = (t1, Ret a) -> exists t2, m2 s2 = (t2, Ret a) /\ Lc false t1 t2.
Lemma rs_self {A} (m : C A) : self m -> relS m m.
Proof.
  intros H s1 s2 Hs t1 a Hm. specialize (H s1 s2 Hs). rewrite Hm in H. destruct (m s2) as [t2 [a2|e| |]]; try contradiction. destruct H as [<- H]. eauto.
Qed.
Lemma rs_bind {A B} (m1 m2 : C A) (k1 k2 : A -> C B) : relS m1 m2 -> (forall a, relS (k1 a) (k2 a)) -> relS (bind m1 k1) (bind m2 k2).
Proof.
  intros H1 H2 s1 s2 Hs t1 a. unfold bind. destruct (m1 s1) as [u1 [x|e| |]] eqn:K; try discriminate. destruct (H1 _ _ Hs _ _ K) as (u2 & -> & Hu). apply H2, Hu.
Qed.
Lemma rs_if {A} (b : bool) (m1 m2 n1 n2 : C A) : relS m1 m2 -> relS n1 n2 -> relS (if b then m1 else n1) (if b then m2 else n2). Proof. destruct b; auto. Qed.
Lemma rs_raise {A} e (m : C A) : relS (raise e) m. Proof. intros s1 s2 _ t1 a H. discriminate. Qed.
Lemma rs_deferred {A} f (m1 m2 : C A) : relS m1 m2 -> (forall s t, Lc false s t -> Lc false (f s) (f t)) -> relS (deferred f m1) (deferred f m2).
Proof.
  intros H Hf s1 s2 Hs t1 a. unfold deferred. destruct (m1 s1) as [u1 [x|e| |]] eqn:K; intros G; injection G as <- G; try discriminate. subst x.
  destruct (H _ _ Hs _ _ K) as (u2 & -> & Hu). eauto.
Qed.
Lemma push_same l l' : same_decls l l' -> forall c, pushStyle (E := E) l c = pushStyle (E := E) l' c.
Proof.
  intros (ds & H1 & H2) c. unfold pushStyle, bind. destruct (topStyle c) as [c1 [st|e| |]]; try reflexivity.
  rewrite (attrs_reads _ _ H1), (attrs_reads _ _ H2). reflexivity.
Qed.
Lemma rs_push d name l name' l' : respelled E d name l name' l' -> relS (pushStyle l) (pushStyle l').
Proof.
  assert (K : same_decls l l' -> relS (pushStyle l) (pushStyle l')).
  { intros H s1 s2 Hs t1 a Hm. rewrite <- (push_same _ _ H s2). exact (rs_self _ (l_pushStyle l) s1 s2 Hs t1 a Hm). }
  intros H. inversion H; subst; auto. apply rs_self, l_pushStyle.
Qed.
Lemma shape_draws fuel name : List.In name shape_names -> exists df, drawFuncs (E := E) fuel name = Some df.
Proof. intros H. cbn in H. repeat (destruct H as [<-|H]; [eexists; reflexivity|]). destruct H. Qed.
(** a shape written in another way *)
Lemma rs_shape (d : bool) fuel name l name' l' df df' s1 s2 t1 : List.In name shape_names -> List.In name' shape_names -> has_points name l ->
  same_outline E name l name' l' -> (d = true -> starts_over name l = starts_over name' l') ->
  drawFuncs fuel name = Some df -> drawFuncs fuel name' = Some df' ->
  Lc false s1 s2 -> (d = false -> pc_path (c_pc s1) = []) -> df l s1 = (t1, Ret tt) -> exists t2, df' l' s2 = (t2, Ret tt) /\ Lc false t1 t2.
Proof.
  intros Hn Hn' Hp Ho Hst Hd Hd' Hs Hpath Hm.
  set (pre := pc_path (c_pc s1)). set (vb := sv_viewBox (c_svg s1)). set (off := (pc_curX (c_pc s1), pc_curY (c_pc s1))). set (md := pc_mode (c_pc s1)).
  assert (A1 : ProofsFrame.alike pre false s1 (start_at E md vb off)).
  { unfold ProofsFrame.alike. cbn. repeat split; auto; [rewrite app_nil_r; reflexivity|discriminate]. }
  assert (A2 : ProofsFrame.alike pre false s2 (start_at E md vb off)).
  { unfold ProofsFrame.alike, pre, vb, off, md. destruct Hs. destruct H as (X1 & X2 & X3 & X4 & X5). cbn in *. repeat split; auto; [rewrite app_nil_r; auto|discriminate]. }
  destruct (al_shape pre false fuel name df l Hn Hp Hd _ _ A1) as (K1 & K2). rewrite Hm in K1, K2. cbn [fst snd] in K1, K2.
  destruct (df l (start_at E md vb off)) as [c0 o0] eqn:H0. cbn [fst snd] in K1, K2. subst o0. specialize (K2 eq_refl).
  assert (Al : alone E md fuel vb off name l (pc_path (c_pc c0))).
  { split; [exact Hn|]. split; [exact Hp|]. exists df, c0. auto. }
  destruct (Ho _ _ _ _ _ Al) as (_ & Hp' & df2 & c2 & D2 & R2 & P2). rewrite Hd' in D2. injection D2 as <-.
  destruct (al_shape pre false fuel name' df' l' Hn' Hp' Hd' _ _ A2) as (L1 & L2). rewrite R2 in L1, L2. cbn [fst snd] in L1, L2. specialize (L2 eq_refl).
  pose proof (st_shape fuel name df l Hn Hd s1) as (S1 & S2). pose proof (st_shape fuel name' df' l' Hn' Hd' s2) as (T1 & T2).
  rewrite Hm in S1, S2. cbn [fst] in S1, S2. destruct (df' l' s2) as [t2 o2] eqn:H2. cbn [fst snd] in *. subst o2.
  exists t2. split; [reflexivity|]. rewrite S1, T1.
  assert (J : pc_path (c_pc t1) = pc_path (c_pc t2)).
  { rewrite K2, L2, P2. destruct d.
    - unfold joined. fold (starts_over name l). fold (starts_over name' l'). rewrite (Hst eq_refl). reflexivity.
    - unfold pre. rewrite (Hpath eq_refl), !joined_nil. reflexivity. }
  destruct S2 as (S2 & S3 & S4), T2 as (T2 & T3 & T4). generalize dependent (c_pc t1). generalize dependent (c_pc t2). intros q _ L2 T2 T3 T4 p _ K2 S2 S3 S4 J. clear - Hs J S2 S3 S4 T2 T3 T4.
  destruct Hs as [zp zq zvb zti zde zps ztr zms zw zh zgr zdf zdf' zmh zst zg zgh zb1 zb2 zb3 zb4 zb5 zd zd' zm HP HD Hd]. constructor; auto.
  destruct HP as (X1 & X2 & X3 & X4 & X5). cbn in *. unfold Lpc. repeat split; try congruence. all: intros; discriminate.
Qed.
Lemma rs_drawn (d : bool) fuel name l name' l' df : (forall l, relS (useF fuel l) (useF fuel l)) -> respelled E d name l name' l' -> drawFuncs (E := E) fuel name = Some df ->
  exists df', drawFuncs fuel name' = Some df' /\ forall s1 s2 t1, Lc false s1 s2 -> (d = false -> pc_path (c_pc s1) = []) -> df l s1 = (t1, Ret tt) -> exists t2, df' l' s2 = (t2, Ret tt) /\ Lc false t1 t2.
Proof.
  intros HU H Hd. inversion H as [? ? Hp|? ? _ _|? ? ? ? Hn Hn' Hp _ _ Ho Hst]; subst.
  - exists df. split; [exact Hd|]. intros s1 s2 t1 Hs _ Hm. unfold drawFuncs in Hd. destruct (String.eqb name' "use"); [injection Hd as <-; exact (HU l' s1 s2 Hs t1 tt Hm)|].
    exact (rs_self _ (l_drawFunc fuel name' df l' Hp Hd) s1 s2 Hs t1 tt Hm).
  - injection Hd as <-. exists gF. split; [reflexivity|]. intros s1 s2 t1 Hs _ Hm. injection Hm as <-. exists s2. split; [reflexivity|exact Hs].
  - destruct (shape_draws fuel name' Hn') as [df' Hd']. exists df'. split; [exact Hd'|]. intros s1 s2 t1 Hs Hpath Hm.
    exact (rs_shape d fuel name l name' l' df df' s1 s2 t1 Hn Hn' Hp Ho Hst Hd Hd' Hs Hpath Hm).
Qed.
Lemma not_draw fuel d name l name' l' : respelled E d name l name' l' -> drawFuncs (E := E) fuel name = None -> name' = name /\ l' = l.
Proof.
  intros H Hd. inversion H; subst; auto; [discriminate|]. destruct (shape_draws fuel name) as [df K]; [assumption|]. rewrite K in Hd. discriminate.
Qed.
Lemma same_tag d name l name' l' x : respelled E d name l name' l' -> ~ List.In x shape_names -> String.eqb name x = String.eqb name' x.
Proof.
  intros H Hx. inversion H; subst; auto. destruct (String.eqb_spec name x) as [->|]; [contradiction|]. destruct (String.eqb_spec name' x) as [->|]; [contradiction|]. reflexivity.
Qed.
Lemma rs_useLoop fuel ds ds' : (forall l, relS (useF fuel l) (useF fuel l)) -> Forall2 Ddef ds ds' -> relS (useLoop (drawFuncs fuel) ds) (useLoop (drawFuncs fuel) ds').
Proof.
  intros HU. induction 1 as [|x y ds ds' [_ Hx] _ IH]; cbn [useLoop]; [apply rs_self; step1|].
  rewrite <- (same_tag _ _ _ _ _ "endg" Hx) by (cbn; intuition discriminate). apply rs_if; [apply rs_bind; [apply rs_self, l_popStyle|intros _; exact IH]|].
  apply rs_bind; [eapply rs_push; exact Hx|]. intros _. destruct (drawFuncs fuel (d_tag x)) as [df|] eqn:Hd.
  - destruct (rs_drawn _ _ _ _ _ _ _ HU Hx Hd) as (df' & -> & K). apply rs_bind. { intros s1 s2 Hs t1 [] Hm. eapply K; eauto. discriminate. }
    intros _. rewrite <- (same_tag _ _ _ _ _ "g" Hx) by (cbn; intuition discriminate). apply rs_bind; [apply rs_if; apply rs_self; step1|]. intros _. exact IH.
  - destruct (not_draw _ _ _ _ _ _ Hx Hd) as [-> _]. rewrite Hd. apply rs_self, l_handleError.
Qed.
Lemma Ddefs_get id df df' ds : Forall2 Ddefs df df' -> mget id df = Some ds -> exists ds', mget id df' = Some ds' /\ Forall2 Ddef ds ds'.
Proof.
  induction 1 as [|[k v] [k' v'] df df' [Hk Hv] _ IH]; cbn [mget]; [discriminate|]. cbn in Hk, Hv. subst k'. destruct (String.eqb id k); [|exact IH].
  intros K. injection K as <-. eauto.
Qed.
Lemma rs_useF fuel : forall l, relS (useF fuel l) (useF fuel l).
Proof.
  induction fuel as [|fuel IH]; intros l; cbn [useF]; [apply rs_self, l_nofuel|]. apply rs_bind. { apply rs_self. unfold useAttr. repeat step3. }
  intros [[href x] y]. apply rs_bind. { apply rs_self, l_modify. lcase. constructor; auto. destruct HP as (H1 & H2 & H3 & H4 & H5). repeat split; auto. }
  intros _. apply rs_deferred.
  2:{ lcase. constructor; auto. destruct HP as (H1 & H2 & H3 & H4 & H5). repeat split; auto. }
  apply rs_if; [apply rs_raise|]. apply rs_if; [apply rs_raise|]. apply rs_bind; [apply rs_self, l_lift|]. intros id.
  intros c1 c2 Hc t1 []. unfold bind, gets. assert (Hs : Forall2 Ddefs (sv_defs (c_svg c1)) (sv_defs (c_svg c2))) by (destruct Hc; auto).
  destruct (mget id (sv_defs (c_svg c1))) as [ds|] eqn:Hg; [|discriminate]. destruct (Ddefs_get _ _ _ _ Hs Hg) as (ds' & -> & Hds).
  exact (rs_useLoop fuel ds ds' IH Hds c1 c2 Hc t1 tt).
Qed.
Lemma l_collectPath : self collectPath.
Proof.
  unfold collectPath. apply l_get. intros c1 c2 Hc.
  assert (K : pc_path (c_pc c1) = pc_path (c_pc c2) /\ c_inMask c1 = c_inMask c2 /\ c_mask c1 = c_mask c2) by (destruct Hc; repeat split; apply H).
  destruct K as (-> & -> & ->). eapply l_exact; [exact Hc|]. destruct (pc_path (c_pc c2)) as [|o r]; [step1|].
  apply (l_bind _ false); [|repeat step1]. apply rel2_if.
  - destruct (c_mask c2); repeat step3.
  - apply (l_bind _ false); [apply l_topStyle|]. intros s. svg1.
Qed.
Lemma Ddefs_put k ds ds' df df' : Forall2 Ddef ds ds' -> Forall2 Ddefs df df' -> Forall2 Ddefs (mput k ds df) (mput k ds' df').
Proof.
  intros H1 H2. unfold mput. constructor; [split; [reflexivity|exact H1]|]. induction H2 as [|x y df df' [Hk Hv] _ IH]; cbn [filter]; [constructor|].
  rewrite Hk. destruct (negb _); [constructor; [split; auto|exact IH]|exact IH].
Qed.
Lemma l_flushDefs : self flushDefs.
Proof.
  unfold flushDefs. apply l_modify. lcase. cbn. destruct Hd as [|x y d d' [Hi Hx] Hd]; constructor; auto. rewrite Hi. apply Ddefs_put; auto. constructor; auto. split; auto.
Qed.
Lemma rs_addDef x y : Ddef x y -> relS (addDef x) (addDef y).
Proof.
  intros Hx s1 s2 Hs t1 [] H. injection H as <-. eexists. split; [reflexivity|]. destruct Hs. constructor; auto. apply Forall2_app; auto.
Qed.
(** outside definitions, and without any *)
Record free (c : cursor) : Prop := mkFree { fr_in : c_inDefs c = false; fr_defs : sv_defs (c_svg c) = []; fr_cur : c_curDef c = []; fr_path : pc_path (c_pc c) = [] }.
Lemma start_cases fuel name l (c : cursor) : readStartElement fuel name l c =
  if c_inDefs c && negb (String.eqb name "radialGradient" || String.eqb name "linearGradient" || c_inGrad c)
  then ((if negb (String.eqb (attrID l) "") then flushDefs else ret tt) ;; addDef (mkDef (attrID l) name l)) c
  else match drawFuncs fuel name with
       | None => handleError (cannotProcess name) c
       | Some df => (err <- attempt (df l) ;; collectPath ;; match err with Some e => raise e | None => ret tt end) c
       end.
Proof. unfold readStartElement. unfold bind at 1, gets. cbv zeta. destruct (_ && _); [reflexivity|]. destruct (drawFuncs fuel name); reflexivity. Qed.
Lemma rs_start (d : bool) fuel name l name' l' s1 s2 t1 : respelled E d name l name' l' -> (d = false -> free s1) -> Lc false s1 s2 ->
  readStartElement fuel name l s1 = (t1, Ret tt) -> exists t2, readStartElement fuel name' l' s2 = (t2, Ret tt) /\ Lc false t1 t2.
Proof.
  intros Hr Hf Hs. rewrite !start_cases.
  rewrite <- (same_tag _ _ _ _ _ "radialGradient" Hr), <- (same_tag _ _ _ _ _ "linearGradient" Hr) by (cbn; intuition discriminate).
  assert (K : c_inGrad s1 = c_inGrad s2 /\ c_inDefs s1 = c_inDefs s2) by (destruct Hs; auto). destruct K as (<- & <-).
  destruct (c_inDefs s1 && _) eqn:Hb.
  - assert (d = true) as ->. { destruct d; [reflexivity|]. destruct (Hf eq_refl) as [Hin _ _ _]. rewrite Hin in Hb. discriminate. }
    assert (Hid : attrID l = attrID l'). { inversion Hr; subst; auto; rewrite !attrID_text; assumption. } rewrite <- Hid.
    match goal with |- ?m1 s1 = _ -> exists t2, ?m2 s2 = _ /\ _ => cut (relS m1 m2); [intros K; exact (K s1 s2 Hs t1 tt)|] end.
    apply rs_bind; [apply rs_if; apply rs_self; [apply l_flushDefs|step1]|]. intros _. apply rs_addDef. split; [reflexivity|exact Hr].
  - destruct (drawFuncs fuel name) as [df|] eqn:Hd.
    + destruct (rs_drawn _ _ _ _ _ _ _ (rs_useF fuel) Hr Hd) as (df' & -> & K). unfold bind at 1 3, attempt.
      destruct (df l s1) as [u1 [[]|e| |]] eqn:H1; try discriminate.
      * destruct (K s1 s2 u1 Hs) as (u2 & -> & Hu). { intros G. apply (Hf G). } { exact H1. }
        intros Hm. exact (rs_bind _ _ _ _ (rs_self _ l_collectPath) (fun _ => rs_self _ (l_ret false false tt (fun H => H))) u1 u2 Hu t1 tt Hm).
      * unfold bind. destruct (collectPath u1) as [u3 [[]|e'| |]]; discriminate.
    + destruct (not_draw _ _ _ _ _ _ Hr Hd) as [-> ->]. rewrite Hd. intros Hm. exact (rs_self _ (l_handleError _) s1 s2 Hs t1 tt Hm).
Qed.
Lemma l_addDef x : Ddef x x -> self (addDef x).
Proof. intros Hx. apply l_modify. lcase. constructor; auto. apply Forall2_app; auto. Qed.
Lemma l_endElement name : self (endElement name).
Proof.
  unfold endElement. apply (l_bind _ false); [step1|]. intros _. apply rel2_if.
  { apply (l_bind _ false); [apply l_gets; lcase; reflexivity|]. intros []; [|step1]. apply l_addDef. split; [reflexivity|]. apply re_same. intros [H|H]; discriminate. }
  apply rel2_if.
  { apply (l_bind _ false); [apply l_gets; lcase; reflexivity|]. intros o. apply (l_bind _ false); [destruct o|]; repeat step3. }
  apply rel2_if; [mod1|]. apply rel2_if; [mod1|]. apply rel2_if; [apply (l_bind _ false); [apply l_flushDefs|intros _; mod1]|]. apply rel2_if; [mod1|step1].
Qed.
Lemma end_shape name name' : List.In name shape_names -> List.In name' shape_names -> endElement (E := E) name = endElement (E := E) name'.
Proof.
  assert (K : forall n, List.In n shape_names -> endElement (E := E) n = (popStyle ;; ret tt)).
  { intros n H. cbn in H. repeat (destruct H as [<-|H]; [reflexivity|]). destruct H. }
  intros H H'. rewrite (K _ H), (K _ H'). reflexivity.
Qed.
Lemma l_chars s : self (charData s).
Proof.
  unfold charData. apply l_get. intros c1 c2 Hc.
  assert (K : c_inTitle c1 = c_inTitle c2 /\ c_inDesc c1 = c_inDesc c2 /\ sv_titles (c_svg c1) = sv_titles (c_svg c2) /\ sv_descs (c_svg c1) = sv_descs (c_svg c2)) by (destruct Hc; auto).
  destruct K as (-> & -> & -> & ->). eapply l_exact; [exact Hc|]. repeat step3.
Qed.
(** ** Documents without definitions *)
Definition fkeep (c c' : cursor) : Prop := c_inDefs c' = c_inDefs c /\ sv_defs (c_svg c') = sv_defs (c_svg c) /\ c_curDef c' = c_curDef c.
Lemma fk_refl c : fkeep c c. Proof. unfold fkeep. auto. Qed.
Lemma fk_trans a b c : fkeep a b -> fkeep b c -> fkeep a c. Proof. unfold fkeep. intuition congruence. Qed.
Ltac fk := intros; split; [reflexivity|split; reflexivity].
Lemma fk_push l : keeps fkeep (pushStyle (E := E) l).
Proof. apply (kp_pushStyle fkeep fk_refl fk_trans); fk. Qed.
Lemma fk_draw fuel name df l : drawFunc (E := E) fuel name = Some df -> name <> "defs"%string -> keeps fkeep (df l).
Proof.
  unfold drawFunc. intros H Hn.
  repeat match type of H with (if String.eqb name ?n then _ else _) = _ => destruct (String.eqb_spec name n); [injection H as <-|] end; try discriminate; try contradiction.
  - apply (kp_svgF fkeep fk_refl fk_trans); fk.
  - intros c. apply fk_refl.
  - apply (kp_lineF fkeep fk_refl fk_trans); fk.
  - apply (kp_stopF fkeep fk_refl fk_trans); fk.
  - apply (kp_rectF fkeep fk_refl fk_trans); fk.
  - apply (kp_circleF fkeep fk_refl fk_trans); fk.
  - apply (kp_circleF fkeep fk_refl fk_trans); fk.
  - apply (kp_polylineF fkeep fk_refl fk_trans); fk.
  - apply (kp_polygonF fkeep fk_refl fk_trans); fk.
  - apply (kp_pathF fkeep fk_refl fk_trans); fk.
  - apply (kp_descF fkeep); fk.
  - apply (kp_titleF fkeep); fk.
  - apply (kp_linearGradientF fkeep fk_refl fk_trans); fk.
  - apply (kp_radialGradientF fkeep fk_refl fk_trans); fk.
  - apply (kp_maskF fkeep fk_refl fk_trans); fk.
Qed.
Lemma use_defs fuel l (c c' : cursor) : useF fuel l c = (c', Ret tt) -> sv_defs (c_svg c) <> [].
Proof.
  destruct fuel as [|fuel]; cbn [useF]; [discriminate|]. unfold bind at 1.
  pose proof (kp_foldM fkeep fk_refl fk_trans useAttr l (EmptyString, fnum E 0, fnum E 0) (kp_useAttr fkeep fk_refl fk_trans) c) as K.
  destruct (foldM useAttr _ l c) as [c1 [[[href x] y]|e| |]]; try discriminate. cbn [fst] in K. destruct K as (_ & K & _).
  unfold bind at 1, modify, deferred. destruct (String.eqb href ""); [discriminate|]. destruct (negb _); [discriminate|].
  unfold bind, lift. destruct (slice href 1 _); try discriminate. unfold gets. cbn [c_set_pc c_svg]. rewrite K.
  intros H G. rewrite G in H. discriminate.
Qed.
Lemma collect_done (c c' : cursor) : collectPath c = (c', Ret tt) -> fkeep c c' /\ pc_path (c_pc c') = [].
Proof.
  unfold collectPath, bind, gets. destruct (pc_path (c_pc c)) eqn:Hp.
  { intros H. injection H as <-. split; [apply fk_refl|exact Hp]. }
  destruct (c_inMask c).
  - destruct (c_mask c) as [m|].
    + unfold topStyle. destruct (c_stack c); [discriminate|]. cbn. intros H. injection H as <-. split; [fk|reflexivity].
    + cbn. intros H. injection H as <-. split; [fk|reflexivity].
  - unfold topStyle. destruct (c_stack c); [discriminate|]. cbn. intros H. injection H as <-. split; [fk|reflexivity].
Qed.
Lemma free_keep c c' : free c -> fkeep c c' -> pc_path (c_pc c') = [] -> free c'.
Proof. intros [H1 H2 H3 H4] (K1 & K2 & K3) H. constructor; congruence. Qed.
Lemma fk_handle s : keeps fkeep (handleError (E := E) s). Proof. apply (kp_handleError fkeep fk_refl fk_trans). fk. Qed.
Lemma free_start fuel name l (c c' : cursor) : name <> "defs"%string -> free c -> readStartElement fuel name l c = (c', Ret tt) -> free c'.
Proof.
  intros Hn Hf. rewrite start_cases, (fr_in _ Hf). cbn [andb]. destruct (drawFuncs fuel name) as [df|] eqn:Hd.
  - unfold bind, attempt. destruct (df l c) as [c1 [[]|e| |]] eqn:H1; try discriminate.
    + destruct (collectPath c1) as [c2 [[]|e| |]] eqn:H2; try discriminate. destruct (collect_done _ _ H2) as [K1 K2]. intros H. injection H as <-.
      apply (free_keep c c2 Hf); [|exact K2]. eapply fk_trans; [|exact K1]. unfold drawFuncs in Hd. destruct (String.eqb name "use").
      * injection Hd as <-. destruct (use_defs _ _ _ _ H1). apply (fr_defs _ Hf).
      * pose proof (fk_draw _ _ _ l Hd Hn c) as K. rewrite H1 in K. exact K.
    + destruct (collectPath c1) as [c2 [[]|e'| |]]; discriminate.
  - intros H. pose proof (fk_handle (cannotProcess name) c) as K. pose proof (kq_handleError (cannotProcess name) c) as K'. rewrite H in K, K'. cbn [fst] in K, K'.
    apply (free_keep c c' Hf K). rewrite K'. apply (fr_path _ Hf).
Qed.
Lemma free_end name (c c' : cursor) : free c -> endElement name c = (c', Ret tt) -> free c'.
Proof.
  intros [H1 H2 H3 H4]. destruct c as [p [vb ti de ps tr ms w h gr df mh] st g gh b1 b2 b3 b4 b5 d m]. cbn in H1, H2, H3, H4. subst.
  unfold endElement, bind, popStyle, gets, modify, flushDefs, onSvg, ret. cbn. destruct st; [discriminate|].
  destruct (String.eqb name "g"); [intros H; injection H as <-; constructor; auto|].
  repeat match goal with |- context [if ?b then _ else _] => destruct b end; try (intros H; injection H as <-; constructor; auto; fail).
  all: destruct m; intros H; injection H as <-; constructor; auto.
Qed.
Lemma free_chars s (c c' : cursor) : free c -> charData s c = (c', Ret tt) -> free c'.
Proof.
  intros Hf H. assert (K : keeps fkeep (charData (E := E) s)) by (apply (kp_charData fkeep fk_refl fk_trans); fk).
  assert (K' : keeps kpath (charData (E := E) s)) by (apply (kp_charData kpath kq_refl kq_trans); intros; reflexivity).
  specialize (K c). specialize (K' c). rewrite H in K, K'. cbn [fst] in K, K'. apply (free_keep c c' Hf K). rewrite K'. apply (fr_path _ Hf).
Qed.
Lemma rs_token (d : bool) fuel t t' s1 s2 t1 : respelled_token E d t t' -> (d = false -> free s1) -> Lc false s1 s2 ->
  stepToken fuel t s1 = (t1, Ret tt) -> exists t2, stepToken fuel t' s2 = (t2, Ret tt) /\ Lc false t1 t2 /\ (d = false -> free t1).
Proof.
  intros Ht Hf Hs H. destruct Ht as [name l name' l' Hr Hn|name name' Hn|s|]; cbn [stepToken] in *.
  - unfold bind in *. destruct (pushStyle l s1) as [u1 [[]|e| |]] eqn:H1; try discriminate. destruct (rs_push _ _ _ _ _ Hr s1 s2 Hs _ _ H1) as (u2 & -> & Hu).
    assert (Hf1 : d = false -> free u1).
    { intros Hd. pose proof (fk_push l s1) as K. pose proof (kq_pushStyle l s1) as K'. rewrite H1 in K, K'. cbn [fst] in K, K'. apply (free_keep s1 u1 (Hf Hd) K). rewrite K'. apply (Hf Hd). }
    destruct (rs_start d fuel name l name' l' u1 u2 t1 Hr Hf1 Hu H) as (t2 & -> & Ht). exists t2. split; [reflexivity|]. split; [exact Ht|].
    intros Hd. exact (free_start fuel name l u1 t1 (Hn Hd) (Hf1 Hd) H).
  - assert (K : endElement (E := E) name' = endElement (E := E) name) by (destruct Hn as [->|[Hn Hn']]; [reflexivity|apply end_shape; assumption]). rewrite K.
    destruct (rs_self _ (l_endElement name) s1 s2 Hs t1 tt H) as (t2 & -> & Ht). exists t2. split; [reflexivity|]. split; [exact Ht|]. intros Hd. exact (free_end name s1 t1 (Hf Hd) H).
  - destruct (rs_self _ (l_chars s) s1 s2 Hs t1 tt H) as (t2 & -> & Ht). exists t2. split; [reflexivity|]. split; [exact Ht|]. intros Hd. exact (free_chars s s1 t1 (Hf Hd) H).
  - injection H as <-. exists s2. split; [reflexivity|]. split; auto.
Qed.
Lemma rs_tokens (d : bool) fuel ts ts' : Forall2 (respelled_token E d) ts ts' -> forall s1 s2 t1, (d = false -> free s1) -> Lc false s1 s2 ->
  mapM (stepToken fuel) ts s1 = (t1, Ret tt) -> exists t2, mapM (stepToken fuel) ts' s2 = (t2, Ret tt) /\ Lc false t1 t2.
Proof.
  induction 1 as [|t t' ts ts' Ht _ IH]; intros s1 s2 t1 Hf Hs; cbn [mapM].
  - intros H. injection H as <-. exists s2. split; [reflexivity|exact Hs].
  - unfold bind. destruct (stepToken fuel t s1) as [u1 [[]|e| |]] eqn:H1; try discriminate. destruct (rs_token d fuel t t' s1 s2 u1 Ht Hf Hs H1) as (u2 & -> & Hu & Hf').
    exact (IH u1 u2 t1 Hf' Hu).
Qed.
Theorem respelled_parse (d : bool) fuel mode ts ts' (s : svg) log : Forall2 (respelled_token E d) ts ts' -> parse fuel mode ts TermEOF = PSvg s None log ->
  exists s' log', parse fuel mode ts' TermEOF = PSvg s' None log' /\ same_svg s s'.
Proof.
  intros Ht H. assert (Hseen : seenTag ts' = seenTag ts).
  { clear H. induction Ht as [|t t' ts ts' Ht _ IH]; [reflexivity|]. destruct Ht; cbn [seenTag existsb]; auto. }
  unfold parse in *. rewrite Hseen.
  destruct (mapM (stepToken fuel) ts (cursor0 mode)) as [c [[]|e| |]] eqn:Hm; try discriminate. destruct (seenTag ts); [|discriminate]. injection H as <- _.
  destruct (rs_tokens d fuel ts ts' Ht (cursor0 mode) (cursor0 mode) c) as (c' & -> & Hc).
  - intros _. constructor; reflexivity.
  - constructor; [|constructor|constructor]. unfold Lpc. auto 10.
  - exact Hm.
  - exists (c_svg c'), (pc_log (c_pc c')). split; [reflexivity|]. destruct Hc. unfold same_svg. cbn. auto 10.
Qed.
End Spell.

(** ** Pairs of elements with the same outline *)
Section Pairs.
Context {E : Env} (add_comm : forall a b, fadd E a b = fadd E b a).
Lemma same_outline_from name l name' l' : List.In name' shape_names -> has_points name' l' ->
  (forall md m vb off, exists p, element_draws m name l (start_at E md vb off) p /\ element_draws m name' l' (start_at E md vb off) p) -> same_outline E name l name' l'.
Proof.
  intros Hn Hp H md m vb off p (_ & _ & df & c & Hd & Hr & Hc). destruct (H md m vb off) as (q & (df1 & c1 & D1 & R1 & P1) & K).
  rewrite Hd in D1. injection D1 as <-. rewrite Hr in R1. injection R1 as <-. subst. split; [exact Hn|]. split; [exact Hp|exact K].
Qed.
Lemma drawn_alike off cs ds : longhand E (pen0 E) cs = longhand E (pen0 E) ds -> draws E off cs = draws E off ds.
Proof. intros H. unfold draws. rewrite <- (longhand_same off cs), <- (longhand_same off ds), H. reflexivity. Qed.
Lemma closes_alike cs ds : longhand E (pen0 E) cs = longhand E (pen0 E) ds -> closes_open E false cs = closes_open E false ds.
Proof. intros H. rewrite <- (longhand_closes cs false (pen0 E)), <- (longhand_closes ds false (pen0 E)), H. reflexivity. Qed.
Lemma path_element fuel attrs s cs ds (c : cursor E) : attr_once "d" attrs s -> spells E s cs -> closes_open E false ds = true -> longhand E (pen0 E) cs = longhand E (pen0 E) ds ->
  element_draws fuel "path" attrs c (draws E (offset c) ds).
Proof.
  intros H1 H2 H3 H4. rewrite <- (drawn_alike _ _ _ H4). rewrite <- (closes_alike _ _ H4) in H3. eapply as_element; [reflexivity|]. exact (path_draws add_comm attrs s cs c H1 H2 H3).
Qed.
Lemma no_points name l : name <> "polyline"%string -> name <> "polygon"%string -> has_points name l. Proof. intros H1 H2 [H|H]; contradiction. Qed.
Theorem paths_alike l l' s t cs ds : attr_once "d" l s -> attr_once "d" l' t -> spells E s cs -> spells E t ds -> closes_open E false cs = true ->
  longhand E (pen0 E) cs = longhand E (pen0 E) ds -> same_outline E "path" l "path" l'.
Proof.
  intros H1 H2 H3 H4 H5 H6. apply same_outline_from; [cbn; tauto|apply no_points; discriminate|]. intros md m vb off. exists (draws E off cs). split.
  - exact (path_element m l s cs cs _ H1 H3 H5 eq_refl).
  - exact (path_element m l' t ds cs _ H2 H4 H5 (eq_sym H6)).
Qed.
Lemma many_lines off ps : forall s, snd (many E (line E off false) s ps) = map (fun q => OpLineTo (dot E off q)) ps.
Proof.
  induction ps as [|p ps IH]; intros s; [reflexivity|]. cbn [many]. unfold line at 1. cbn [absolute]. specialize (IH (mkPen p (from s) NoCtrl)).
  destruct (many E (line E off false) _ ps) as [s2 o2]. cbn in *. rewrite IH. reflexivity.
Qed.
Lemma draws_open off p ps : draws E off [MoveTo false p ps] = OpMoveTo (dot E off p) :: map (fun q => OpLineTo (dot E off q)) ps.
Proof.
  unfold draws, run. cbn [many exec absolute]. pose proof (many_lines off ps (mkPen p p NoCtrl)) as K. destruct (many E (line E off false) _ ps) as [s2 o2]. cbn in *. rewrite K, app_nil_r. reflexivity.
Qed.
Lemma draws_closed off p ps : draws E off [MoveTo false p ps; ClosePath] = OpMoveTo (dot E off p) :: map (fun q => OpLineTo (dot E off q)) ps ++ [OpClose].
Proof.
  unfold draws, run. cbn [many exec absolute]. pose proof (many_lines off ps (mkPen p p NoCtrl)) as K. destruct (many E (line E off false) _ ps) as [s2 o2]. cbn in *. rewrite K. reflexivity.
Qed.
Lemma once_has n l s : attr_once n l s -> has_attr n l = true.
Proof. intros (a & b & -> & _ & _). unfold has_attr. rewrite existsb_app. cbn. rewrite String.eqb_refl, orb_true_r. reflexivity. Qed.
(** a polyline or polygon and path data *)
Theorem polyline_path l l' s t p ps cs : attr_once "points" l s -> spells_numbers E s (flat_map (p1 E) (p :: ps)) -> 2 <= List.length ps ->
  attr_once "d" l' t -> spells E t cs -> longhand E (pen0 E) cs = longhand E (pen0 E) [MoveTo false p ps] ->
  same_outline E "polyline" l "path" l' /\ same_outline E "path" l' "polyline" l.
Proof.
  intros H1 H2 H3 H4 H5 H6.
  assert (K : forall md m vb off, exists q, element_draws m "polyline" l (start_at E md vb off) q /\ element_draws m "path" l' (start_at E md vb off) q).
  { intros md m vb off. eexists. split; [exact (proj1 (poly_elements m l s p ps (start_at E md vb off) eq_refl H1 H2 H3))|].
    pose proof (path_element m l' t cs [MoveTo false p ps] (start_at E md vb off) H4 H5 eq_refl H6) as K. rewrite draws_open in K. exact K. }
  split; apply same_outline_from; try (cbn; tauto); try (apply no_points; discriminate); auto.
  - intros _. exact (once_has _ _ _ H1).
  - intros md m vb off. destruct (K md m vb off) as (q & K1 & K2). eauto.
Qed.
Theorem polygon_path l l' s t p ps cs : attr_once "points" l s -> spells_numbers E s (flat_map (p1 E) (p :: ps)) -> 2 <= List.length ps ->
  attr_once "d" l' t -> spells E t cs -> longhand E (pen0 E) cs = longhand E (pen0 E) [MoveTo false p ps; ClosePath] ->
  same_outline E "polygon" l "path" l' /\ same_outline E "path" l' "polygon" l.
Proof.
  intros H1 H2 H3 H4 H5 H6.
  assert (K : forall md m vb off, exists q, element_draws m "polygon" l (start_at E md vb off) q /\ element_draws m "path" l' (start_at E md vb off) q).
  { intros md m vb off. eexists. split; [exact (proj2 (poly_elements m l s p ps (start_at E md vb off) eq_refl H1 H2 H3))|].
    pose proof (path_element m l' t cs [MoveTo false p ps; ClosePath] (start_at E md vb off) H4 H5 eq_refl H6) as K. rewrite draws_closed in K. exact K. }
  split; apply same_outline_from; try (cbn; tauto); try (apply no_points; discriminate); auto.
  - intros _. exact (once_has _ _ _ H1).
  - intros md m vb off. destruct (K md m vb off) as (q & K1 & K2). eauto.
Qed.
Theorem line_path l l' t x1 y1 x2 y2 cs :
  (forall vb, length_attr vb OfWidth "x1" l x1 /\ length_attr vb OfHeight "y1" l y1 /\ length_attr vb OfWidth "x2" l x2 /\ length_attr vb OfHeight "y2" l y2) ->
  attr_once "d" l' t -> spells E t cs -> longhand E (pen0 E) cs = longhand E (pen0 E) [MoveTo false (x1, y1) [(x2, y2)]] ->
  same_outline E "line" l "path" l' /\ same_outline E "path" l' "line" l.
Proof.
  intros H1 H4 H5 H6.
  assert (K : forall md m vb off, exists q, element_draws m "line" l (start_at E md vb off) q /\ element_draws m "path" l' (start_at E md vb off) q).
  { intros md m vb off. destruct (H1 vb) as (L1 & L2 & L3 & L4). eexists. split; [exact (line_element m l x1 y1 x2 y2 (start_at E md vb off) eq_refl L1 L2 L3 L4)|].
    pose proof (path_element m l' t cs [MoveTo false (x1, y1) [(x2, y2)]] (start_at E md vb off) H4 H5 eq_refl H6) as K. rewrite draws_open in K. exact K. }
  split; apply same_outline_from; try (cbn; tauto); try (apply no_points; discriminate); auto.
  intros md m vb off. destruct (K md m vb off) as (q & K1 & K2). eauto.
Qed.
(** a rectangle with square corners and path data *)
Theorem rect_path l l' t x y w h rx ry cs :
  (forall vb, length_attr vb OfWidth "x" l x /\ length_attr vb OfHeight "y" l y /\ length_attr vb OfWidth "width" l w /\ length_attr vb OfHeight "height" l h
              /\ length_attr vb OfWidth "rx" l rx /\ length_attr vb OfHeight "ry" l ry) ->
  feqb E w (f0 E) = false -> feqb E h (f0 E) = false -> fleb E rx (f0 E) = true -> fleb E ry (f0 E) = true ->
  (forall cx cy, unmoved E cx cy) ->
  let x' := fadd E w x in let y' := fadd E h y in
  attr_once "d" l' t -> spells E t cs -> longhand E (pen0 E) cs = longhand E (pen0 E) [MoveTo false (x, y) [(x', y); (x', y'); (x, y')]; ClosePath] ->
  same_outline E "rect" l "path" l' /\ same_outline E "path" l' "rect" l.
Proof.
  intros H1 Hw Hh Hrx Hry Hu x' y' H4 H5 H6.
  assert (K : forall md m vb off, exists q, element_draws m "rect" l (start_at E md vb off) q /\ element_draws m "path" l' (start_at E md vb off) q).
  { intros md m vb off. destruct (H1 vb) as (L1 & L2 & L3 & L4 & L5 & L6). eexists. split.
    - eapply as_element; [reflexivity|]. apply (rect_draws m l x y w h rx ry (start_at E md vb off)); auto.
    - pose proof (path_element m l' t cs [MoveTo false (x, y) [(x', y); (x', y'); (x, y')]; ClosePath] (start_at E md vb off) H4 H5 eq_refl H6) as K. rewrite draws_closed in K. exact K. }
  split; apply same_outline_from; try (cbn; tauto); try (apply no_points; discriminate); auto.
  intros md m vb off. destruct (K md m vb off) as (q & K1 & K2). eauto.
Qed.
(** a circle and an ellipse *)
Theorem circle_ellipse l l' cx cy r :
  (forall vb, length_attr (E := E) vb OfWidth "cx" l cx /\ length_attr vb OfHeight "cy" l cy /\ length_attr vb OfDiagonal "r" l r
              /\ length_attr vb OfWidth "cx" l' cx /\ length_attr vb OfHeight "cy" l' cy /\ length_attr vb OfWidth "rx" l' r /\ length_attr vb OfHeight "ry" l' r) ->
  has_attr "rx" l = false -> has_attr "ry" l = false -> has_attr "r" l' = false ->
  same_outline E "circle" l "ellipse" l' /\ same_outline E "ellipse" l' "circle" l.
Proof.
  intros H H1 H2 H3.
  assert (K : forall c : cursor E, circleF l c = circleF l' c).
  { intros c. destruct (H (sv_viewBox (c_svg c))) as (L1 & L2 & L3 & L4 & L5 & L6 & L7).
    pose proof (circle_fold l (f0 E) (f0 E) (f0 E) cx cy r c L1 L2 L3 H1 H2) as F1. pose proof (ellipse_fold l' (f0 E) (f0 E) (f0 E) (f0 E) cx cy r r c L4 L5 L6 L7 H3) as F2.
    unfold f0 in F1, F2. unfold circleF. rewrite (bind_step _ _ _ _ _ F1), (bind_step _ _ _ _ _ F2). reflexivity. }
  split; intros md m vb off p (_ & _ & df & c & Hd & Hr & Hc); injection Hd as <-; (split; [cbn; tauto|]); (split; [intros [X|X]; discriminate|]); exists circleF, c; split; try reflexivity; split; try exact Hc.
  - rewrite <- K. exact Hr.
  - rewrite K. exact Hr.
Qed.
End Pairs.

(** in exact arithmetic nothing is moved *)
From Coq Require Import Reals Lra ZArith.
From Flocq Require Import Core.Raux.
From Verif Require Import RealEnv ProofsRect ProofsFlocq.
Lemma unmoved_real (O : ROracles) cx cy : unmoved (RealEnv O) cx cy.
Proof.
  intros p. unfold f0.
  assert (K : mTranslate (mRotate (mTranslate identity cx cy) (fmul (RealEnv O) (fnum (RealEnv O) 0) (fpi_180 (RealEnv O)))) (fneg (RealEnv O) cx) (fneg (RealEnv O) cy) = unitM O).
  { unfold mTranslate, mRotate, identity, mMult, unitM. rewrite !fnum_real. cbn -[Rmult Rplus Ropp cos sin]. rewrite Rmult_0_l, cos_0, sin_0. f_equal; ring. }
  rewrite K. apply tFixed_unit; cbn [grid fst snd]; apply wrap32_int.
Qed.
Theorem rect_path_real (O : ROracles) l l' t (x y w h rx ry : R) cs : let E := RealEnv O in
  (forall vb, length_attr (E := E) vb OfWidth "x" l x /\ length_attr (E := E) vb OfHeight "y" l y /\ length_attr (E := E) vb OfWidth "width" l w /\ length_attr (E := E) vb OfHeight "height" l h
              /\ length_attr (E := E) vb OfWidth "rx" l rx /\ length_attr (E := E) vb OfHeight "ry" l ry) ->
  (w <> 0 -> h <> 0 -> rx <= 0 -> ry <= 0 ->
  attr_once "d" l' t -> spells E t cs ->
  longhand E (pen0 E) cs = longhand E (pen0 E) [MoveTo (E := E) false (x, y) [(w + x, y); (w + x, h + y); (x, h + y)]; ClosePath] ->
  same_outline E "rect" l "path" l' /\ same_outline E "path" l' "rect" l)%R.
Proof.
  intros E0 H1 Hw Hh Hrx Hry H4 H5 H6. subst E0. refine (rect_path (E := RealEnv O) Rplus_comm l l' t x y w h rx ry cs H1 _ _ _ _ (unmoved_real O) H4 H5 H6).
  - cbn. destruct (Req_EM_T w _) as [e|e]; [exfalso; apply Hw; lra|reflexivity].
  - cbn. destruct (Req_EM_T h _) as [e|e]; [exfalso; apply Hh; lra|reflexivity].
  - cbn. destruct (Rle_dec rx _) as [e|e]; [reflexivity|exfalso; apply e; lra].
  - cbn. destruct (Rle_dec ry _) as [e|e]; [reflexivity|exfalso; apply e; lra].
Qed.

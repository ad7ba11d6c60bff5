(** * ProofsMode: the error modes (C06)

    Two runs of the same function, in states that differ in the mode and the log only.  [sim esc]:
    the two runs end alike, in such states again; if [esc] is set the first run may also fail by
    itself. *)
From Coq Require Import Lia.
From Verif Require Export ProofsDoc.
Local Open Scope go_scope.

Section Sim.
Context {S : Type} (R : S -> S -> Prop).
Definition sim {A} (esc : bool) (m1 m2 : M S A) : Prop := forall s1 s2, R s1 s2 ->
  (snd (m1 s1) = snd (m2 s2) /\ R (fst (m1 s1)) (fst (m2 s2))) \/ (esc = true /\ forall a, snd (m1 s1) <> Ret a).
Lemma sim_weak {A} esc (m1 m2 : M S A) : sim false m1 m2 -> sim esc m1 m2.
Proof. intros H s1 s2 Hs. destruct (H s1 s2 Hs) as [K|[K _]]; [now left|discriminate]. Qed.
Lemma sim_ret {A} esc (a : A) : sim esc (ret a) (ret a). Proof. intros s1 s2 H. left. auto. Qed.
Lemma sim_raise {A} esc e : sim esc (@raise S A e) (raise e). Proof. intros s1 s2 H. left. auto. Qed.
Lemma sim_nofuel {A} esc : sim esc (@nofuel S A) nofuel. Proof. intros s1 s2 H. left. auto. Qed.
Lemma sim_lift {A} esc (o : outcome A) : sim esc (lift o) (lift o). Proof. intros s1 s2 H. left. auto. Qed.
Lemma sim_gets {A} esc (f : S -> A) : (forall s t, R s t -> f s = f t) -> sim esc (gets f) (gets f).
Proof. intros Hf s1 s2 H. left. cbn. rewrite (Hf _ _ H). auto. Qed.
Lemma sim_modify esc (f g : S -> S) : (forall s t, R s t -> R (f s) (g t)) -> sim esc (modify f) (modify g).
Proof. intros Hf s1 s2 H. left. cbn. auto. Qed.
Lemma sim_bind {A B} esc (m1 m2 : M S A) (k1 k2 : A -> M S B) :
  sim esc m1 m2 -> (forall a, sim esc (k1 a) (k2 a)) -> sim esc (bind m1 k1) (bind m2 k2).
Proof.
  intros Hm Hk s1 s2 H. unfold bind. destruct (Hm s1 s2 H) as [[K1 K2]|[K1 K2]].
  - destruct (m1 s1) as [t1 o1], (m2 s2) as [t2 o2]. cbn in K1, K2. subst o2. destruct o1 as [a|e| |]; [apply Hk, K2| | |]; left; auto.
  - right. split; [exact K1|]. intros b. destruct (m1 s1) as [t1 [a|e| |]]; cbn in K2 |- *; try discriminate. exfalso. apply (K2 a). reflexivity.
Qed.
(** reading the whole state *)
Lemma sim_get {B} esc (k1 k2 : S -> M S B) : (forall s1 s2, R s1 s2 -> sim esc (k1 s1) (k2 s2)) ->
  sim esc (bind (gets (fun c => c)) k1) (bind (gets (fun c => c)) k2).
Proof. intros H s1 s2 Hs. apply (H s1 s2 Hs s1 s2 Hs). Qed.
Lemma sim_if {A} esc (b : bool) (m1 m2 n1 n2 : M S A) : sim esc m1 m2 -> sim esc n1 n2 -> sim esc (if b then m1 else n1) (if b then m2 else n2).
Proof. destruct b; auto. Qed.
Lemma sim_loop esc fuel : forall i step bound (b1 b2 : nat -> M S unit), (forall i, sim esc (b1 i) (b2 i)) ->
  sim esc (loop fuel i step bound b1) (loop fuel i step bound b2).
Proof.
  induction fuel as [|fuel IH]; intros i step bound b1 b2 Hb; cbn [loop]; destruct (i <? bound); auto using sim_ret, sim_nofuel, sim_bind.
Qed.
Lemma sim_mapM {A} esc (f g : A -> M S unit) l : (forall a, sim esc (f a) (g a)) -> sim esc (mapM f l) (mapM g l).
Proof. intros H. induction l; cbn [mapM]; auto using sim_ret, sim_bind. Qed.
Lemma sim_foldM {A L} esc (f g : L -> A -> M S L) xs : forall l, (forall l a, sim esc (f l a) (g l a)) -> sim esc (foldM f l xs) (foldM g l xs).
Proof. induction xs; intros l H; cbn [foldM]; auto using sim_ret, sim_bind. Qed.
Lemma sim_attempt esc (m1 m2 : M S unit) : sim false m1 m2 -> sim esc (attempt m1) (attempt m2).
Proof.
  intros H s1 s2 Hs. destruct (H s1 s2 Hs) as [[K1 K2]|[K1 _]]; [|discriminate]. left. unfold attempt.
  destruct (m1 s1) as [t1 o1], (m2 s2) as [t2 o2]. cbn in K1, K2. subst o2. destruct o1; auto.
Qed.
Lemma sim_deferred {A} esc f g (m1 m2 : M S A) : sim esc m1 m2 -> (forall s t, R s t -> R (f s) (g t)) -> sim esc (deferred f m1) (deferred g m2).
Proof.
  intros H Hf s1 s2 Hs. unfold deferred. destruct (H s1 s2 Hs) as [[K1 K2]|[K1 K2]]; destruct (m1 s1) as [t1 o1], (m2 s2) as [t2 o2]; cbn in *.
  - left. auto. - right. auto.
Qed.
End Sim.

Section Mode.
Context {E : Env} (md1 md2 : errorMode) (el : bool).
Notation cursor := (cursor E).
Notation pcur := (pcur E).
(** the same state, but for mode and log; the logs are equal if [el] *)
Definition Rp (s1 s2 : pcur) : Prop := pc_mode s1 = md1 /\ exists l, s2 = set_log l (set_mode md2 s1) /\ (el = true -> l = [] /\ pc_log s1 = []).
Definition Rc (c1 c2 : cursor) : Prop := exists p, Rp (c_pc c1) p /\ c2 = c_set_pc p c1.

Ltac rp := intros ? ? (? & ? & -> & ?).
Ltac step1 :=
  match goal with
  | |- forall _, sim _ _ _ _ => intros ?
  | |- forall _ _, sim _ _ _ _ => intros ? ?
  | |- sim _ _ (ret _) _ => apply sim_ret
  | |- sim _ _ (raise _) _ => apply sim_raise
  | |- sim _ _ (lift _) _ => apply sim_lift
  | |- sim _ _ nofuel _ => apply sim_nofuel
  | |- sim _ _ (if _ then _ else _) _ => apply sim_if
  | |- sim _ _ (loop _ _ _ _ _) _ => apply sim_loop
  | |- sim _ _ (mapM _ _) _ => apply sim_mapM
  | |- sim _ _ (foldM _ _ _) _ => apply sim_foldM
  | |- sim _ _ (attempt _) _ => apply sim_attempt
  | |- sim _ _ (bind (gets (fun c => c)) _) _ => apply sim_get; rp; cbv beta zeta; cbn [pc_placeX pc_placeY pc_points pc_curX pc_curY pc_path pc_lastKey set_log set_mode]
  | |- sim _ _ (bind _ _) _ => apply sim_bind
  | |- sim _ _ (match ?x with _ => _ end) _ => destruct x
  | |- sim _ _ (let _ := _ in _) _ => cbv zeta
  end.
Ltac leafp :=
  first [ solve [apply sim_gets; rp; reflexivity]
        | solve [apply sim_modify; rp; split; [assumption|]; eexists; split; [reflexivity|assumption]] ].

Section Path.
Context (esc : bool).
Notation smp m := (sim Rp esc m m).
Lemma sp_pnt i : smp (pnt i). Proof. rp. left. split; [reflexivity|]. split; [assumption|]. eexists; split; [reflexivity|assumption]. Qed.
Lemma sp_points : smp points. Proof. unfold points. leafp. Qed.
Lemma sp_onPath f : smp (onPath f). Proof. unfold onPath. leafp. Qed.
Lemma sp_set (f : pcur -> pcur) : (forall s l, pc_mode (f s) = pc_mode s /\ pc_log (f s) = pc_log s /\ f (set_log l (set_mode md2 s)) = set_log l (set_mode md2 (f s))) -> smp (modify f).
Proof.
  intros H. apply sim_modify. intros s t (H1 & l & -> & H2). destruct (H s l) as (K1 & K2 & K3). split; [congruence|]. exists l. split; [exact K3|]. rewrite K2. exact H2.
Qed.
Lemma sp_valsToAbs y : smp (valsToAbs y). Proof. unfold valsToAbs. leafp. Qed.
Lemma sp_pointsToAbs n : smp (pointsToAbs n).
Proof.
  rp. left. unfold pointsToAbs. cbn [pc_points pc_placeX pc_placeY set_log set_mode].
  destruct (abs_outer _ _ _ _ _ _); cbn [fst snd]; (split; [reflexivity|]; split; [assumption|]; eexists; split; [reflexivity|assumption]).
Qed.
Lemma sp_hasSets n b : smp (hasSetsOrMore n b).
Proof. unfold hasSetsOrMore. repeat (step1 || apply sp_points || apply sp_pointsToAbs). Qed.
Lemma sp_requireSets n b : smp (requireSets n b).
Proof. unfold requireSets. repeat (step1 || apply sp_hasSets). Qed.
Lemma sp_pushFloat s : smp (pushFloat s). Proof. unfold pushFloat. repeat (step1 || leafp). Qed.
Lemma sp_readFloat_loop numStr rs : forall last b, smp (readFloat_loop numStr rs last b).
Proof. induction rs as [|[i n] rs IH]; intros last b; cbn [readFloat_loop]; repeat (step1 || apply sp_pushFloat || apply IH). Qed.
Lemma sp_readFloat s : smp (readFloat s).
Proof. unfold readFloat. repeat (step1 || apply sp_pushFloat || apply sp_readFloat_loop). Qed.
Lemma sp_getPoints_loop d rs : forall li lr, smp (getPoints_loop d rs li lr).
Proof. induction rs as [|[i r] rs IH]; intros li lr; cbn [getPoints_loop]; repeat (step1 || apply sp_readFloat || apply IH). Qed.
Lemma sp_getPoints d : smp (getPoints d).
Proof. unfold getPoints. repeat (step1 || leafp || apply sp_readFloat || apply sp_getPoints_loop). Qed.
Lemma sp_refQuad : smp reflectControlQuad.
Proof. apply sp_set. intros s l. unfold reflect. cbn [pc_lastKey set_log set_mode]. match goal with |- context [is_key (pc_lastKey s) ?x] => destruct (is_key (pc_lastKey s) x) end; auto. Qed.
Lemma sp_refCube : smp reflectControlCube.
Proof. apply sp_set. intros s l. unfold reflect. cbn [pc_lastKey set_log set_mode]. match goal with |- context [is_key (pc_lastKey s) ?x] => destruct (is_key (pc_lastKey s) x) end; auto. Qed.
Lemma sp_fxp x y : smp (fxp x y). Proof. unfold fxp. leafp. Qed.
Lemma sp_fxpt i : smp (fxpt i). Proof. unfold fxpt. repeat (step1 || apply sp_pnt || apply sp_fxp). Qed.
Lemma sp_moveTo i : smp (moveTo i). Proof. unfold moveTo. repeat (step1 || apply sp_pnt || leafp). Qed.
Lemma sp_addPlaceAt i : smp (addPlaceAt i). Proof. unfold addPlaceAt. repeat (step1 || apply sp_pnt || leafp). Qed.
Ltac path1 := step1 || apply sp_requireSets || apply sp_pnt || apply sp_points || apply sp_onPath || apply sp_fxpt || apply sp_fxp || apply sp_moveTo
  || apply sp_refQuad || apply sp_refCube || apply sp_addPlaceAt || apply sp_valsToAbs || leafp.
Lemma sp_addArcFromA i : smp (addArcFromA i).
Proof.
  unfold addArcFromA. repeat path1.
Qed.
Lemma sp_segZ : smp segZ. Proof. unfold segZ. repeat path1. Qed.
Lemma sp_segM b l : smp (segM b l). Proof. unfold segM. repeat path1. Qed.
Lemma sp_segL b l : smp (segL b l). Proof. unfold segL. repeat path1. Qed.
Lemma sp_segV b l : smp (segV b l). Proof. unfold segV. repeat path1. Qed.
Lemma sp_segH b l : smp (segH b l). Proof. unfold segH. repeat path1. Qed.
Lemma sp_segQ b l : smp (segQ b l). Proof. unfold segQ. repeat path1. Qed.
Lemma sp_segT k b l : smp (segT k b l). Proof. unfold segT. repeat path1. Qed.
Lemma sp_segC b l : smp (segC b l). Proof. unfold segC. repeat path1. Qed.
Lemma sp_segS k b l : smp (segS k b l). Proof. unfold segS. repeat path1. Qed.
Lemma sp_segA b l : smp (segA b l). Proof. unfold segA. repeat (path1 || apply sp_addArcFromA). Qed.
Lemma sp_ellipseAt cx cy rx ry : smp (ellipseAt cx cy rx ry).
Proof.
  unfold ellipseAt. repeat path1.
Qed.
(** unknown commands are where the mode matters *)
Context (Hmd : (md1 = StrictErrorMode /\ esc = true) \/ (md1 <> StrictErrorMode /\ md2 <> StrictErrorMode /\ el = false)
  \/ (md1 = md2 /\ md1 <> WarnErrorMode)).
Lemma rp_log s t l1 l2 : el = false -> Rp s t -> Rp (set_log l1 s) (set_log l2 t).
Proof. intros He (H1 & l & -> & _). split; [exact H1|]. exists l2. split; [reflexivity|congruence]. Qed.
Lemma rp_log1 s t l1 : el = false -> Rp s t -> Rp (set_log l1 s) t.
Proof. intros He (H1 & l & -> & _). split; [exact H1|]. exists l. split; [reflexivity|congruence]. Qed.
Lemma rp_log2 s t l2 : el = false -> Rp s t -> Rp s (set_log l2 t).
Proof. intros He (H1 & l & -> & _). split; [exact H1|]. exists l2. split; [reflexivity|congruence]. Qed.
Lemma sp_segUnknown k : smp (segUnknown k).
Proof.
  intros s t Hst. pose proof Hst as (H1 & l & Ht & _). assert (H2 : pc_mode t = md2) by (subst t; reflexivity). clear Ht.
  unfold segUnknown, bind, gets. rewrite H1, H2. destruct Hmd as [[-> ->]|[(N1 & N2 & He)|[<- N1]]].
  - right. split; [reflexivity|]. intros a. discriminate.
  - left. destruct md1, md2; try congruence; cbn; split; auto using rp_log, rp_log1, rp_log2.
  - left. destruct md1; try congruence; cbn; auto.
Qed.
Lemma sp_segSwitch k l : smp (segSwitch k l).
Proof.
  unfold segSwitch. repeat (apply sim_if; [first [apply sp_segZ|apply sp_segM|apply sp_segL|apply sp_segV|apply sp_segH|apply sp_segQ|apply sp_segT|apply sp_segC|apply sp_segS|apply sp_segA]|]).
  apply sp_segUnknown.
Qed.
Lemma sp_addSeg s : smp (addSeg s).
Proof. unfold addSeg. repeat (path1 || apply sp_getPoints || apply sp_segSwitch). Qed.
Lemma sp_compile_loop p rs : forall li, smp (compile_loop p rs li).
Proof. induction rs as [|[i v] rs IH]; intros li; cbn [compile_loop]; repeat (step1 || apply sp_addSeg || apply IH). Qed.
Lemma sp_compilePath p : smp (compilePath p).
Proof. unfold compilePath, pinit. repeat (path1 || apply sp_addSeg || apply sp_compile_loop). Qed.
End Path.

Ltac rc := intros ? ? (? & (? & ? & -> & ?) & ->).
Ltac rcg := split; [|reflexivity]; split; [assumption|]; eexists; split; [reflexivity|assumption].
Ltac stepc :=
  match goal with
  | |- sim _ _ (bind (gets (fun c => c)) _) _ => apply sim_get; rc; cbv beta zeta;
       cbn [c_pc c_svg c_stack c_grad c_gheap c_inTitle c_inDesc c_inGrad c_inDefs c_inMask c_curDef c_mask c_set_pc pc_path set_log set_mode]
  | _ => step1
  end.
Ltac leafc :=
  first [ solve [apply sim_gets; rc; reflexivity]
        | solve [apply sim_modify; rc; eexists; rcg] ].
Section Cur.
Context (esc : bool).
Notation smc m := (sim Rc esc m m).
Lemma sc_liftP {A} (m : M pcur A) : sim Rp esc m m -> smc (liftP m).
Proof.
  intros H c1 c2 (p & Hp & ->). unfold liftP. cbn [c_pc c_set_pc]. specialize (H _ _ Hp).
  destruct (m (c_pc c1)) as [q1 o1], (m p) as [q2 o2]. cbn in H |- *. destruct H as [[K1 K2]|K]; [left|right; exact K].
  split; [exact K1|]. exists q2. auto.
Qed.
Lemma rc_svg f (c1 c2 : cursor) : Rc c1 c2 -> Rc (c_set_svg (f (c_svg c1)) c1) (c_set_svg (f (c_svg c2)) c2).
Proof. intros (p & Hp & ->). exists p. auto. Qed.
Lemma sc_onSvg f : smc (onSvg f).
Proof. apply sim_modify. apply rc_svg. Qed.
Lemma sc_state {A} (m : @C E A) : (forall c p, m (c_set_pc p c) = (c_set_pc p (fst (m c)), snd (m c)) /\ c_pc (fst (m c)) = c_pc c) -> smc m.
Proof.
  intros H c1 c2 (p & Hp & ->). left. destruct (H c1 p) as [-> K]. cbn. split; [reflexivity|]. exists p. rewrite K. auto.
Qed.
Lemma sc_topStyle : smc topStyle.
Proof. apply sc_state. intros c p. unfold topStyle. cbn. destruct (c_stack c); auto. Qed.
Lemma sc_popStyle : smc popStyle.
Proof. apply sc_state. intros c p. unfold popStyle. cbn. destruct (c_stack c); auto. Qed.
Lemma sc_appendStr s id : smc (appendStr s id).
Proof. apply sc_state. intros c p. unfold appendStr. destruct (sl_len s <? sl_cap s); auto. Qed.
Lemma sc_cParseUnit s p : smc (cParseUnit s p).
Proof. apply sc_state. intros c q. auto. Qed.
Lemma sc_onGrad f : smc (onGrad f).
Proof. apply sc_state. intros c p. unfold onGrad. cbn. destruct (c_grad c) as [q|]; [destruct (nth_error (c_gheap c) q)|]; auto. Qed.
Lemma sc_registerGrad id : smc (registerGrad id).
Proof. apply sc_state. intros c p. unfold registerGrad. cbn. destruct (c_grad c) as [q|]; auto. Qed.
Lemma sc_theGrad : smc theGrad.
Proof. apply sc_state. intros c p. unfold theGrad. cbn. destruct (c_grad c) as [q|]; auto. Qed.
Lemma sc_newGrad : smc newGrad. Proof. apply sc_state. intros c p. auto. Qed.
Lemma sc_flushDefs : smc flushDefs.
Proof. apply sc_state. intros c p. unfold flushDefs, modify. cbn. destruct (c_curDef c); auto. Qed.
Lemma sc_addDef d : smc (addDef d). Proof. apply sc_state. auto. Qed.
Lemma sc_readGradURL v d : smc (readGradURL v d).
Proof. unfold readGradURL. repeat stepc. Qed.
Lemma sc_parseDashes l : smc (parseDashes l).
Proof. induction l; cbn [parseDashes]; repeat (stepc || apply sc_cParseUnit || assumption). Qed.
Lemma sc_cGetPoints v : smc (cGetPoints v). Proof. apply sc_liftP, sp_getPoints. Qed.
Lemma sc_cPoints : smc cPoints. Proof. unfold cPoints. leafc. Qed.
Lemma sc_curXY : smc curXY. Proof. unfold curXY. leafc. Qed.
Lemma sc_onCPath f : smc (onCPath f). Proof. apply sc_liftP, sp_onPath. Qed.
Lemma sc_transformStep m t : smc (transformStep m t).
Proof. unfold transformStep. repeat (stepc || apply sc_cGetPoints || leafc). Qed.
Lemma sc_parseTransform v : smc (parseTransform v).
Proof. unfold parseTransform. repeat (stepc || apply sc_topStyle || apply sc_transformStep). Qed.
Lemma sc_readGradAttr a : smc (readGradAttr a).
Proof. unfold readGradAttr. repeat (stepc || apply sc_parseTransform || apply sc_onGrad). Qed.
Ltac unit1 := stepc || apply sc_cParseUnit || apply sc_onSvg || apply sc_cPoints || apply sc_curXY || apply sc_onCPath || apply sc_onGrad || apply sc_registerGrad
  || apply sc_newGrad || apply sc_theGrad || apply sc_readGradAttr || leafc.
End Cur.
Lemma sc_svgAttr esc l a : sim Rc esc (svgAttr l a) (svgAttr l a).
Proof.
  destruct l as [w h]. unfold svgAttr.
  repeat (stepc || apply sc_onSvg || apply sc_cGetPoints || apply sc_cPoints).
Qed.
Lemma sc_polyAttr esc l a : sim Rc esc (polyAttr l a) (polyAttr l a).
Proof. unfold polyAttr. repeat (stepc || apply sc_cGetPoints || apply sc_cPoints). Qed.
Lemma sc_polylineF esc attrs : sim Rc esc (polylineF attrs) (polylineF attrs).
Proof.
  unfold polylineF. repeat (stepc || apply sc_polyAttr || apply sc_cPoints || apply sc_onCPath || (apply sc_liftP; apply sp_fxpt)).
Qed.
Lemma sc_polygonF esc attrs : sim Rc esc (polygonF attrs) (polygonF attrs).
Proof. unfold polygonF. repeat (stepc || apply sc_polylineF || apply sc_cPoints || apply sc_onCPath). Qed.
Section Draw.
Context (esc : bool) (Hmd : (md1 = StrictErrorMode /\ esc = true) \/ (md1 <> StrictErrorMode /\ md2 <> StrictErrorMode /\ el = false)
  \/ (md1 = md2 /\ md1 <> WarnErrorMode)).
Notation smc m := (sim Rc esc m m).
Ltac unit1 := stepc || apply sc_cParseUnit || apply sc_onSvg || apply sc_cPoints || apply sc_curXY || apply sc_onCPath || apply sc_onGrad || apply sc_registerGrad
  || apply sc_newGrad || apply sc_theGrad || apply sc_readGradAttr || leafc.
Lemma sc_handleError msg : smc (handleError msg).
Proof.
  intros c1 c2 (p & Hp & ->). pose proof Hp as (H1 & l & Ht & _). assert (H2 : pc_mode p = md2) by (subst p; reflexivity). clear Ht.
  unfold handleError, bind, gets. cbn [c_pc c_set_pc]. rewrite H1, H2. destruct Hmd as [[-> ->]|[(N1 & N2 & He)|[<- N1]]].
  - right. split; [reflexivity|]. intros a. discriminate.
  - left. destruct md1, md2; try congruence; cbn; (split; [reflexivity|]); eexists; (split; [|reflexivity]); cbn; eauto using rp_log, rp_log1, rp_log2.
  - left. assert (Rc c1 (c_set_pc p c1)) by (exists p; auto). destruct md1; try congruence; cbn; auto.
Qed.
Lemma sc_readStyleAttr st k v : smc (readStyleAttr st k v).
Proof.
  unfold readStyleAttr. repeat (stepc || apply sc_readGradURL || apply sc_handleError || apply sc_cParseUnit || apply sc_parseDashes || apply sc_parseTransform || apply sc_appendStr).
Qed.
Lemma sc_stylePair st p : smc (stylePair st p).
Proof. unfold stylePair. repeat (stepc || apply sc_readStyleAttr). Qed.
Lemma sc_pushStyle attrs : smc (pushStyle attrs).
Proof. unfold pushStyle. repeat (stepc || apply sc_topStyle || apply sc_stylePair || leafc). Qed.
Lemma sc_svgF attrs : smc (svgF attrs).
Proof. unfold svgF. repeat (apply sc_svgAttr || unit1). Qed.
Lemma sc_rectAttr l a : smc (rectAttr l a).
Proof. destruct l as [[[[[x y] w] h] rx] ry]. unfold rectAttr. repeat unit1. Qed.
Lemma sc_rectF fuel attrs : smc (rectF fuel attrs).
Proof. unfold rectF. repeat (apply sc_rectAttr || unit1). Qed.
Lemma sc_maskAttr l a : smc (maskAttr l a).
Proof. destruct l as [[[[x y] w] h] rx]. unfold maskAttr. repeat unit1. Qed.
Lemma sc_maskF attrs : smc (maskF attrs).
Proof. unfold maskF. repeat (apply sc_maskAttr || unit1). Qed.
Lemma sc_circleAttr l a : smc (circleAttr l a).
Proof. destruct l as [[[x y] w] h]. unfold circleAttr. repeat unit1. Qed.
Lemma sc_circleF attrs : smc (circleF attrs).
Proof. unfold circleF. repeat (apply sc_circleAttr || (apply sc_liftP; apply sp_ellipseAt) || unit1). Qed.
Lemma sc_lineAttr l a : smc (lineAttr l a).
Proof. destruct l as [[[x y] w] h]. unfold lineAttr. repeat unit1. Qed.
Lemma sc_lineF attrs : smc (lineF attrs).
Proof. unfold lineF. repeat (apply sc_lineAttr || (apply sc_liftP; apply sp_fxp) || unit1). Qed.
Lemma sc_pathF attrs : smc (pathF attrs).
Proof. unfold pathF. repeat (stepc || (apply sc_liftP; apply (sp_compilePath _ Hmd))). Qed.
Lemma sc_linAttr l a : smc (linAttr l a).
Proof. destruct l as [[[x y] w] h]. unfold linAttr. repeat unit1. Qed.
Lemma sc_linearGradientF attrs : smc (linearGradientF attrs).
Proof. unfold linearGradientF. repeat (apply sc_linAttr || unit1). Qed.
Lemma sc_radAttr l a : smc (radAttr l a).
Proof. destruct l as [[[[[x y] w] h] rx] ry]. unfold radAttr. repeat unit1. Qed.
Lemma sc_radialGradientF attrs : smc (radialGradientF attrs).
Proof. unfold radialGradientF. repeat (apply sc_radAttr || unit1). Qed.
Lemma sc_stopAttr l a : smc (stopAttr l a).
Proof. unfold stopAttr. repeat unit1. Qed.
Lemma sc_stopF attrs : smc (stopF attrs).
Proof. unfold stopF. repeat (apply sc_stopAttr || unit1). Qed.
Lemma sc_useAttr l a : smc (useAttr l a).
Proof. destruct l as [[x y] w]. unfold useAttr. repeat unit1. Qed.
Lemma sc_drawFunc fuel name df attrs : drawFunc fuel name = Some df -> smc (df attrs).
Proof.
  unfold drawFunc. intros H.
  repeat match type of H with (if ?b then _ else _) = _ => destruct b; [injection H as <-|] end; try discriminate;
    first [apply sc_svgF|apply sim_ret|apply sc_lineF|apply sc_stopF|apply sc_rectF|apply sc_circleF|apply sc_polylineF|apply sc_polygonF|apply sc_pathF
          |apply sc_linearGradientF|apply sc_radialGradientF|apply sc_maskF|idtac].
  all: unfold descF, defsF, titleF; repeat unit1.
Qed.
Lemma sc_useLoop draw defs : (forall t df attrs, draw t = Some df -> smc (df attrs)) -> smc (useLoop draw defs).
Proof.
  intros Hd. induction defs as [|d defs IH]; cbn [useLoop]; [apply sim_ret|].
  apply sim_if. { apply sim_bind; [apply sc_popStyle|]. intros _'. exact IH. }
  apply sim_bind; [apply sc_pushStyle|]. intros _'. destruct (draw (d_tag d)) as [df|] eqn:Hdr; [|apply sc_handleError].
  apply sim_bind; [eapply Hd; eassumption|]. intros _''. apply sim_bind; [|intros _3; exact IH]. apply sim_if; [apply sc_popStyle|apply sim_ret].
Qed.
Lemma sc_useF fuel : forall attrs, smc (useF fuel attrs).
Proof.
  induction fuel as [|fuel IH]; intros attrs; cbn [useF]; [apply sim_nofuel|].
  apply sim_bind; [apply sim_foldM; apply sc_useAttr|]. intros [[href x] y]. apply sim_bind; [leafc|]. intros _'.
  apply sim_deferred.
  - repeat (apply sim_if; [apply sim_raise|]). apply sim_bind; [apply sim_lift|]. intros id. apply sim_bind; [leafc|]. intros defs.
    destruct (mget id defs) as [ds|]; [|apply sim_raise]. apply sc_useLoop. intros t df at' Hdf.
    destruct (String.eqb t "use"); [injection Hdf as <-; apply IH|]. eapply sc_drawFunc; eassumption.
  - rc. eexists. rcg.
Qed.
Lemma sc_drawFuncs fuel name df attrs : drawFuncs fuel name = Some df -> smc (df attrs).
Proof. unfold drawFuncs. destruct (String.eqb name "use"); intros H; [injection H as <-; apply sc_useF|eapply sc_drawFunc; eassumption]. Qed.
Lemma sc_collectPath : sim Rc false collectPath collectPath.
Proof.
  unfold collectPath. apply sim_get. intros c1 c2 (p & (H1 & l & -> & H2) & ->). cbn [c_pc c_set_pc pc_path set_log set_mode c_inMask c_mask].
  destruct (pc_path (c_pc c1)) as [|o q]; [apply sim_ret|]. apply sim_bind; [|intros _'; apply sc_onCPath].
  destruct (c_inMask c1); [destruct (c_mask c1) as [m|]; [|apply sim_ret]|]; (apply sim_bind; [apply sc_topStyle|]; intros st); [leafc|apply sc_onSvg].
Qed.
Lemma sc_start fuel name attrs : smc (readStartElement fuel name attrs).
Proof.
  unfold readStartElement. apply sim_get. intros c1 c2 (p & (H1 & l & -> & H2) & ->). cbn [c_pc c_set_pc c_inGrad c_inDefs]. cbv zeta.
  apply sim_if. { apply sim_bind; [apply sim_if; [apply sc_flushDefs|apply sim_ret]|]. intros _'. apply sc_addDef. }
  destruct (drawFuncs fuel name) as [df|] eqn:Hdf; [|apply sc_handleError]. clear l H1 H2 c1.
  intros c1 c2 Hc. pose proof (sc_drawFuncs _ _ _ attrs Hdf c1 c2 Hc) as [[K1 K2]|[K1 K2]].
  - unfold bind, attempt. destruct (df attrs c1) as [t1 o1], (df attrs c2) as [t2 o2]. cbn in K1, K2. subst o2.
    destruct o1 as [[]|e| |]; try (left; cbn; auto; fail).
    + destruct (sc_collectPath t1 t2 K2) as [[Q1 Q2]|[Q1 _]]; [|discriminate]. left. destruct (collectPath t1) as [u1 o1], (collectPath t2) as [u2 o2]. cbn in Q1, Q2. subst o2. destruct o1; auto.
    + destruct (sc_collectPath t1 t2 K2) as [[Q1 Q2]|[Q1 _]]; [|discriminate]. left. destruct (collectPath t1) as [u1 o1], (collectPath t2) as [u2 o2]. cbn in Q1, Q2. subst o2. destruct o1; auto.
  - right. split; [exact K1|]. intros a. unfold bind, attempt. destruct (df attrs c1) as [t1 [[]|e| |]]; cbn in K2; try (cbn; discriminate).
    + exfalso. apply (K2 tt). reflexivity.
    + destruct (collectPath t1) as [u1 [x|x| |]]; cbn; discriminate.
Qed.
Lemma sc_end name : smc (endElement name).
Proof.
  unfold endElement. apply sim_bind; [apply sc_popStyle|]. intros _'.
  repeat (stepc || apply sc_addDef || apply sc_onSvg || apply sc_flushDefs || leafc).
Qed.
Lemma sc_chars s : smc (charData s).
Proof. unfold charData. repeat (stepc || apply sc_onSvg). Qed.
Lemma sc_token fuel t : smc (stepToken fuel t).
Proof.
  destruct t as [name attrs|name|s|]; cbn [stepToken]; [|apply sc_end|apply sc_chars|apply sim_ret].
  apply sim_bind; [apply sc_pushStyle|]. intros _'. apply sc_start.
Qed.
Lemma sc_tokens fuel toks : smc (mapM (stepToken fuel) toks).
Proof. apply sim_mapM. apply sc_token. Qed.
End Draw.
End Mode.

Section Parse.
Context {E : Env}.
Lemma Rc_start md1 md2 el : Rc (E := E) md1 md2 el (cursor0 md1) (cursor0 md2).
Proof. exists (pc0 md2). split; [|reflexivity]. split; [reflexivity|]. exists []. auto. Qed.
Lemma Rc_svg md1 md2 el (c1 c2 : cursor E) : Rc md1 md2 el c1 c2 -> c_svg c2 = c_svg c1.
Proof. intros (p & _ & ->). reflexivity. Qed.
Lemma Rc_log md1 md2 (c1 c2 : cursor E) : Rc md1 md2 true c1 c2 -> pc_log (c_pc c2) = [] /\ pc_log (c_pc c1) = [].
Proof. intros (p & (_ & l & -> & H) & ->). exact (H eq_refl). Qed.
(** without the log *)
Definition nolog (r : presult E) : presult E := match r with PSvg s e _ => PSvg s e [] | r => r end.
Theorem lenient_same fuel md1 md2 toks tm : md1 <> StrictErrorMode -> md2 <> StrictErrorMode ->
  nolog (parse fuel md1 toks tm) = nolog (parse fuel md2 toks tm).
Proof.
  intros H1 H2. destruct (sc_tokens md1 md2 false false (or_intror (or_introl (conj H1 (conj H2 eq_refl)))) fuel toks _ _ (Rc_start md1 md2 false)) as [[K1 K2]|[K _]]; [|discriminate].
  unfold parse. destruct (mapM (stepToken fuel) toks (cursor0 md1)) as [c1 o1], (mapM (stepToken fuel) toks (cursor0 md2)) as [c2 o2]. cbn in K1, K2. subst o2.
  apply Rc_svg in K2. destruct o1; [destruct tm; [destruct (seenTag toks)|]| | |]; cbn; rewrite ?K2; reflexivity.
Qed.
Theorem strict_same fuel md toks s log : parse (E := E) fuel StrictErrorMode toks TermEOF = PSvg s None log -> parse fuel md toks TermEOF = PSvg s None log.
Proof.
  intros H. unfold parse in H |- *.
  destruct (sc_tokens StrictErrorMode md true true (or_introl (conj eq_refl eq_refl)) fuel toks _ _ (Rc_start StrictErrorMode md true)) as [[K1 K2]|[_ K]].
  - destruct (mapM (stepToken fuel) toks (cursor0 StrictErrorMode)) as [c1 o1], (mapM (stepToken fuel) toks (cursor0 md)) as [c2 o2]. cbn in K1, K2. subst o2.
    destruct o1; try discriminate. destruct (Rc_log _ _ _ _ K2) as [L1 L2]. rewrite (Rc_svg _ _ _ _ _ K2), L1. rewrite L2 in H. exact H.
  - destruct (mapM (stepToken fuel) toks (cursor0 StrictErrorMode)) as [c1 [a|e| |]]; try discriminate. exfalso. apply (K a). reflexivity.
Qed.
(** only the warning mode logs *)
Theorem quiet_modes fuel md toks tm (s : svg E) e log : md <> WarnErrorMode -> parse fuel md toks tm = PSvg s e log -> log = [].
Proof.
  intros Hm H. unfold parse in H.
  destruct (sc_tokens md md true false (or_intror (or_intror (conj eq_refl Hm))) fuel toks _ _ (Rc_start md md true)) as [[_ K2]|[K _]]; [|discriminate].
  apply Rc_log in K2. destruct K2 as [_ K2]. destruct (mapM (stepToken fuel) toks (cursor0 md)) as [c1 [a|x| |]]; try discriminate; cbn in K2.
  - destruct tm; [destruct (seenTag toks)|]; try discriminate; injection H as _ _ <-; exact K2.
  - injection H as _ _ <-. exact K2.
Qed.
End Parse.
